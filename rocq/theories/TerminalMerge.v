(** * TerminalMerge: where a terminal shows the cells of merged rows. *)
From Coq Require Import ZifyBool ZifyNat.
From Verif Require Import GoBase Utf8 Runewidth ConditionSpec Width TextSpec AlignSpec AlignProofs Table TableContract
  Merge MergeSpec MergeLayout MergeRender MergeSearch MergeTheory MergeWidths MergePlan TerminalSpec TerminalProofs.
Local Open Scope Z_scope.

Section Types.
Context {Item Val E : Type}.
Notation Col := (Column Item Val E).

Definition StyledCell (c : Condition) (s : str) : Prop := Styled s /\ rawWidth c s < 65536.

Lemma styled_nil : Styled [].
Proof. constructor. split; constructor. Qed.
Lemma styled_space : Styled [space].
Proof. constructor. exact (spaces_simple 1). Qed.
Lemma space_raw c : Reachable c -> rawWidth c [space] = 1.
Proof. intros Hc. exact (WidthProofs.rawWidth_spaces c 1 Hc ltac:(lia)). Qed.

Lemma styled_vwidth c s : Reachable c -> StyledCell c s -> vwidth c s = rawWidth c s.
Proof. intros Hc [H1 H2]. pose proof (styled_nonneg c s Hc H1). unfold vwidth, u16. apply Z.mod_small. lia. Qed.

(** Each part followed by the separator. *)
Definition followed (sep : str) (parts : list str) : str := concat (map (fun p => p ++ sep) parts).

Lemma followed_shown c sep parts : Reachable c -> Styled sep -> Forall Styled parts -> forall x st, exists st',
  show c (mkT Ground x st) (followed sep parts) = mkT Ground (x + zsum (map (fun p => rawWidth c p + rawWidth c sep) parts)) st'.
Proof.
  intros Hc Hs Hp x st. unfold followed.
  destruct (show_concat c (map (fun p => p ++ sep) parts) Hc) with (x := x) (st := st) as (st' & E1).
  { rewrite Forall_map. eapply Forall_impl; [|exact Hp]. intros p H. apply styled_app; auto. }
  exists st'. rewrite E1. f_equal. f_equal. rewrite map_map. f_equal.
  clear - Hp Hs Hc. induction Hp as [|p l Hp _ IH]; [reflexivity|]. cbn [map]. rewrite IH, rawWidth_styled_app by auto. reflexivity.
Qed.

Lemma styled_concat l : Forall Styled l -> Styled (concat l).
Proof. induction 1; [apply styled_nil|]. cbn. apply styled_app; auto. Qed.
Lemma followed_styled sep parts : Styled sep -> Forall Styled parts -> Styled (followed sep parts).
Proof.
  intros Hs Hp. apply styled_concat. rewrite Forall_map. eapply Forall_impl; [|exact Hp]. intros p H. apply styled_app; auto.
Qed.

Lemma join_raw c sep parts : Reachable c -> Styled sep -> Forall Styled parts -> parts <> [] ->
  Styled (TableContract.join sep parts)
  /\ rawWidth c (TableContract.join sep parts) = zsum (map (rawWidth c) parts) + (slen parts - 1) * rawWidth c sep.
Proof.
  intros Hc Hs Hp. induction Hp as [|p l Hp Hl IH]; intros Hne; [congruence|].
  destruct l as [|q l].
  - cbn [TableContract.join map]. split; auto. unfold slen, zsum. cbn. lia.
  - destruct IH as [I1 I2]; [congruence|].
    change (TableContract.join sep (p :: q :: l)) with (p ++ sep ++ TableContract.join sep (q :: l)).
    split; [auto using styled_app|]. rewrite !rawWidth_styled_app by (auto using styled_app).
    rewrite I2. cbn [map]. unfold slen. cbn [length]. unfold zsum. cbn [fold_right]. nia.
Qed.

Lemma join_at c sep pre (x : str) post : Reachable c -> Styled sep -> Forall Styled post ->
  exists tail, TableContract.join sep (pre ++ x :: post) = followed sep pre ++ x ++ tail /\ Styled tail.
Proof.
  intros Hc Hs Hp. unfold followed. induction pre as [|y pre (tail & IH & Ht)].
  - destruct post as [|y post]; cbn [app concat map].
    + exists []. cbn. rewrite app_nil_r. split; [reflexivity|apply styled_nil].
    + exists (sep ++ TableContract.join sep (y :: post)). split; [reflexivity|]. apply styled_app; auto.
      apply (join_raw c sep); auto. discriminate.
  - exists tail. split; [|exact Ht]. cbn [app concat map].
    destruct (pre ++ x :: post) as [|z l] eqn:El; [destruct pre; discriminate|].
    change (TableContract.join sep (y :: z :: l)) with (y ++ sep ++ TableContract.join sep (z :: l)).
    rewrite IH, <- !app_assoc. reflexivity.
Qed.

Lemma built_styled c (col : Col) s w : Reachable c -> BuiltIn c col -> 0 <= w < 65536 -> StyledCell c s -> vwidth c s <= w ->
  Styled (alignment_of c col s w) /\ rawWidth c (alignment_of c col s w) = w
  /\ exists p q, alignment_of c col s w = spaces p ++ s ++ spaces q.
Proof.
  intros Hc Hb Hw Hs Hv.
  assert (K : exists a, alignment_of c col s w = align a c s w).
  { unfold alignment_of. destruct Hb as [->|(a & ->)]; [exists ALeft; reflexivity|eauto]. }
  destruct K as (a & ->). destruct Hs as [H1 H2]. split; [apply styled_align; auto|]. split.
  - rewrite align_rawWidth by (auto using styled_paddable). rewrite styled_vwidth in * by (try split; auto). lia.
  - destruct (align_spaces a c s w Hw) as (l & r & -> & _). eauto.
Qed.

Definition Fits c (ws : list Z) (row : list str) : Prop :=
  forall i s w, nth_error row i = Some s -> nth_error ws i = Some w -> StyledCell c s /\ vwidth c s <= w.

Lemma cells_raw c (cols : list Col) : Reachable c -> Forall (BuiltIn c) cols -> forall ws row,
  length ws = length cols -> (length cols <= length row)%nat -> Forall (fun w => 0 <= w < 65536) ws -> Fits c ws row ->
  Forall Styled (cells c cols ws row) /\ map (rawWidth c) (cells c cols ws row) = ws.
Proof.
  intros Hc. induction 1 as [|col cols Hb _ IH]; intros ws row Hl Hr Hw Hf.
  - destruct ws; [|discriminate]. split; [constructor|reflexivity].
  - destruct ws as [|w ws]; [discriminate|]. destruct row as [|s row]; [cbn in Hr; lia|]. cbn [cells].
    inversion Hw as [|? ? Hw1 Hw2]; subst. destruct (Hf 0%nat s w eq_refl eq_refl) as [Hs Hv].
    destruct (built_styled c col s w Hc Hb Hw1 Hs Hv) as (B1 & B2 & _).
    destruct (IH ws row) as [I1 I2]; [cbn in Hl; lia|cbn in Hr; lia|auto| |].
    { intros i. exact (Hf (S i)). }
    split; [constructor; auto|]. cbn [map]. rewrite B2, I2. reflexivity.
Qed.

Lemma cells_nth c (cols : list Col) : forall ws row i col s w,
  nth_error cols i = Some col -> nth_error ws i = Some w -> nth_error row i = Some s ->
  nth_error (cells c cols ws row) i = Some (alignment_of c col s w).
Proof.
  induction cols as [|col0 cols IH]; intros ws row [|i] col s w H1 H2 H3; try discriminate;
    destruct ws as [|w0 ws]; try discriminate; destruct row as [|s0 row]; try discriminate; cbn in *.
  - congruence.
  - eapply IH; eauto.
Qed.

Lemma nth_split_at {A} (l : list A) i x : nth_error l i = Some x -> l = firstn i l ++ x :: skipn (S i) l.
Proof.
  revert i. induction l as [|y l IH]; intros [|i] H; try discriminate; cbn in *; [congruence|]. f_equal. auto.
Qed.

(** The column where cell [i] of group [k] starts. *)
Definition cell_start c (cols : list Col) sep (W : nat -> list Z) (k i : nat) : Z :=
  zsum (map (fun j => group_width cols W j + rawWidth c sep) (seq 0 k)) + zsum (map (fun w => w + 1) (firstn i (W k))).

Lemma blocks_raw c (cols : list Col) W : Reachable c -> cols <> [] -> Forall (BuiltIn c) cols -> forall line s,
  (forall k row, nth_error line k = Some row -> length (W (s + k)%nat) = length cols /\ Forall (fun w => 0 <= w < 65536) (W (s + k)%nat)
     /\ (length cols <= length row)%nat /\ Fits c (W (s + k)%nat) row) ->
  Forall Styled (blocks_from c cols W s line)
  /\ map (rawWidth c) (blocks_from c cols W s line) = map (group_width cols W) (seq s (length line)).
Proof.
  intros Hc Hne Hb. induction line as [|row line IH]; intros s H; [split; [constructor|reflexivity]|].
  cbn [blocks_from length seq map].
  destruct (H 0%nat row eq_refl) as (H1 & H2 & H3 & H4). rewrite Nat.add_0_r in *.
  destruct (cells_raw c cols Hc Hb (W s) row H1 H3 H2 H4) as [C1 C2].
  assert (CL : length (cells c cols (W s) row) = length cols) by (rewrite <- (map_length (rawWidth c)), C2; auto).
  destruct (join_raw c [space] (cells c cols (W s) row) Hc styled_space C1) as [J1 J2].
  { intros K. rewrite K in CL. destruct cols; [congruence|discriminate]. }
  destruct (IH (S s)) as [I1 I2].
  { intros k r Hk. rewrite Nat.add_succ_comm. exact (H (S k) r Hk). }
  split; [constructor; auto|]. rewrite I2. f_equal. unfold block. rewrite J2, C2, space_raw by auto.
  unfold group_width, slen. rewrite CL. lia.
Qed.

Lemma line_shown c (cols : list Col) sep W g line : Reachable c -> cols <> [] -> Forall (BuiltIn c) cols -> Styled sep ->
  (forall k row, nth_error line k = Some row -> length (W k) = length cols /\ Forall (fun w => 0 <= w < 65536) (W k)
     /\ (length cols <= length row)%nat /\ Fits c (W k) row) ->
  forall k row i s col, nth_error line k = Some row -> nth_error row i = Some s -> nth_error cols i = Some col ->
  exists before p q after st st', line_text c cols sep W g line = before ++ (spaces p ++ s ++ spaces q) ++ after
    /\ show c home before = mkT Ground (cell_start c cols sep W k i) st
    /\ show c home (before ++ spaces p ++ s ++ spaces q) = mkT Ground (cell_start c cols sep W k i + nth i (W k) 0) st'
    /\ Styled before /\ Styled (spaces p ++ s ++ spaces q) /\ Styled after.
Proof.
  intros Hc Hne Hb Hsep H k row i s col Hk Hi Hcol.
  pose proof (nth_split_at _ _ _ Hk) as Hsplit.
  assert (Hlen : length (firstn k line) = k) by (rewrite firstn_length; apply nth_some_lt in Hk; lia).
  assert (EBB : forall s l1 l2, blocks_from c cols W s (l1 ++ l2) = blocks_from c cols W s l1 ++ blocks_from c cols W (s + length l1) l2).
  { clear. intros s l1. revert s. induction l1 as [|r l1 IH]; intros s l2.
    - cbn. rewrite Nat.add_0_r. reflexivity.
    - cbn [app blocks_from length]. rewrite IH. rewrite Nat.add_succ_r. reflexivity. }
  assert (EQ : blocks_from c cols W 0 line = blocks_from c cols W 0 (firstn k line) ++ block c cols (W k) row :: blocks_from c cols W (S k) (skipn (S k) line)).
  { transitivity (blocks_from c cols W 0 (firstn k line ++ row :: skipn (S k) line)); [f_equal; exact Hsplit|].
    rewrite EBB, Hlen. reflexivity. }
  destruct (H k row Hk) as (H1 & H2 & H3 & H4).
  destruct (cells_raw c cols Hc Hb (W k) row H1 H3 H2 H4) as [C1 C2].
  destruct (nth_error (W k) i) as [w|] eqn:Ew.
  2:{ exfalso. apply nth_error_None in Ew. apply nth_some_lt in Hcol. lia. }
  pose proof (cells_nth c cols (W k) row i col s w Hcol Ew Hi) as Hcell.
  assert (Hw : 0 <= w < 65536) by (rewrite Forall_forall in H2; apply H2; eapply nth_error_In; eauto).
  destruct (H4 i s w Hi Ew) as [Hs Hv].
  rewrite Forall_forall in Hb. destruct (built_styled c col s w Hc (Hb col (nth_error_In _ _ Hcol)) Hw Hs Hv) as (B1 & B2 & p & q & Epq).
  rewrite <- Forall_forall in Hb.
  pose proof (nth_split_at _ _ _ Hcell) as HC. rewrite Epq in *.
  unfold line_text, blocks. rewrite EQ, <- app_assoc. cbn [app].
  destruct (blocks_raw c cols W Hc Hne Hb line 0 H) as [F1 _]. rewrite EQ in F1. apply Forall_app in F1. destruct F1 as [_ F1].
  destruct (join_at c sep (blocks_from c cols W 0 (firstn k line)) (block c cols (W k) row)
    (blocks_from c cols W (S k) (skipn (S k) line) ++ (if (length line <? g)%nat then [[]] else []))) as (tail1 & -> & T1); auto.
  { inversion F1; subst. apply Forall_app. split; auto. destruct (length line <? g)%nat; repeat constructor. }
  unfold block. rewrite HC.
  destruct (join_at c [space] (firstn i (cells c cols (W k) row)) (spaces p ++ s ++ spaces q) (skipn (S i) (cells c cols (W k) row))) as (tail2 & -> & T2); auto using styled_space.
  { rewrite HC in C1. apply Forall_app in C1. destruct C1 as [_ C1]. inversion C1; auto. }
  destruct (blocks_raw c cols W Hc Hne Hb (firstn k line) 0) as [I1 I2].
  { intros j r Hj. cbn. apply H. rewrite nth_firstn in Hj. destruct (j <? k)%nat; [exact Hj|discriminate]. }
  set (bs := blocks_from c cols W 0 (firstn k line)) in *.
  assert (C1' : Forall Styled (firstn i (cells c cols (W k) row))).
  { rewrite HC in C1. apply Forall_app in C1. tauto. }
  destruct (followed_shown c sep bs Hc Hsep I1 0 []) as (st1 & S1).
  destruct (followed_shown c [space] _ Hc styled_space C1' (0 + zsum (map (fun p => rawWidth c p + rawWidth c sep) bs)) st1) as (st2 & S2).
  assert (V : ValidUTF8 (followed sep bs)) by (apply styled_valid, followed_styled; auto).
  assert (V2 : ValidUTF8 (followed [space] (firstn i (cells c cols (W k) row)))) by (apply styled_valid, followed_styled; auto using styled_space).
  assert (E1 : 0 + zsum (map (fun p => rawWidth c p + rawWidth c sep) bs) + zsum (map (fun p => rawWidth c p + rawWidth c [space]) (firstn i (cells c cols (W k) row)))
    = cell_start c cols sep W k i).
  { unfold cell_start. rewrite space_raw by auto.
    rewrite <- (map_map (rawWidth c) (fun x => x + rawWidth c sep)), I2, map_map, Hlen.
    rewrite <- (map_map (rawWidth c) (fun x => x + 1)), <- (firstn_map (rawWidth c)), C2. lia. }
  rewrite E1 in S2.
  destruct (show_styled c _ Hc B1) as (st3 & S3).
  exists (followed sep bs ++ followed [space] (firstn i (cells c cols (W k) row))), p, q, (tail2 ++ tail1), st2, (st3 ++ st2).
  split; [rewrite <- !app_assoc; reflexivity|].
  assert (S4 : show c home (followed sep bs ++ followed [space] (firstn i (cells c cols (W k) row))) = mkT Ground (cell_start c cols sep W k i) st2).
  { rewrite show_app by auto. unfold home. rewrite S1, S2. reflexivity. }
  split; [exact S4|]. split; [rewrite show_app|].
  - rewrite S4, S3, B2. f_equal. f_equal. erewrite nth_error_nth by exact Ew. reflexivity.
  - unfold ValidUTF8. rewrite WidthProofs.decode_valid_app by auto. apply Forall_app. split; auto.
  - split; [|split; [exact B1|apply styled_app; auto]]. apply styled_app; apply followed_styled; auto using styled_space.
Qed.

Theorem merged_shown c (t : Table Item Val E) cols items rows :
  Printable t cols items rows -> Reachable c -> Forall (BuiltIn c) cols ->
  Forall (Forall (fun s => Styled s /\ rawWidth c s < 65536)) rows ->
  (forall name, 0 <= Width t name < 65536) ->
  forall m fuel sep maxWidth compact, Styled sep -> reckoned t cols sep mod 65536 <> 0 -> FitsRecorded c t cols rows ->
  let r := merge m fuel c t (fun _ => true) items maxWidth sep compact in
  stop r = Finished ->
  exists g lines (start width : nat -> nat -> Z), (1 <= g)%nat /\ Layout m g rows lines /\ length (written r) = length lines
    /\ forall l line txt k row i s, nth_error lines l = Some line -> nth_error (written r) l = Some txt ->
       nth_error line k = Some row -> nth_error row i = Some s -> (i < length cols)%nat ->
       exists before p q after st st', txt = before ++ (spaces p ++ s ++ spaces q) ++ after ++ [x0a]
         /\ show c home before = mkT Ground (start k i) st
         /\ show c home (before ++ spaces p ++ s ++ spaces q) = mkT Ground (start k i + width k i) st'.
Proof.
  intros P Hc Hb Hst Hw m fuel sep maxWidth compact Hs Hr HF r Hf.
  assert (K : exists g lines W, Plan c t cols sep maxWidth m rows compact g lines W /\ written r = printed c cols sep W g lines).
  { destruct m; [exact (horizontal_output c t cols items rows P fuel maxWidth sep compact Hr Hf)
                |exact (vertical_output c t cols items rows P fuel maxWidth sep compact Hr Hf)]. }
  destruct K as (g & lines & W & Pl & Ew).
  exists g, lines, (cell_start c cols sep W), (fun k i => nth i (W k) 0).
  destruct Pl as (g0 & Hg0 & HS & HL & HW). pose proof (estimate_pos t cols sep maxWidth) as Hp.
  assert (Hg : (1 <= g)%nat) by (destruct compact; [destruct HS|]; lia).
  split; [exact Hg|]. split; [exact HL|]. rewrite Ew. unfold printed. rewrite map_length. split; [reflexivity|].
  intros l line txt k row i s Hl Ht Hk Hi Hic. rewrite nth_error_map, Hl in Ht. injection Ht as <-.
  assert (Hin : forall r0, In r0 line -> In r0 rows).
  { intros r0 H0. eapply line_rows; eauto. eapply nth_error_In; eauto. }
  rewrite Forall_forall in Hst.
  assert (HI : IsolatedCells cols rows).
  { intros r0 j s0 H0 H1 _. specialize (Hst r0 H0). rewrite Forall_forall in Hst. destruct (Hst s0 (nth_error_In _ _ H1)) as [H2 _].
    split; [apply styled_not_prev|apply styled_not_next]; auto. }
  assert (HA : Aligned c cols W g line).
  { eapply chosen_aligned; eauto. eapply nth_error_In; eauto. }
  destruct HA as [A1 A2 A3 A4]. rewrite Forall_forall in A2.
  destruct (nth_error cols i) as [col|] eqn:Ecol; [|apply nth_error_None in Ecol; lia].
  destruct (line_shown c cols sep W g line Hc) with (k := k) (row := row) (i := i) (s := s) (col := col)
    as (before & p & q & after & st & st' & E1 & E2 & E3 & _); auto.
  - eapply reckoned_cols; eauto.
  - intros j r0 Hj. destruct (A3 j) as [A5 A6]; [apply nth_some_lt in Hj; lia|]. split; auto. split; auto.
    split; [apply A2; eapply nth_error_In; eauto|].
    intros x y w Hy Hwx. destruct (A4 j r0 Hj x y w Hy Hwx) as [A7 _]. split; [|exact A7].
    specialize (Hst r0 (Hin r0 (nth_error_In _ _ Hj))). rewrite Forall_forall in Hst. apply (Hst y (nth_error_In _ _ Hy)).
  - exists before, p, q, after, st, st'. rewrite E1, <- !app_assoc. auto.
Qed.
End Types.
