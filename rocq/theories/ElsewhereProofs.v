(** * ElsewhereProofs: where another terminal shows aligned and merged text. *)
From Coq Require Import ZifyBool ZifyNat.
From Verif Require Import GoBase Utf8 Runewidth ConditionSpec RunewidthProofs Width WidthProofs TextSpec AlignSpec AlignProofs Table TableContract TableOpsProofs StringWidthProofs
  RuneTheory Merge MergeSpec MergeLayout MergeRender MergeSearch MergeTheory MergeWidths MergePlan TerminalSpec TerminalProofs TerminalMerge ElsewhereSpec.
Local Open Scope Z_scope.

Lemma excess_styled c d s : Reachable c -> Reachable d -> Styled s -> excess c d s = rawWidth d s - rawWidth c s.
Proof.
  intros Hc Hd Hs. unfold excess, home. destruct (show_styled c s Hc Hs) as (s1 & ->). destruct (show_styled d s Hd Hs) as (s2 & ->).
  cbn. lia.
Qed.
Lemma excess_simple c d s : Reachable c -> Reachable d -> SimpleText s ->
  excess c d s = zsum (map (fun r => RuneWidth d r - RuneWidth c r) (runes s)).
Proof.
  intros Hc Hd Hs. rewrite excess_styled by (auto using st_end). rewrite !rawWidth_simple by auto.
  induction (runes s) as [|r l IH]; [reflexivity|]. cbn [map]. rewrite !zsum_cons. lia.
Qed.
Lemma excess_app c d a b : Reachable c -> Reachable d -> Styled a -> Styled b -> excess c d (a ++ b) = excess c d a + excess c d b.
Proof. intros Hc Hd Ha Hb. rewrite !excess_styled, !rawWidth_styled_app by (auto using styled_app). lia. Qed.
Lemma excess_blank c d n : Reachable c -> Reachable d -> excess c d (spaces n) = 0.
Proof.
  intros Hc Hd. rewrite excess_styled by (auto using st_end, spaces_simple). destruct (Z.le_gt_cases 0 n).
  - rewrite !rawWidth_spaces by auto. lia.
  - replace (spaces n) with (spaces 0) by (unfold spaces; replace (Z.to_nat n) with 0%nat by lia; reflexivity).
    rewrite !rawWidth_spaces by (auto; lia). lia.
Qed.
Lemma excess_around c d s p q : Reachable c -> Reachable d -> Styled s -> excess c d (spaces p ++ s ++ spaces q) = excess c d s.
Proof.
  intros Hc Hd Hs. rewrite !excess_app, !excess_blank by (auto using styled_app, st_end, spaces_simple). lia.
Qed.
Lemma excesses_app c d a b : excesses c d (a ++ b) = excesses c d a + excesses c d b.
Proof. unfold excesses. rewrite map_app, zsum_app. reflexivity. Qed.
Lemma excesses_cons c d a b : excesses c d (a :: b) = excess c d a + excesses c d b.
Proof. unfold excesses. cbn [map]. apply zsum_cons. Qed.

(** Rune by rune: escape sequences add nothing. *)
Lemma excess_runes c d s : Reachable c -> Reachable d -> Styled s ->
  excess c d s = zsum (map (fun r => RuneWidth d r - RuneWidth c r) (runes s)).
Proof.
  intros Hc Hd. induction 1 as [t Ht|t e s Ht He Hs IH]; [apply excess_simple; auto|].
  assert (Te : Styled e).
  { replace e with ([] ++ e ++ []) by (apply app_nil_r). apply st_more; auto; [|apply st_end]; split; constructor. }
  assert (Tt : Styled t) by (apply st_end; auto).
  rewrite !excess_app, excess_simple, IH by (auto using styled_app).
  rewrite (runes_valid_app t) by (apply styled_valid; auto). rewrite (runes_valid_app e) by (apply styled_valid; auto).
  rewrite !map_app, !zsum_app. f_equal. f_equal.
  rewrite excess_styled, !quiet_zero by auto.
  destruct (quiet_runes_printable e He) as (post & -> & Hp). cbn [map]. rewrite zsum_cons, !esc_width by auto.
  induction Hp as [|r l Hr _ IHp]; [reflexivity|]. cbn [map]. rewrite zsum_cons, !width_printable by auto. lia.
Qed.

(** Runes an East Asian terminal shows wider take exactly one cell more. *)
Lemma widened st st' r : RuneWidth (plainCondition true st') r - RuneWidth (plainCondition false st) r
  = if differs (plainCondition false st) (plainCondition true st') r then 1 else 0.
Proof.
  unfold differs. pose proof (RuneWidth_mono st st' r) as M. pose proof (RuneWidth_zero st st' r) as Z0.
  destruct (RuneWidth_total (plainCondition false st) r (r_fresh false st)) as (T1 & _).
  destruct (RuneWidth_total (plainCondition true st') r (r_fresh true st')) as (T2 & _).
  set (a := RuneWidth (plainCondition false st) r) in *. set (b := RuneWidth (plainCondition true st') r) in *. clearbody a b.
  destruct Z0 as [Z0 Z1]. destruct (Z.eqb_spec a b); cbn [negb]; [lia|]. destruct T1 as [T1|[T1|T1]]; [specialize (Z0 T1)| |]; lia.
Qed.
Lemma excess_counts st st' s : Styled s ->
  excess (plainCondition false st) (plainCondition true st') s
  = slen (filter (differs (plainCondition false st) (plainCondition true st')) (runes s)).
Proof.
  intros Hs. rewrite excess_runes by (auto using r_fresh). unfold slen. induction (runes s) as [|r l IH]; [reflexivity|].
  cbn [map filter]. rewrite zsum_cons, widened, IH. destruct (differs _ _ r); cbn [length]; lia.
Qed.
Lemma excess_zero c d s : Reachable c -> Reachable d -> Styled s -> (forall r, In r (runes s) -> RuneWidth c r = RuneWidth d r) -> excess c d s = 0.
Proof.
  intros Hc Hd Hs H. rewrite excess_runes by auto. induction (runes s) as [|r l IH]; [reflexivity|].
  cbn [map]. rewrite zsum_cons, IH by (intros; apply H; right; auto). rewrite (H r (or_introl eq_refl)). lia.
Qed.

Lemma show_elsewhere c d s x st : Reachable c -> Reachable d -> Styled s ->
  exists st', show d (mkT Ground x st) s = mkT Ground (x + rawWidth c s + excess c d s) st'.
Proof.
  intros Hc Hd Hs. destruct (show_styled d s Hd Hs) as (s2 & ->). exists (s2 ++ st). rewrite excess_styled by auto. f_equal. lia.
Qed.

Lemma followed_excess c d sep parts : Reachable c -> Reachable d -> Styled sep -> Forall Styled parts ->
  excess c d (followed sep parts) = excesses c d parts + slen parts * excess c d sep.
Proof.
  intros Hc Hd Hs. induction 1 as [|p l Hp Hl IH].
  - unfold followed, slen. cbn. lia.
  - unfold followed in *. cbn [map concat]. rewrite !excess_app by (auto using styled_app; apply followed_styled; auto).
    rewrite IH, excesses_cons. unfold slen. cbn [length]. nia.
Qed.
Lemma join_excess c d sep parts : Reachable c -> Reachable d -> Styled sep -> Forall Styled parts -> excess c d sep = 0 ->
  excess c d (TableContract.join sep parts) = excesses c d parts.
Proof.
  intros Hc Hd Hs Hp H0. induction Hp as [|p l Hp Hl IH]; [reflexivity|]. destruct l as [|q l].
  - cbn [TableContract.join]. rewrite excesses_cons. unfold excesses. cbn. lia.
  - change (TableContract.join sep (p :: q :: l)) with (p ++ sep ++ TableContract.join sep (q :: l)).
    assert (J : Styled (TableContract.join sep (q :: l))) by (apply (join_raw c sep (q :: l)); auto; discriminate).
    rewrite !excess_app by (auto using styled_app). rewrite IH, H0, !excesses_cons. lia.
Qed.

Lemma firstn_sub {A} n (l : list A) x : In x (firstn n l) -> In x l.
Proof. revert l. induction n as [|n IH]; intros [|y l]; cbn; try tauto. intros [H|H]; auto. Qed.

Section Types.
Context {Item Val E : Type}.
Notation Col := (Column Item Val E).

Lemma cells_excess c d (cols : list Col) : Reachable c -> Reachable d -> Forall (BuiltIn c) cols -> forall ws row,
  length ws = length cols -> (length cols <= length row)%nat -> Forall (fun w => 0 <= w < 65536) ws -> Fits c ws row ->
  forall i, excesses c d (firstn i (cells c cols ws row)) = excesses c d (firstn i (firstn (length cols) row)).
Proof.
  intros Hc Hd. induction 1 as [|col cols Hb _ IH]; intros ws row Hl Hr Hw Hf i.
  - destruct ws; [|discriminate]. cbn. destruct i; reflexivity.
  - destruct ws as [|w ws]; [discriminate|]. destruct row as [|s row]; [cbn in Hr; lia|].
    destruct i as [|i]; [reflexivity|]. cbn [cells length firstn].
    inversion Hw as [|? ? Hw1 Hw2]; subst. destruct (Hf 0%nat s w eq_refl eq_refl) as [Hs Hv].
    destruct (built_styled c col s w Hc Hb Hw1 Hs Hv) as (B1 & B2 & p & q & ->).
    rewrite !excesses_cons, excess_around by (auto; apply Hs). f_equal.
    apply IH; [cbn in Hl; lia|cbn in Hr; lia|auto|]. intros j. exact (Hf (S j)).
Qed.

Lemma space_excess c d : Reachable c -> Reachable d -> excess c d [space] = 0.
Proof. intros. exact (excess_blank c d 1 ltac:(auto) ltac:(auto)). Qed.

Lemma blocks_excess c d (cols : list Col) W : Reachable c -> Reachable d -> cols <> [] -> Forall (BuiltIn c) cols -> forall line s,
  (forall k row, nth_error line k = Some row -> length (W (s + k)%nat) = length cols /\ Forall (fun w => 0 <= w < 65536) (W (s + k)%nat)
     /\ (length cols <= length row)%nat /\ Fits c (W (s + k)%nat) row) ->
  excesses c d (blocks_from c cols W s line) = excesses c d (concat (map (firstn (length cols)) line)).
Proof.
  intros Hc Hd Hne Hb. induction line as [|row line IH]; intros s H; [reflexivity|].
  cbn [blocks_from map concat]. destruct (H 0%nat row eq_refl) as (H1 & H2 & H3 & H4). rewrite Nat.add_0_r in *.
  destruct (cells_raw c cols Hc Hb (W s) row H1 H3 H2 H4) as [C1 C2].
  assert (CL : length (cells c cols (W s) row) = length cols) by (rewrite <- (map_length (rawWidth c)), C2; auto).
  rewrite excesses_cons, excesses_app. f_equal.
  - unfold block. rewrite join_excess by (auto using styled_space, space_excess).
    rewrite <- (firstn_all (cells c cols (W s) row)), (cells_excess c d cols Hc Hd Hb) by auto. rewrite CL, firstn_firstn, Nat.min_id. reflexivity.
  - apply IH. intros k r Hk. rewrite Nat.add_succ_comm. exact (H (S k) r Hk).
Qed.

Lemma line_elsewhere c d (cols : list Col) sep W g line : Reachable c -> Reachable d -> cols <> [] -> Forall (BuiltIn c) cols -> Styled sep ->
  (forall k row, nth_error line k = Some row -> length (W k) = length cols /\ Forall (fun w => 0 <= w < 65536) (W k)
     /\ (length cols <= length row)%nat /\ Fits c (W k) row) ->
  forall k row i s col, nth_error line k = Some row -> nth_error row i = Some s -> nth_error cols i = Some col ->
  let at_ := cell_start c cols sep W k i + Z.of_nat k * excess c d sep + excesses c d (cells_before (length cols) line k i) in
  exists before p q after st st', line_text c cols sep W g line = before ++ (spaces p ++ s ++ spaces q) ++ after
    /\ show d home before = mkT Ground at_ st
    /\ show d home (before ++ spaces p ++ s ++ spaces q) = mkT Ground (at_ + nth i (W k) 0 + excess c d s) st'.
Proof.
  intros Hc Hd Hne Hb Hsep H k row i s col Hk Hi Hcol at_.
  pose proof (nth_split_at _ _ _ Hk) as Hsplit.
  assert (Hlen : length (firstn k line) = k) by (rewrite firstn_length; apply nth_some_lt in Hk; lia).
  assert (EBB : forall s l1 l2, blocks_from c cols W s (l1 ++ l2) = blocks_from c cols W s l1 ++ blocks_from c cols W (s + length l1) l2).
  { clear. intros s l1. revert s. induction l1 as [|r l1 IH]; intros s l2.
    - cbn. rewrite Nat.add_0_r. reflexivity.
    - cbn [app blocks_from length]. rewrite IH. rewrite Nat.add_succ_r. reflexivity. }
  assert (EQ : blocks_from c cols W 0 line = blocks_from c cols W 0 (firstn k line) ++ block c cols (W k) row :: blocks_from c cols W (S k) (skipn (S k) line)).
  { transitivity (blocks_from c cols W 0 (firstn k line ++ row :: skipn (S k) line)); [f_equal; exact Hsplit|].
    rewrite EBB, Hlen. reflexivity. }
  destruct (H k row Hk) as (H1 & H2 & H3 & H4).
  destruct (cells_raw c cols Hc Hb (W k) row H1 H3 H2 H4) as [C1 C2].
  destruct (nth_error (W k) i) as [w|] eqn:Ew.
  2:{ exfalso. apply nth_error_None in Ew. apply nth_some_lt in Hcol. lia. }
  pose proof (cells_nth c cols (W k) row i col s w Hcol Ew Hi) as Hcell.
  assert (Hw : 0 <= w < 65536) by (rewrite Forall_forall in H2; apply H2; eapply nth_error_In; eauto).
  destruct (H4 i s w Hi Ew) as [Hs Hv].
  rewrite Forall_forall in Hb. destruct (built_styled c col s w Hc (Hb col (nth_error_In _ _ Hcol)) Hw Hs Hv) as (B1 & B2 & p & q & Epq).
  rewrite <- Forall_forall in Hb.
  pose proof (nth_split_at _ _ _ Hcell) as HC. rewrite Epq in *.
  unfold line_text, blocks. rewrite EQ, <- app_assoc. cbn [app].
  destruct (blocks_raw c cols W Hc Hne Hb line 0 H) as [F1 _]. rewrite EQ in F1. apply Forall_app in F1. destruct F1 as [_ F1].
  destruct (join_at c sep (blocks_from c cols W 0 (firstn k line)) (block c cols (W k) row)
    (blocks_from c cols W (S k) (skipn (S k) line) ++ (if (length line <? g)%nat then [[]] else []))) as (tail1 & -> & T1); auto.
  { inversion F1; subst. apply Forall_app. split; auto. destruct (length line <? g)%nat; repeat constructor. }
  unfold block. rewrite HC.
  destruct (join_at c [space] (firstn i (cells c cols (W k) row)) (spaces p ++ s ++ spaces q) (skipn (S i) (cells c cols (W k) row))) as (tail2 & -> & T2); auto using styled_space.
  { rewrite HC in C1. apply Forall_app in C1. destruct C1 as [_ C1]. inversion C1; auto. }
  assert (HB : forall j r, nth_error (firstn k line) j = Some r -> length (W (0 + j)%nat) = length cols /\ Forall (fun w => 0 <= w < 65536) (W (0 + j)%nat)
     /\ (length cols <= length r)%nat /\ Fits c (W (0 + j)%nat) r).
  { intros j r Hj. cbn. apply H. rewrite nth_firstn in Hj. destruct (j <? k)%nat; [exact Hj|discriminate]. }
  destruct (blocks_raw c cols W Hc Hne Hb (firstn k line) 0 HB) as [I1 I2].
  pose proof (blocks_excess c d cols W Hc Hd Hne Hb (firstn k line) 0 HB) as IX.
  set (bs := blocks_from c cols W 0 (firstn k line)) in *.
  assert (C1' : Forall Styled (firstn i (cells c cols (W k) row))).
  { rewrite HC in C1. apply Forall_app in C1. tauto. }
  set (before := followed sep bs ++ followed [space] (firstn i (cells c cols (W k) row))).
  assert (Y1 : Styled (followed sep bs)) by (apply followed_styled; auto).
  assert (Y2 : Styled (followed [space] (firstn i (cells c cols (W k) row)))) by (apply followed_styled; auto using styled_space).
  assert (YB : Styled before) by (apply styled_app; auto).
  assert (R1 : rawWidth c before = cell_start c cols sep W k i).
  { unfold before. rewrite rawWidth_styled_app by auto.
    destruct (followed_shown c sep bs Hc Hsep I1 0 []) as (st1 & S1). destruct (show_styled c _ Hc Y1) as (u1 & U1). rewrite U1 in S1.
    destruct (followed_shown c [space] _ Hc styled_space C1' 0 []) as (st2 & S2). destruct (show_styled c _ Hc Y2) as (u2 & U2). rewrite U2 in S2.
    injection S1 as S1 _. injection S2 as S2 _. unfold cell_start. rewrite space_raw in S2 by auto.
    rewrite <- (map_map (rawWidth c) (fun x => x + rawWidth c sep)), I2, map_map, Hlen in S1.
    rewrite <- (map_map (rawWidth c) (fun x => x + 1)), <- (firstn_map (rawWidth c)), C2 in S2. lia. }
  assert (LB : slen bs = Z.of_nat k).
  { unfold slen, bs. f_equal. rewrite <- (map_length (rawWidth c)). fold bs. rewrite I2, map_length, seq_length. exact Hlen. }
  assert (Hil : (i < length cols)%nat) by (apply nth_some_lt in Hcol; exact Hcol).
  assert (X1 : excess c d before = Z.of_nat k * excess c d sep + excesses c d (cells_before (length cols) line k i)).
  { unfold before. rewrite excess_app by auto. rewrite !followed_excess, space_excess by (auto using styled_space).
    rewrite LB, IX. rewrite (cells_excess c d cols Hc Hd Hb (W k) row H1 H3 H2 H4 i).
    rewrite firstn_firstn, Nat.min_l by lia. unfold cells_before. rewrite Hk, excesses_app. lia. }
  destruct (show_elsewhere c d before 0 [] Hc Hd YB) as (st & S). rewrite R1, X1 in S.
  destruct (show_elsewhere c d _ at_ st Hc Hd B1) as (st' & S'). rewrite B2, excess_around in S' by (auto; apply Hs).
  exists before, p, q, (tail2 ++ tail1), st, st'. unfold home.
  assert (SB : show d (mkT Ground 0 []) before = mkT Ground at_ st) by (rewrite S; f_equal; unfold at_; lia).
  split; [unfold before; rewrite <- !app_assoc; reflexivity|]. split; [exact SB|].
  rewrite show_app by (apply styled_valid; exact YB). rewrite SB, S'. f_equal. f_equal. f_equal. symmetry. apply nth_error_nth. exact Ew.
Qed.

Theorem merged_elsewhere c d (t : Table Item Val E) cols items rows :
  Printable t cols items rows -> Reachable c -> Reachable d -> Forall (BuiltIn c) cols ->
  Forall (Forall (fun s => Styled s /\ rawWidth c s < 65536)) rows ->
  (forall name, 0 <= Width t name < 65536) ->
  forall m fuel sep maxWidth compact, Styled sep -> reckoned t cols sep mod 65536 <> 0 -> FitsRecorded c t cols rows ->
  let r := merge m fuel c t (fun _ => true) items maxWidth sep compact in
  stop r = Finished ->
  exists g lines (start width : nat -> nat -> Z), (1 <= g)%nat /\ Layout m g rows lines /\ length (written r) = length lines
    /\ forall l line txt k row i s, nth_error lines l = Some line -> nth_error (written r) l = Some txt ->
       nth_error line k = Some row -> nth_error row i = Some s -> (i < length cols)%nat ->
       exists before p q after st st', txt = before ++ (spaces p ++ s ++ spaces q) ++ after ++ [x0a]
         /\ show d home before = mkT Ground (start k i + excesses c d (cells_before (length cols) line k i)) st
         /\ show d home (before ++ spaces p ++ s ++ spaces q)
            = mkT Ground (start k i + excesses c d (cells_before (length cols) line k i) + width k i + excess c d s) st'.
Proof.
  intros P Hc Hd Hb Hst Hw m fuel sep maxWidth compact Hs Hr HF r Hf.
  assert (K : exists g lines W, Plan c t cols sep maxWidth m rows compact g lines W /\ written r = printed c cols sep W g lines).
  { destruct m; [exact (horizontal_output c t cols items rows P fuel maxWidth sep compact Hr Hf)
                |exact (vertical_output c t cols items rows P fuel maxWidth sep compact Hr Hf)]. }
  destruct K as (g & lines & W & Pl & Ew).
  exists g, lines, (fun k i => cell_start c cols sep W k i + Z.of_nat k * excess c d sep), (fun k i => nth i (W k) 0).
  destruct Pl as (g0 & Hg0 & HS & HL & HW). pose proof (estimate_pos t cols sep maxWidth) as Hp.
  assert (Hg : (1 <= g)%nat) by (destruct compact; [destruct HS|]; lia).
  split; [exact Hg|]. split; [exact HL|]. rewrite Ew. unfold printed. rewrite map_length. split; [reflexivity|].
  intros l line txt k row i s Hl Ht Hk Hi Hic. rewrite nth_error_map, Hl in Ht. injection Ht as <-.
  assert (Hin : forall r0, In r0 line -> In r0 rows).
  { intros r0 H0. eapply line_rows; eauto. eapply nth_error_In; eauto. }
  rewrite Forall_forall in Hst.
  assert (HI : IsolatedCells cols rows).
  { intros r0 j s0 H0 H1 _. specialize (Hst r0 H0). rewrite Forall_forall in Hst. destruct (Hst s0 (nth_error_In _ _ H1)) as [H2 _].
    split; [apply styled_not_prev|apply styled_not_next]; auto. }
  assert (HA : Aligned c cols W g line).
  { eapply chosen_aligned; eauto. eapply nth_error_In; eauto. }
  destruct HA as [A1 A2 A3 A4]. rewrite Forall_forall in A2.
  destruct (nth_error cols i) as [col|] eqn:Ecol; [|apply nth_error_None in Ecol; lia].
  destruct (line_elsewhere c d cols sep W g line Hc Hd) with (k := k) (row := row) (i := i) (s := s) (col := col)
    as (before & p & q & after & st & st' & E1 & E2 & E3); auto.
  - eapply reckoned_cols; eauto.
  - intros j r0 Hj. destruct (A3 j) as [A5 A6]; [apply nth_some_lt in Hj; lia|]. split; auto. split; auto.
    split; [apply A2; eapply nth_error_In; eauto|].
    intros x y w Hy Hwx. destruct (A4 j r0 Hj x y w Hy Hwx) as [A7 _]. split; [|exact A7].
    specialize (Hst r0 (Hin r0 (nth_error_In _ _ Hj))). rewrite Forall_forall in Hst. apply (Hst y (nth_error_In _ _ Hy)).
  - exists before, p, q, after, st, st'. rewrite E1, <- !app_assoc. auto.
Qed.

Lemma excesses_zero c d l : Reachable c -> Reachable d ->
  (forall s, In s l -> Styled s /\ forall r, In r (runes s) -> RuneWidth c r = RuneWidth d r) -> excesses c d l = 0.
Proof.
  intros Hc Hd H. induction l as [|s l IH]; [reflexivity|]. rewrite excesses_cons.
  destruct (H s (or_introl eq_refl)) as [H1 H2]. rewrite excess_zero by auto. rewrite IH; [reflexivity|]. intros; apply H; right; auto.
Qed.

(** If no cell has a rune on which the terminals differ, both show straight columns. *)
Theorem merged_same c d (t : Table Item Val E) cols items rows :
  Printable t cols items rows -> Reachable c -> Reachable d -> Forall (BuiltIn c) cols ->
  Forall (Forall (fun s => Styled s /\ rawWidth c s < 65536)) rows ->
  Forall (Forall (fun s => forall r, In r (runes s) -> RuneWidth c r = RuneWidth d r)) rows ->
  (forall name, 0 <= Width t name < 65536) ->
  forall m fuel sep maxWidth compact, Styled sep -> reckoned t cols sep mod 65536 <> 0 -> FitsRecorded c t cols rows ->
  let r := merge m fuel c t (fun _ => true) items maxWidth sep compact in
  stop r = Finished ->
  exists g lines (start width : nat -> nat -> Z), (1 <= g)%nat /\ Layout m g rows lines /\ length (written r) = length lines
    /\ forall l line txt k row i s, nth_error lines l = Some line -> nth_error (written r) l = Some txt ->
       nth_error line k = Some row -> nth_error row i = Some s -> (i < length cols)%nat ->
       exists before p q after st st', txt = before ++ (spaces p ++ s ++ spaces q) ++ after ++ [x0a]
         /\ show d home before = mkT Ground (start k i) st
         /\ show d home (before ++ spaces p ++ s ++ spaces q) = mkT Ground (start k i + width k i) st'.
Proof.
  intros P Hc Hd Hb Hst Heq Hw m fuel sep maxWidth compact Hs Hr HF r Hf.
  destruct (merged_elsewhere c d t cols items rows P Hc Hd Hb Hst Hw m fuel sep maxWidth compact Hs Hr HF Hf)
    as (g & lines & start & width & Hg & HL & HN & K).
  exists g, lines, start, width. split; [exact Hg|]. split; [exact HL|]. split; [exact HN|].
  intros l line txt k row i s Hl Ht Hk Hi Hic.
  destruct (K l line txt k row i s Hl Ht Hk Hi Hic) as (before & p & q & after & st & st' & E1 & E2 & E3).
  assert (Hin : forall r0 s0, In r0 line -> In s0 r0 -> Styled s0 /\ forall x, In x (runes s0) -> RuneWidth c x = RuneWidth d x).
  { intros r0 s0 H0 H1. assert (H2 : In r0 rows) by (eapply line_rows; eauto; eapply nth_error_In; eauto).
    rewrite Forall_forall in Hst, Heq. specialize (Hst r0 H2). specialize (Heq r0 H2). rewrite Forall_forall in Hst, Heq.
    split; [apply (Hst s0 H1)|exact (Heq s0 H1)]. }
  assert (Z1 : excesses c d (cells_before (length cols) line k i) = 0).
  { apply excesses_zero; auto. intros s0 H0. unfold cells_before in H0. rewrite Hk in H0. apply in_app_or in H0. destruct H0 as [H0|H0].
    - apply in_concat in H0. destruct H0 as (x & Hx & H0). apply in_map_iff in Hx. destruct Hx as (r0 & <- & Hx).
      apply (Hin r0); [exact (firstn_sub _ _ _ Hx)|exact (firstn_sub _ _ _ H0)].
    - apply (Hin row); [eapply nth_error_In; eauto|exact (firstn_sub _ _ _ H0)]. }
  assert (Z2 : excess c d s = 0).
  { destruct (Hin row s) as [I1 I2]; [eapply nth_error_In; eauto|eapply nth_error_In; eauto|]. apply excess_zero; auto. }
  exists before, p, q, after, st, st'. rewrite Z1, ?Z2, !Z.add_0_r in *. auto.
Qed.

Lemma rows_elsewhere c d (spec : option (TableSpec Item Val E)) ops items t' rows cols sep :
  Reachable c -> Reachable d -> Forall uint16_op ops ->
  Formats c (table_run (NewTable spec) ops) items t' rows ->
  Columns (tSpec (table_run (NewTable spec) ops)) = map Some cols ->
  Forall (fun col => exists a, colAlignment col = Some (align a c)) cols ->
  Forall (Forall (fun cell => Styled cell /\ rawWidth c cell < 65536)) rows -> Styled sep ->
  forall row, In row rows -> exists cells, AlignFormattedItem t' row = (cells, Ok cells)
    /\ length cells = length cols
    /\ forall n, exists st, show d home (concat (map (fun cell => cell ++ sep) (firstn n cells)))
        = mkT Ground (zsum (map (fun col => Width t' (colName col) + rawWidth d sep) (firstn n cols)) + excesses c d (firstn n row)) st.
Proof.
  intros Hc Hd HU HF HC HA HR Hsep row Hin.
  destruct (rows_shown c spec ops items t' rows cols sep Hc HU HF HC HA HR Hsep row Hin) as (cells & E0 & HLc & Hshow).
  exists cells. split; [exact E0|]. split; [exact HLc|].
  destruct (run_table_range spec ops HU) as [Hm Hr0].
  pose proof (Formats_range c _ items t' rows Hm HF Hr0) as Hr.
  destruct (Formats_spec c _ items t' rows Hm HF) as (_ & Hs & _ & _ & HG).
  rewrite Forall_forall in HG, HR. destruct (HG row Hin) as (HL & Hn & Hw). specialize (HR row Hin).
  rewrite <- Hs in HL, Hn. destruct (Align_good t' row HL Hn) as (cells' & E0' & _ & Hcells).
  rewrite E0 in E0'. injection E0' as <-. rewrite Hs, HC in HL, Hcells. rewrite map_length in HL.
  rewrite Forall_forall in HA, HR.
  assert (K : forall i cell s, nth_error cells i = Some cell -> nth_error row i = Some s -> Styled cell /\ excess c d cell = excess c d s).
  { intros i cell s Hi Hsi. destruct (nth_error cols i) as [col|] eqn:Ei.
    2:{ exfalso. apply nth_error_None in Ei. apply nth_some_lt in Hsi. lia. }
    assert (Hi' : nth_error (map Some cols) i = Some (Some col)) by (rewrite nth_error_map, Ei; reflexivity).
    specialize (Hcells i col s Hi' Hsi). rewrite Hi in Hcells. destruct (HA col (nth_error_In _ _ Ei)) as (a & Ha). rewrite Ha in Hcells.
    destruct (HR s (nth_error_In _ _ Hsi)) as [HSs Hlt].
    assert (Ecell : cell = align a c s (Width t' (colName col))) by (injection Hcells; auto).
    split; [rewrite Ecell; apply styled_align; auto|].
    destruct (align_spaces a c s (Width t' (colName col)) (Hr (colName col))) as (p & q & Epq & _). rewrite Ecell, Epq. apply excess_around; auto. }
  intros n.
  assert (HF2 : Forall2 (fun cell s => Styled cell /\ excess c d cell = excess c d s) (firstn n cells) (firstn n row)).
  { assert (HL2 : length cells = length row) by congruence. clear - K HL2. revert row n HL2 K. induction cells as [|cell cells IH]; intros [|s row] n HL2 K; try discriminate.
    - destruct n; constructor.
    - destruct n; [constructor|]. cbn [firstn]. constructor; [exact (K 0%nat cell s eq_refl eq_refl)|]. apply IH; [cbn in HL2; lia|].
      intros i. exact (K (S i)). }
  assert (K1 : Forall Styled (firstn n cells) /\ excesses c d (firstn n cells) = excesses c d (firstn n row)).
  { clear - HF2. induction HF2 as [|x y l l' [H1 H2] _ [IH1 IH2]]; [split; [constructor|reflexivity]|].
    split; [constructor; auto|]. rewrite !excesses_cons. lia. }
  destruct K1 as [K1 K2]. fold (followed sep (firstn n cells)).
  destruct (Hshow n) as (st & S). fold (followed sep (firstn n cells)) in S.
  destruct (show_styled d _ Hd (followed_styled sep _ Hsep K1)) as (st' & S'). exists (st' ++ []). unfold home. rewrite S'. f_equal.
  pose proof (followed_excess c d sep _ Hc Hd Hsep K1) as X. unfold excess at 1 in X. rewrite S in X. unfold home in X. rewrite S' in X. cbn [tCol] in X.
  rewrite excess_styled in X by auto. rewrite K2 in X.
  assert (L : slen (firstn n cells) = slen (firstn n cols)) by (unfold slen; rewrite !firstn_length; lia).
  rewrite L in X.
  assert (Z1 : forall l : list Col, zsum (map (fun col => Width t' (colName col) + rawWidth d sep) l)
    = zsum (map (fun col => Width t' (colName col) + rawWidth c sep) l) + slen l * (rawWidth d sep - rawWidth c sep)).
  { clear. induction l as [|x l IH]; [reflexivity|]. cbn [map]. rewrite !zsum_cons, IH. unfold slen. cbn [length]. nia. }
  rewrite Z1. lia.
Qed.
End Types.
