(** * WrapProofs: what is printed on a screen of limited width. *)
From Coq Require Import ZifyBool ZifyNat Strings.String.
From Verif Require Import GoBase Utf8 Utf8Proofs Runewidth ConditionSpec Width ScanProofs EscapeSpec TextSpec WidthProofs LocaleProofs StringWidthProofs AlignSpec Table TableContract
  RunewidthProofs Merge MergeSpec MergeLayout MergeRender MergeSearch MergeTheory MergeWidths MergePlan
  VisualLawsSpec VisualLawsProofs TerminalSpec TerminalProofs TerminalMerge WrapSpec.
Local Open Scope Z_scope.

Lemma display_app e c s a b : ValidUTF8 a -> display e c s (a ++ b) = display e c (display e c s a) b.
Proof. intros Ha. unfold display. rewrite runes_valid_app, fold_left_app by auto. reflexivity. Qed.

Lemma held_same e x : held e x x = x.
Proof. unfold held. destruct (columns e); [|reflexivity]. rewrite Z.eqb_refl. reflexivity. Qed.

Lemma holds_endless n : Holds endless n.
Proof. exact Logic.I. Qed.

Lemma holds_within e n x : Holds e n -> x <= n -> beyond e x = false /\ filled e x = false.
Proof.
  unfold Holds, beyond, filled. destruct (columns e) as [w|]; [|auto]. intros [H1 H2] Hx.
  destruct (eager e); cbn [andb]; [specialize (H2 eq_refl)|]; lia.
Qed.

(** ** Text *)
Lemma sstep_stands e c r n row x st ink : 0 <= r -> Stands r -> Holds e n -> x + RuneWidth c r <= n ->
  sstep e c (mkS Ground row x st ink) r
  = mkS Ground row (x + RuneWidth c r) st (if RuneWidth c r =? 0 then ink else (row, x, r) :: ink).
Proof.
  intros H0 H He Hx. destruct (stands_ground r H0 H) as (H1 & H2 & H3 & H4 & H5 & H6). unfold sstep. cbn [sMode].
  destruct (Z.eqb_spec r 0x0A); [lia|]. replace (drawn r) with true by (unfold drawn; lia).
  unfold draw. cbn [sCol sRow sStyle sInk]. destruct (Z.eqb_spec (RuneWidth c r) 0) as [K|K]; [rewrite K, Z.add_0_r; reflexivity|].
  destruct (holds_within e n _ He Hx) as [-> F]. unfold leave. cbn [sCol]. rewrite F. reflexivity.
Qed.

Lemma fold_stands_screen c n l : Reachable c -> Forall (fun r => 0 <= r) l -> Forall Stands l -> forall row x st ink,
  x + zsum (map (RuneWidth c) l) <= n ->
  exists ink', forall e, Holds e n ->
  fold_left (sstep e c) l (mkS Ground row x st ink) = mkS Ground row (x + zsum (map (RuneWidth c) l)) st (ink' ++ ink).
Proof.
  intros Hc. induction l as [|r l IH]; intros H0 H row x st ink Hx.
  - exists []. intros e He. cbn. f_equal. lia.
  - inversion H0 as [|? ? A1 A2]; inversion H as [|? ? A3 A4]; subst. cbn [map] in *.
    change (zsum (RuneWidth c r :: map (RuneWidth c) l)) with (RuneWidth c r + zsum (map (RuneWidth c) l)) in *.
    assert (Hpos : 0 <= zsum (map (RuneWidth c) l)).
    { clear - Hc. induction l as [|y l IH]; [cbn; lia|]. cbn [map]. change (0 <= RuneWidth c y + zsum (map (RuneWidth c) l)).
      pose proof (Reachable_OK c Hc y). lia. }
    destruct (IH A2 A4 row (x + RuneWidth c r) st (if RuneWidth c r =? 0 then ink else (row, x, r) :: ink)) as (ink' & E1); [lia|].
    exists (ink' ++ if RuneWidth c r =? 0 then [] else [(row, x, r)]). intros e He. cbn [fold_left].
    rewrite (sstep_stands e c r n) by (auto; lia). rewrite E1 by auto. f_equal; [lia|].
    rewrite <- app_assoc. destruct (RuneWidth c r =? 0); reflexivity.
Qed.

Lemma display_simple c n s row x st ink : Reachable c -> SimpleText s -> x + rawWidth c s <= n ->
  exists ink', forall e, Holds e n ->
  display e c (mkS Ground row x st ink) s = mkS Ground row (x + rawWidth c s) st (ink' ++ ink).
Proof.
  intros Hc Hs Hx. rewrite rawWidth_simple in * by auto. destruct Hs as [Hv Hs].
  exact (fold_stands_screen c n (runes s) Hc (runes_nonneg s) Hs row x st ink Hx).
Qed.

(** ** Sequences *)
Lemma obey_step e c m row x st ink r m' st' : step c (mkT m x st) r = mkT m' x st' ->
  obey e c (mkS m row x st ink) r = mkS m' row x st' ink.
Proof. intros E1. unfold obey. cbn [sMode sCol sStyle sRow sInk]. rewrite E1. cbn [tMode tCol tStyle]. rewrite held_same. reflexivity. Qed.

Lemma sfold_params e c l : Forall (fun r => 0x20 <= r <= 0x3F) l -> forall acc row x st ink,
  fold_left (sstep e c) l (mkS (InCsi acc) row x st ink) = mkS (InCsi (rev l ++ acc)) row x st ink.
Proof.
  induction 1 as [|r l Hr Hl IH]; intros acc row x st ink; [reflexivity|]. cbn [fold_left].
  unfold sstep at 2. cbn [sMode]. rewrite (obey_step e c (InCsi acc) row x st ink r (InCsi (r :: acc)) st).
  - rewrite IH. cbn [rev]. rewrite <- app_assoc. reflexivity.
  - unfold step. cbn [tMode tCol tStyle]. destruct (Z.leb_spec 0x20 r); [|lia]. destruct (Z.leb_spec r 0x3F); [|lia]. reflexivity.
Qed.

Lemma display_quiet c q : Quiet q -> exists st', forall e row x st ink,
  display e c (mkS Ground row x st ink) q = mkS Ground row x (st' ++ st) ink.
Proof.
  intros Hq. pose proof (EscSequence_ascii q (quiet_escseq q Hq)) as Ha.
  unfold display. rewrite runes_ascii_str by auto. destruct Hq as [ps params fin Hps Hpa Hf].
  unfold oneof in Hf. vm_compute (map bv (lit "mJKhl")) in Hf. cbn [In] in Hf.
  assert (HP : Forall (fun r => 0x20 <= r <= 0x3F) (map bv ps ++ map bv params)).
  { apply Forall_app. split; [|apply quiet_params; auto]. rewrite Forall_map. eapply Forall_impl; [|exact Hps].
    intros b. unfold oneof. vm_compute (map bv (lit ";?")). cbn [In]. lia. }
  exists (if bv fin =? 109 then [map bv ps ++ map bv params] else []). intros e row x st ink.
  cbn [map fold_left]. rewrite !map_app. cbn [map].
  assert (E1 : sstep e c (mkS Ground row x st ink) (bv x1b) = mkS AfterEsc row x st ink).
  { change (sstep e c (mkS Ground row x st ink) (bv x1b)) with (obey e c (mkS Ground row x st ink) 27).
    apply obey_step. reflexivity. }
  assert (E2 : sstep e c (mkS AfterEsc row x st ink) (bv x5b) = mkS (InCsi []) row x st ink).
  { unfold sstep. cbn [sMode]. apply obey_step. reflexivity. }
  rewrite E1, E2, fold_left_app, sfold_params by exact HP.
  cbn [fold_left]. rewrite app_nil_r. generalize (map bv ps ++ map bv params). intros l.
  unfold sstep. cbn [sMode]. apply obey_step.
  destruct Hf as [H|[H|[H|[H|[H|[]]]]]]; rewrite <- H; cbn; rewrite ?rev_involutive; reflexivity.
Qed.

Lemma display_styled c n s : Reachable c -> Styled s -> forall row x st ink, x + rawWidth c s <= n ->
  exists st' ink', forall e, Holds e n ->
  display e c (mkS Ground row x st ink) s = mkS Ground row (x + rawWidth c s) (st' ++ st) (ink' ++ ink).
Proof.
  intros Hc. induction 1 as [t Ht|t q s Ht Hq Hs IH]; intros row x st ink Hx.
  - destruct (display_simple c n t row x st ink Hc Ht Hx) as (ink' & K). exists [], ink'. exact K.
  - rewrite rawWidth_sequence in * by (auto using quiet_escseq, styled_not_prev).
    pose proof (styled_nonneg c s Hc Hs) as Hn.
    destruct (display_simple c n t row x st ink Hc Ht ltac:(lia)) as (i1 & K1).
    destruct (display_quiet c q Hq) as (s1 & K2).
    destruct (IH row (x + rawWidth c t) (s1 ++ st) (i1 ++ ink) ltac:(lia)) as (s2 & i2 & K3).
    exists (s2 ++ s1), (i2 ++ i1). intros e He.
    rewrite display_app by apply Ht. rewrite K1 by auto. rewrite display_app by (apply quiet_valid; auto).
    rewrite K2, K3 by auto. rewrite <- !app_assoc. f_equal. lia.
Qed.

Lemma newline_valid s : ValidUTF8 s -> ValidUTF8 (s ++ [x0a]).
Proof.
  intros H. unfold ValidUTF8. rewrite decode_valid_app by auto. apply Forall_app. split; [exact H|].
  change (decode [x0a]) with [(10, 1)]. constructor; [discriminate|constructor].
Qed.

(** A line of at most [n] cells, ended by a newline. *)
Definition LineOf (c : Condition) (n : Z) (txt : str) : Prop :=
  exists line, txt = line ++ [x0a] /\ Styled line /\ rawWidth c line <= n.

Lemma line_valid c n txt : LineOf c n txt -> ValidUTF8 txt.
Proof. intros (line & -> & H & _). apply newline_valid, styled_valid, H. Qed.

Lemma display_line c n txt : Reachable c -> LineOf c n txt -> forall row st ink, exists st' ink', forall e, Holds e n ->
  display e c (mkS Ground row 0 st ink) txt = mkS Ground (row + 1) 0 (st' ++ st) (ink' ++ ink).
Proof.
  intros Hc (line & -> & Hs & Hw) row st ink.
  destruct (display_styled c n line Hc Hs row 0 st ink ltac:(lia)) as (st' & ink' & K). exists st', ink'. intros e He.
  rewrite display_app by (apply styled_valid; auto). rewrite K by auto. reflexivity.
Qed.

Lemma display_lines c n l : Reachable c -> Forall (LineOf c n) l -> forall row st ink, exists st' ink', forall e, Holds e n ->
  display e c (mkS Ground row 0 st ink) (List.concat l) = mkS Ground (row + slen l) 0 (st' ++ st) (ink' ++ ink).
Proof.
  intros Hc. induction 1 as [|txt l Ht Hl IH]; intros row st ink.
  - exists [], []. intros e _. unfold display, slen. cbn. f_equal. lia.
  - destruct (display_line c n txt Hc Ht row st ink) as (s1 & i1 & K1).
    destruct (IH (row + 1) (s1 ++ st) (i1 ++ ink)) as (s2 & i2 & K2).
    exists (s2 ++ s1), (i2 ++ i1). intros e He. cbn [List.concat].
    rewrite display_app by (eapply line_valid; eauto). rewrite K1, K2 by auto. rewrite <- !app_assoc.
    f_equal. unfold slen. cbn [List.length]. lia.
Qed.

Lemma lines_valid c n l : Forall (LineOf c n) l -> ValidUTF8 (List.concat l).
Proof.
  induction 1 as [|txt l Ht Hl IH]; [constructor|]. cbn [List.concat]. unfold ValidUTF8.
  rewrite decode_valid_app by (eapply line_valid; eauto). apply Forall_app. split; [eapply line_valid; eauto|exact IH].
Qed.

(** Whatever of a text is printed on an endless screen, its cursor is that of the terminal. *)
Lemma display_terminal c text s t : sMode s = tMode t -> sCol s = tCol t -> sStyle s = tStyle t ->
  let s' := display endless c s text in let t' := show c t text in
  sMode s' = tMode t' /\ sCol s' = tCol t' /\ sStyle s' = tStyle t'.
Proof.
  unfold display, show. revert s t. induction (runes text) as [|r l IH]; intros s t H1 H2 H3; [auto|].
  cbn [fold_left]. apply IH; clear IH; destruct s as [m row x st ink], t as [m' x' st']; cbn in H1, H2, H3; subst m' x' st';
    unfold sstep; cbn [sMode]; destruct m; try reflexivity; unfold step; cbn [tMode tCol tStyle].
  1-3: destruct (Z.eqb_spec r 0x0A) as [->|N]; [reflexivity|].
  1-3: destruct (drawn r) eqn:D;
    [unfold drawn in D; destruct (Z.eqb_spec r 0x1B); [lia|]; destruct (Z.eqb_spec r 0x9B); [lia|];
     destruct (Z.eqb_spec r 0x0D); [lia|]; cbn [orb];
     destruct ((r <? 0x20) || ((0x7F <=? r) && (r <? 0xA0))) eqn:D2; [lia|];
     unfold draw; destruct (Z.eqb_spec (RuneWidth c r) 0) as [K|K]; cbn; try reflexivity; lia|].
  all: unfold obey; cbn [sMode sCol sStyle]; unfold step; cbn [tMode tCol tStyle];
    destruct (Z.eqb_spec r 0x0A); [lia|]; reflexivity.
Qed.

(** ** Rows are left only when they are full *)
Lemma leave_row e s : sRow s <= sRow (leave e s).
Proof. unfold leave. destruct (filled e (sCol s)); cbn; lia. Qed.
Lemma sstep_row e c s r : sRow s <= sRow (sstep e c s r).
Proof.
  unfold sstep. destruct (sMode s); try (cbn; lia). destruct (r =? 0x0A); [cbn; lia|]. destruct (drawn r); [|cbn; lia].
  unfold draw. destruct (RuneWidth c r =? 0); [lia|].
  destruct (beyond e (sCol s + RuneWidth c r)); (eapply Z.le_trans; [|apply leave_row]); cbn; lia.
Qed.
Lemma display_row e c s text : sRow s <= sRow (display e c s text).
Proof.
  unfold display. revert s. induction (runes text) as [|r l IH]; intros s; cbn; [lia|]. eapply Z.le_trans; [apply (sstep_row e c s r)|apply IH].
Qed.

Lemma fold_stands_mode e c l : Forall (fun r => 0 <= r) l -> Forall Stands l -> forall s, sMode s = Ground ->
  sMode (fold_left (sstep e c) l s) = Ground.
Proof.
  induction l as [|r l IH]; intros H0 H s Hs; [exact Hs|]. inversion H0 as [|? ? A1 A2]; inversion H as [|? ? A3 A4]; subst.
  cbn [fold_left]. apply IH; auto. destruct (stands_ground r A1 A3) as (H1 & H2 & H3 & H4 & H5 & H6). unfold sstep. rewrite Hs.
  destruct (Z.eqb_spec r 0x0A); [lia|]. replace (drawn r) with true by (unfold drawn; lia).
  unfold draw. destruct (RuneWidth c r =? 0); [exact Hs|]. destruct (beyond e (sCol s + RuneWidth c r)); unfold leave;
    match goal with |- context [filled e ?x] => destruct (filled e x) end; reflexivity.
Qed.
Lemma styled_mode e c t : Styled t -> forall s, sMode s = Ground -> sMode (display e c s t) = Ground.
Proof.
  induction 1 as [t Ht|t q u Ht Hq Hu IH]; intros s Hs.
  - apply fold_stands_mode; [apply runes_nonneg|apply Ht|exact Hs].
  - rewrite display_app by apply Ht. rewrite display_app by (apply quiet_valid; auto). apply IH.
    assert (K : sMode (display e c s t) = Ground) by (apply fold_stands_mode; [apply runes_nonneg|apply Ht|exact Hs]).
    destruct (display e c s t) as [m row x st ink]. cbn in K. subst m. destruct (display_quiet c q Hq) as (st' & ->). reflexivity.
Qed.

Lemma fold_stays c w l : Reachable c -> Forall (fun r => 0 <= r) l -> Forall Stands l -> forall row x st ink, x <= w ->
  sRow (fold_left (sstep (mkEdge (Some w) false) c) l (mkS Ground row x st ink)) = row -> x + zsum (map (RuneWidth c) l) <= w.
Proof.
  intros Hc. induction l as [|r l IH]; intros H0 H row x st ink Hx Hrow; [cbn; lia|].
  inversion H0 as [|? ? A1 A2]; inversion H as [|? ? A3 A4]; subst. cbn [map fold_left] in *.
  change (zsum (RuneWidth c r :: map (RuneWidth c) l)) with (RuneWidth c r + zsum (map (RuneWidth c) l)).
  destruct (Z_le_dec (x + RuneWidth c r) w) as [L|L].
  - rewrite (sstep_stands _ c r w) in Hrow; auto; [|split; [lia|discriminate]].
    specialize (IH A2 A4 _ _ _ _ L Hrow). lia.
  - exfalso. assert (K : row + 1 <= sRow (sstep (mkEdge (Some w) false) c (mkS Ground row x st ink) r)).
    { destruct (stands_ground r A1 A3) as (H1 & H2 & H3 & H4 & H5 & H6). unfold sstep. cbn [sMode].
      destruct (Z.eqb_spec r 0x0A); [lia|]. replace (drawn r) with true by (unfold drawn; lia).
      unfold draw. cbn [sCol sRow sStyle sInk]. destruct (Z.eqb_spec (RuneWidth c r) 0); [lia|].
      replace (beyond (mkEdge (Some w) false) (x + RuneWidth c r)) with true by (unfold beyond; cbn; lia).
      eapply Z.le_trans; [|apply leave_row]. cbn. lia. }
    revert Hrow K. generalize (sstep (mkEdge (Some w) false) c (mkS Ground row x st ink) r). intros s1 Hrow K.
    assert (K2 : sRow s1 <= sRow (fold_left (sstep (mkEdge (Some w) false) c) l s1)).
    { clear. revert s1. induction l as [|y l IH]; intros s1; cbn; [lia|]. eapply Z.le_trans; [apply sstep_row|apply IH]. }
    lia.
Qed.

Lemma stays c w t : Reachable c -> Styled t -> forall row x st ink, x <= w ->
  (sRow (display (mkEdge (Some w) false) c (mkS Ground row x st ink) t) = row <-> x + rawWidth c t <= w).
Proof.
  intros Hc Ht row x st ink Hx.
  split; [|intros K; destruct (display_styled c w t Hc Ht row x st ink K) as (st' & ink' & K1); rewrite K1 by (split; [lia|discriminate]); reflexivity].
  revert row x st ink Hx. induction Ht as [t Ht|t q u Ht Hq Hu IH]; intros row x st ink Hx Hrow.
  - rewrite rawWidth_simple by auto. eapply fold_stays; eauto using runes_nonneg. apply Ht.
  - rewrite rawWidth_sequence by (auto using quiet_escseq, styled_not_prev).
    rewrite display_app in Hrow by apply Ht. rewrite display_app in Hrow by (apply quiet_valid; auto).
    set (e := mkEdge (Some w) false) in *.
    assert (K1 : sRow (display e c (mkS Ground row x st ink) t) = row).
    { pose proof (display_row e c (mkS Ground row x st ink) t) as B1. cbn [sRow] in B1.
      pose proof (display_row e c (display e c (mkS Ground row x st ink) t) q) as B2.
      pose proof (display_row e c (display e c (display e c (mkS Ground row x st ink) t) q) u) as B3. lia. }
    assert (K2 : x + rawWidth c t <= w).
    { rewrite rawWidth_simple by auto. eapply fold_stays; eauto using runes_nonneg. apply Ht. }
    destruct (display_simple c w t row x st ink Hc Ht K2) as (i1 & K3).
    assert (He : Holds e w) by (split; [lia|discriminate]).
    rewrite (K3 e He) in Hrow. destruct (display_quiet c q Hq) as (s1 & K4). rewrite K4 in Hrow.
    specialize (IH _ _ _ _ K2 Hrow). lia.
Qed.

(** Lines take one row each if and only if none is wider than the screen. *)
Lemma rows_taken c w lines : Reachable c -> 0 <= w -> Forall Styled lines ->
  (sRow (display (mkEdge (Some w) false) c top (List.concat (map (fun l => l ++ [x0a]) lines))) = slen lines
   <-> Forall (fun l => rawWidth c l <= w) lines).
Proof.
  intros Hc Hw. unfold top.
  assert (G : forall row st ink, Forall Styled lines ->
    row + slen lines <= sRow (display (mkEdge (Some w) false) c (mkS Ground row 0 st ink) (List.concat (map (fun l => l ++ [x0a]) lines)))
    /\ (sRow (display (mkEdge (Some w) false) c (mkS Ground row 0 st ink) (List.concat (map (fun l => l ++ [x0a]) lines))) = row + slen lines
     <-> Forall (fun l => rawWidth c l <= w) lines)).
  2:{ intros H. destruct (G 0 [] [] H) as [_ K]. exact K. }
  set (e := mkEdge (Some w) false).
  induction lines as [|line lines IH]; intros row st ink H.
  - unfold display, slen. cbn. split; [lia|]. split; [constructor|lia].
  - inversion H as [|? ? H1 H2]; subst. cbn [map List.concat].
    rewrite display_app by (apply newline_valid, styled_valid; auto). rewrite display_app by (apply styled_valid; auto).
    pose proof (stays c w line Hc H1 row 0 st ink Hw) as S1. fold e in S1.
    pose proof (display_row e c (mkS Ground row 0 st ink) line) as R1. cbn [sRow] in R1.
    pose proof (styled_mode e c line H1 (mkS Ground row 0 st ink) eq_refl) as M1.
    destruct (display e c (mkS Ground row 0 st ink) line) as [m1 row1 x1 st1 ink1] eqn:D1. cbn [sMode sRow] in *. subst m1.
    change (display e c (mkS Ground row1 x1 st1 ink1) [x0a]) with (mkS Ground (row1 + 1) 0 st1 ink1).
    destruct (IH (row1 + 1) st1 ink1 H2) as [I1 I2]. change (slen (line :: lines)) with (slen (line :: lines)).
    assert (Hl : slen (line :: lines) = slen lines + 1) by (unfold slen; cbn [List.length]; lia). rewrite Hl.
    split; [lia|]. split.
    + intros K. assert (row1 = row) by lia. constructor; [apply S1 in H0; lia|]. apply I2. lia.
    + intros K. inversion K as [|? ? K1 K2]; subst. apply I2 in K2. assert (row1 = row) by (apply S1; lia). lia.
Qed.

(** ** Merged rows *)
Section Types.
Context {Item Val E : Type}.
Notation Col := (Column Item Val E).

Lemma line_styled c (cols : list Col) sep W g line : Reachable c -> cols <> [] -> Forall (BuiltIn c) cols -> Styled sep -> (1 <= g)%nat ->
  (forall k row, nth_error line k = Some row -> List.length (W k) = List.length cols /\ Forall (fun w => 0 <= w < 65536) (W k)
     /\ (List.length cols <= List.length row)%nat /\ Fits c (W k) row) ->
  Styled (line_text c cols sep W g line).
Proof.
  intros Hc Hne Hb Hs Hg H. destruct (blocks_raw c cols W Hc Hne Hb line 0 H) as [B1 B2].
  unfold line_text, blocks. apply (join_raw c sep); auto.
  - apply Forall_app. split; [exact B1|]. destruct (List.length line <? g)%nat; repeat constructor.
  - intros K. apply app_eq_nil in K. destruct K as [K1 K2]. destruct line as [|row line]; [|discriminate].
    destruct g; [lia|discriminate].
Qed.

(** Every line is styled text, and so is what comes before a field and the field. *)
Lemma merged_lines c (t : Table Item Val E) cols items rows :
  Printable t cols items rows -> Reachable c -> Forall (BuiltIn c) cols ->
  Forall (Forall (fun s => Styled s /\ rawWidth c s < 65536)) rows ->
  (forall name, 0 <= Width t name < 65536) ->
  forall m fuel sep maxWidth compact, Styled sep -> reckoned t cols sep mod 65536 <> 0 -> FitsRecorded c t cols rows ->
  let r := merge m fuel c t (fun _ => true) items maxWidth sep compact in
  stop r = Finished ->
  exists g lines (start width : nat -> nat -> Z), (1 <= g)%nat /\ Layout m g rows lines /\ List.length (written r) = List.length lines
    /\ (forall txt, In txt (written r) -> exists line, txt = line ++ [x0a] /\ Styled line)
    /\ forall l line txt k row i s, nth_error lines l = Some line -> nth_error (written r) l = Some txt ->
       nth_error line k = Some row -> nth_error row i = Some s -> (i < List.length cols)%nat ->
       exists before p q after, txt = before ++ (spaces p ++ s ++ spaces q) ++ after ++ [x0a]
         /\ Styled before /\ rawWidth c before = start k i
         /\ Styled (spaces p ++ s ++ spaces q) /\ rawWidth c (spaces p ++ s ++ spaces q) = width k i
         /\ start k i + width k i <= rawWidth c (before ++ (spaces p ++ s ++ spaces q) ++ after).
Proof.
  intros P Hc Hb Hst Hw m fuel sep maxWidth compact Hs Hr HF r Hf.
  assert (K : exists g lines W, Plan c t cols sep maxWidth m rows compact g lines W /\ written r = printed c cols sep W g lines).
  { destruct m; [exact (horizontal_output c t cols items rows P fuel maxWidth sep compact Hr Hf)
                |exact (vertical_output c t cols items rows P fuel maxWidth sep compact Hr Hf)]. }
  destruct K as (g & lines & W & Pl & Ew).
  exists g, lines, (cell_start c cols sep W), (fun k i => nth i (W k) 0).
  destruct Pl as (g0 & Hg0 & HS & HL & HW). pose proof (estimate_pos t cols sep maxWidth) as Hp.
  assert (Hg : (1 <= g)%nat) by (destruct compact; [destruct HS|]; lia).
  split; [exact Hg|]. split; [exact HL|]. rewrite Ew. unfold printed. rewrite map_length. split; [reflexivity|].
  rewrite Forall_forall in Hst.
  assert (HI : IsolatedCells cols rows).
  { intros r0 j s0 H0 H1 _. specialize (Hst r0 H0). rewrite Forall_forall in Hst. destruct (Hst s0 (nth_error_In _ _ H1)) as [H2 _].
    split; [apply styled_not_prev|apply styled_not_next]; auto. }
  assert (HA : forall line, In line lines -> forall k row, nth_error line k = Some row ->
     List.length (W k) = List.length cols /\ Forall (fun w => 0 <= w < 65536) (W k)
     /\ (List.length cols <= List.length row)%nat /\ Fits c (W k) row).
  { intros line Hline j r0 Hj.
    assert (HA : Aligned c cols W g line) by (eapply chosen_aligned; eauto).
    destruct HA as [A1 A2 A3 A4]. rewrite Forall_forall in A2.
    destruct (A3 j) as [A5 A6]; [apply nth_some_lt in Hj; lia|]. split; auto. split; auto.
    split; [apply A2; eapply nth_error_In; eauto|].
    intros x y w Hy Hwx. destruct (A4 j r0 Hj x y w Hy Hwx) as [A7 _]. split; [|exact A7].
    assert (Hin : In r0 rows) by (eapply line_rows; eauto using nth_error_In).
    specialize (Hst r0 Hin). rewrite Forall_forall in Hst. apply (Hst y (nth_error_In _ _ Hy)). }
  assert (Hcols : cols <> []) by (eapply reckoned_cols; eauto).
  split.
  { intros txt Ht. apply in_map_iff in Ht. destruct Ht as (line & <- & Hline). eexists. split; [reflexivity|].
    apply line_styled; auto. intros k row Hk. exact (HA line Hline k row Hk). }
  intros l line txt k row i s Hl Ht Hk Hi Hic. rewrite nth_error_map, Hl in Ht. injection Ht as <-.
  destruct (nth_error cols i) as [col|] eqn:Ecol; [|apply nth_error_None in Ecol; lia].
  destruct (line_shown c cols sep W g line Hc) with (k := k) (row := row) (i := i) (s := s) (col := col)
    as (before & p & q & after & st & st' & E1 & E2 & E3 & F1 & F2 & F3); eauto using nth_error_In.
  exists before, p, q, after. rewrite E1, <- !app_assoc. split; [reflexivity|].
  assert (R1 : rawWidth c before = cell_start c cols sep W k i).
  { destruct (show_styled c before Hc F1) as (z & K). unfold home in E2. rewrite K in E2. injection E2 as E2 _. lia. }
  assert (R2 : rawWidth c (spaces p ++ s ++ spaces q) = nth i (W k) 0).
  { rewrite show_app in E3 by (apply styled_valid; auto). rewrite E2 in E3.
    destruct (show_styled c _ Hc F2) as (z & K). rewrite K in E3. injection E3 as E3 _. lia. }
  split; [exact F1|]. split; [exact R1|]. split; [exact F2|]. split; [exact R2|].
  replace (before ++ spaces p ++ s ++ spaces q ++ after) with (before ++ (spaces p ++ s ++ spaces q) ++ after) by (rewrite <- !app_assoc; reflexivity).
  rewrite !rawWidth_styled_app by (auto using styled_app). rewrite R1, R2. pose proof (styled_nonneg c after Hc F3). lia.
Qed.

(** Printed on any screen that has room for the widest line. *)
Lemma merged_displayed c (t : Table Item Val E) cols items rows :
  Printable t cols items rows -> Reachable c -> Forall (BuiltIn c) cols ->
  Forall (Forall (fun s => Styled s /\ rawWidth c s < 65536)) rows ->
  (forall name, 0 <= Width t name < 65536) ->
  forall m fuel sep maxWidth compact, Styled sep -> reckoned t cols sep mod 65536 <> 0 -> FitsRecorded c t cols rows ->
  let r := merge m fuel c t (fun _ => true) items maxWidth sep compact in
  stop r = Finished ->
  forall n, (forall line, In (line ++ [x0a]) (written r) -> rawWidth c line <= n) ->
  exists g lines (start width : nat -> nat -> Z), (1 <= g)%nat /\ Layout m g rows lines /\ List.length (written r) = List.length lines
    /\ forall e, Holds e n ->
      (let out := display e c top (List.concat (written r)) in
       out = display endless c top (List.concat (written r)) /\ sMode out = Ground /\ sCol out = 0 /\ sRow out = slen lines)
    /\ forall l line txt k row i s, nth_error lines l = Some line -> nth_error (written r) l = Some txt ->
       nth_error line k = Some row -> nth_error row i = Some s -> (i < List.length cols)%nat ->
       exists before p q after st st' ink ink', txt = before ++ (spaces p ++ s ++ spaces q) ++ after ++ [x0a]
         /\ display e c top (List.concat (firstn l (written r)) ++ before) = mkS Ground (Z.of_nat l) (start k i) st ink
         /\ display e c top (List.concat (firstn l (written r)) ++ before ++ spaces p ++ s ++ spaces q)
            = mkS Ground (Z.of_nat l) (start k i + width k i) st' ink'.
Proof.
  intros P Hc Hb Hst Hw m fuel sep maxWidth compact Hs Hr HF r Hf n Hn.
  destruct (merged_lines c t cols items rows P Hc Hb Hst Hw m fuel sep maxWidth compact Hs Hr HF Hf)
    as (g & lines & start & width & Hg & HL & Hlen & Hlines & Hfields).
  fold r in Hlen, Hlines, Hfields. exists g, lines, start, width. split; [exact Hg|]. split; [exact HL|]. split; [exact Hlen|].
  assert (HLO : Forall (LineOf c n) (written r)).
  { apply Forall_forall. intros txt Ht. destruct (Hlines txt Ht) as (line & -> & H1). exists line. auto. }
  intros e He. split.
  - destruct (display_lines c n (written r) Hc HLO 0 [] []) as (st' & ink' & K). unfold top. cbv zeta.
    rewrite (K e He), (K endless (holds_endless n)). cbn [sMode sCol sRow]. repeat split. unfold slen. rewrite Hlen. lia.
  - intros l line txt k row i s Hl Ht Hk Hi Hic.
    destruct (Hfields l line txt k row i s Hl Ht Hk Hi Hic) as (before & p & q & after & -> & F1 & R1 & F2 & R2 & Hle).
    assert (HW : rawWidth c (before ++ (spaces p ++ s ++ spaces q) ++ after) <= n).
    { apply Hn. apply nth_error_In in Ht. rewrite <- !app_assoc in *. exact Ht. }
    assert (HF' : Forall (LineOf c n) (firstn l (written r))).
    { rewrite Forall_forall in *. intros x Hx. apply HLO. rewrite <- (firstn_skipn l). apply in_or_app. left. exact Hx. }
    destruct (display_lines c n _ Hc HF' 0 [] []) as (s0 & i0 & K0).
    pose proof (styled_nonneg c _ Hc F1). pose proof (styled_nonneg c _ Hc F2).
    destruct (display_styled c n before Hc F1 (0 + slen (firstn l (written r))) 0 (s0 ++ []) (i0 ++ []) ltac:(lia)) as (s1 & i1 & K1).
    destruct (display_styled c n _ Hc F2 (0 + slen (firstn l (written r))) (0 + rawWidth c before) (s1 ++ s0 ++ []) (i1 ++ i0 ++ []) ltac:(lia)) as (s2 & i2 & K2).
    assert (Hsl : 0 + slen (firstn l (written r)) = Z.of_nat l).
    { unfold slen. rewrite firstn_length. apply nth_some_lt in Ht. lia. }
    exists before, p, q, after. do 4 eexists. split; [reflexivity|].
    assert (D1 : display e c top (List.concat (firstn l (written r)) ++ before) = mkS Ground (Z.of_nat l) (start k i) (s1 ++ s0 ++ []) (i1 ++ i0 ++ [])).
    { rewrite display_app by (eapply lines_valid; eauto). unfold top. rewrite (K0 e He), (K1 e He), R1, Hsl. reflexivity. }
    split; [exact D1|].
    rewrite display_app by (eapply lines_valid; eauto). rewrite display_app by (apply styled_valid; auto).
    rewrite <- (display_app e c top (List.concat (firstn l (written r))) before) by (eapply lines_valid; eauto). rewrite D1.
    specialize (K2 e He). rewrite Hsl, R1, R2 in K2. rewrite Z.add_0_l in K2. exact K2.
Qed.

(** On a screen that is too narrow for some line, more rows are taken. *)
Lemma merged_rows c (t : Table Item Val E) cols items rows :
  Printable t cols items rows -> Reachable c -> Forall (BuiltIn c) cols ->
  Forall (Forall (fun s => Styled s /\ rawWidth c s < 65536)) rows ->
  (forall name, 0 <= Width t name < 65536) ->
  forall m fuel sep maxWidth compact, Styled sep -> reckoned t cols sep mod 65536 <> 0 -> FitsRecorded c t cols rows ->
  let r := merge m fuel c t (fun _ => true) items maxWidth sep compact in
  stop r = Finished ->
  forall w, 0 <= w ->
  (sRow (display (mkEdge (Some w) false) c top (List.concat (written r))) = slen (written r)
   <-> forall line, In (line ++ [x0a]) (written r) -> rawWidth c line <= w).
Proof.
  intros P Hc Hb Hst Hw m fuel sep maxWidth compact Hs Hr HF r Hf w Hw0.
  destruct (merged_lines c t cols items rows P Hc Hb Hst Hw m fuel sep maxWidth compact Hs Hr HF Hf)
    as (_ & _ & _ & _ & _ & _ & _ & Hlines & _). fold r in Hlines.
  assert (K : exists ls, written r = map (fun l => l ++ [x0a]) ls /\ Forall Styled ls).
  { clear - Hlines. induction (written r) as [|txt l IH]; [exists []; split; [reflexivity|constructor]|].
    destruct IH as (ls & -> & H); [intros; apply Hlines; right; auto|].
    destruct (Hlines txt (or_introl eq_refl)) as (line & -> & Hl). exists (line :: ls). split; [reflexivity|constructor; auto]. }
  destruct K as (ls & -> & Hls). unfold slen. rewrite map_length.
  eapply iff_trans; [exact (rows_taken c w ls Hc Hw0 Hls)|]. rewrite Forall_forall. split; intros K line Hl.
  - apply in_map_iff in Hl. destruct Hl as (l' & E1 & Hl). apply app_inj_tail in E1. destruct E1 as [-> _]. auto.
  - apply K. apply in_map_iff. eauto.
Qed.

Lemma plain_displayed c (t : Table Item Val E) cols items rows :
  Printable t cols items rows -> Reachable c -> Forall (BuiltIn c) cols ->
  Forall (Forall (fun s => Styled s /\ rawWidth c s < 65536)) rows ->
  (forall name, 0 <= Width t name < 65536) ->
  forall m fuel sep maxWidth, Styled sep -> sep <> [] -> 0 <= maxWidth -> maxWidth + slen sep < 65536 ->
  reckoned t cols sep mod 65536 <> 0 -> reckoned t cols sep < 65536 -> zsum (recorded t cols) + slen cols - 1 <= maxWidth ->
  FitsRecorded c t cols rows ->
  let r := merge m fuel c t (fun _ => true) items maxWidth sep false in
  stop r = Finished ->
  exists g lines (start width : nat -> nat -> Z), (1 <= g)%nat /\ Layout m g rows lines /\ List.length (written r) = List.length lines
    /\ forall e, Holds e maxWidth ->
      (let out := display e c top (List.concat (written r)) in
       out = display endless c top (List.concat (written r)) /\ sMode out = Ground /\ sCol out = 0 /\ sRow out = slen lines)
    /\ forall l line txt k row i s, nth_error lines l = Some line -> nth_error (written r) l = Some txt ->
       nth_error line k = Some row -> nth_error row i = Some s -> (i < List.length cols)%nat ->
       exists before p q after st st' ink ink', txt = before ++ (spaces p ++ s ++ spaces q) ++ after ++ [x0a]
         /\ display e c top (List.concat (firstn l (written r)) ++ before) = mkS Ground (Z.of_nat l) (start k i) st ink
         /\ display e c top (List.concat (firstn l (written r)) ++ before ++ spaces p ++ s ++ spaces q)
            = mkS Ground (Z.of_nat l) (start k i + width k i) st' ink'.
Proof.
  intros P Hc Hb Hst Hw m fuel sep maxWidth Hs Hsne Hm0 Hm Hr Hrk Hfit HF r Hf.
  apply (merged_displayed c t cols items rows); auto. intros line Hline.
  destruct (@any_plain_fit _ _ _ c t cols items rows P Hc Hb) with (m := m) (fuel := fuel) (sep := sep) (maxWidth := maxWidth) (txt := line ++ [x0a])
    as (line' & E1 & K & _); auto using styled_valid.
  - intros row s Hrow Hin. rewrite Forall_forall in Hst. specialize (Hst row Hrow). rewrite Forall_forall in Hst. apply (Hst s Hin).
  - apply app_inj_tail in E1. destruct E1 as [-> _]. exact K.
Qed.

Lemma compact_displayed c (t : Table Item Val E) cols items rows :
  Printable t cols items rows -> Reachable c -> Forall (BuiltIn c) cols ->
  Forall (Forall (fun s => Styled s /\ rawWidth c s < 65536)) rows ->
  (forall name, 0 <= Width t name < 65536) ->
  forall m fuel sep maxWidth g0 g, Styled sep -> sep <> [] -> reckoned t cols sep mod 65536 <> 0 -> FitsRecorded c t cols rows ->
  Z.of_nat g0 = estimate t cols sep maxWidth -> Search c cols sep maxWidth m rows g0 g -> (g0 < g < g0 + fuel)%nat ->
  (forall w, CompactTotal c cols sep m rows g w -> w < 65536) ->
  let r := merge m fuel c t (fun _ => true) items maxWidth sep true in
  stop r = Finished ->
  exists g lines (start width : nat -> nat -> Z), (1 <= g)%nat /\ Layout m g rows lines /\ List.length (written r) = List.length lines
    /\ forall e, Holds e (effective maxWidth) ->
      (let out := display e c top (List.concat (written r)) in
       out = display endless c top (List.concat (written r)) /\ sMode out = Ground /\ sCol out = 0 /\ sRow out = slen lines)
    /\ forall l line txt k row i s, nth_error lines l = Some line -> nth_error (written r) l = Some txt ->
       nth_error line k = Some row -> nth_error row i = Some s -> (i < List.length cols)%nat ->
       exists before p q after st st' ink ink', txt = before ++ (spaces p ++ s ++ spaces q) ++ after ++ [x0a]
         /\ display e c top (List.concat (firstn l (written r)) ++ before) = mkS Ground (Z.of_nat l) (start k i) st ink
         /\ display e c top (List.concat (firstn l (written r)) ++ before ++ spaces p ++ s ++ spaces q)
            = mkS Ground (Z.of_nat l) (start k i + width k i) st' ink'.
Proof.
  intros P Hc Hb Hst Hw m fuel sep maxWidth g0 g Hs Hsne Hr HF Hg0 HS Hg Htot r Hf.
  apply (merged_displayed c t cols items rows); auto. intros line Hline.
  destruct (@any_compact_fit _ _ _ c t cols items rows P Hc Hb) with (m := m) (fuel := fuel) (sep := sep) (maxWidth := maxWidth) (g0 := g0) (g := g) (txt := line ++ [x0a])
    as (line' & E1 & K & _); auto using styled_valid.
  - intros row s Hrow Hin. rewrite Forall_forall in Hst. specialize (Hst row Hrow). rewrite Forall_forall in Hst. apply (Hst s Hin).
  - apply app_inj_tail in E1. destruct E1 as [-> _]. exact K.
Qed.
End Types.
