(** * HitProofs: which item and field is shown at a column of the screen. *)
From Coq Require Import ZifyBool ZifyNat.
From Verif Require Import GoBase Utf8 Runewidth ConditionSpec RunewidthProofs Width WidthProofs TextSpec AlignSpec AlignProofs Table TableContract TableOpsProofs StringWidthProofs
  Merge MergeSpec MergeLayout MergeRender MergeSearch MergeTheory MergeWidths MergePlan TerminalSpec TerminalProofs TerminalMerge VisualLawsProofs HitSpec.
Local Open Scope Z_scope.

Definition offset (ws : list Z) (i : nat) : Z := zsum (map (fun w => w + 1) (firstn i ws)).

Lemma offset_nonneg ws i : Forall (fun w => 0 <= w) ws -> 0 <= offset ws i.
Proof.
  unfold offset. intros H. revert i. induction H as [|w ws Hw H IH]; intros [|i]; cbn [firstn map]; try (cbn; lia).
  change (0 <= w + 1 + zsum (map (fun w => w + 1) (firstn i ws))). specialize (IH i). lia.
Qed.

Lemma offset_end ws i w : Forall (fun w => 0 <= w) ws -> nth_error ws i = Some w -> offset ws i + w <= zsum ws + (slen ws - 1).
Proof.
  unfold offset, slen. intros H. revert i. induction H as [|v ws Hv H IH]; intros [|i] Hi; cbn in Hi; try discriminate.
  - injection Hi as ->. cbn [firstn map length]. change (0 + w <= w + zsum ws + (Z.of_nat (S (length ws)) - 1)).
    assert (0 <= zsum ws) by (clear - H; induction H as [|v l Hv H IH]; [cbn; lia|change (0 <= v + zsum l); lia]). lia.
  - cbn [firstn map length]. specialize (IH i Hi).
    change (v + 1 + zsum (map (fun w => w + 1) (firstn i ws)) + w <= v + zsum ws + (Z.of_nat (S (length ws)) - 1)). lia.
Qed.

Lemma field_at_spec ws : Forall (fun w => 0 <= w) ws -> forall x i, 0 <= x ->
  (field_at ws x = Some i <-> exists w, nth_error ws i = Some w /\ offset ws i <= x < offset ws i + w).
Proof.
  intros HF. induction HF as [|w ws Hw HF IH]; intros x i Hx.
  - split; [discriminate|]. intros (w & Hw & _). destruct i; discriminate.
  - cbn [field_at]. pose proof (offset_nonneg ws) as HO.
    assert (ES : forall j, offset (w :: ws) (S j) = w + 1 + offset ws j) by reflexivity.
    destruct (Z.ltb_spec x w) as [L|L]; [|destruct (Z.eqb_spec x w) as [Q|Q]].
    + split.
      * intros Hi. injection Hi as <-. exists w. split; [reflexivity|]. change (0 <= x < 0 + w). lia.
      * intros (v & Hv & Hr). destruct i as [|i]; [reflexivity|]. rewrite ES in Hr. specialize (HO i HF). lia.
    + split; [discriminate|]. intros (v & Hv & Hr). destruct i as [|i].
      * injection Hv as <-. change (0 <= x < 0 + w) in Hr. lia.
      * rewrite ES in Hr. specialize (HO i HF). lia.
    + split.
      * intros Hi. destruct (field_at ws (x - w - 1)) as [j|] eqn:Ej; [|discriminate]. injection Hi as <-.
        apply IH in Ej; [|lia]. destruct Ej as (v & Hv & Hr). exists v. split; [exact Hv|]. rewrite ES. lia.
      * intros (v & Hv & Hr). destruct i as [|i].
        { injection Hv as <-. change (0 <= x < 0 + w) in Hr. lia. }
        rewrite ES in Hr. assert (Ej : field_at ws (x - w - 1) = Some i) by (apply IH; [lia|]; exists v; split; [exact Hv|lia]).
        rewrite Ej. reflexivity.
Qed.

Lemma hit_spec ws sepw k i w x : Forall (fun w => 0 <= w) ws -> 0 <= sepw -> nth_error ws i = Some w -> 0 <= x ->
  (hit ws sepw x = Some (k, i) <-> Z.of_nat k * pitch ws sepw + offset ws i <= x < Z.of_nat k * pitch ws sepw + offset ws i + w).
Proof.
  intros HF Hs Hi Hx. pose proof (offset_nonneg ws i HF) as HO. pose proof (offset_end ws i w HF Hi) as HE.
  assert (Hw : 0 <= w) by (rewrite Forall_forall in HF; apply HF; eapply nth_error_In; eauto).
  set (p := pitch ws sepw). assert (Hp : offset ws i + w <= p) by (unfold p, pitch; lia).
  unfold hit. fold p. destruct (Z.eq_dec p 0) as [Z0|NZ].
  - rewrite Z0, Zdiv_0_r, Zmod_0_r. split; [|lia].
    intros K. destruct (field_at ws x) as [j|] eqn:Ej; [|discriminate]. injection K as K1 K2. subst j.
    apply field_at_spec in Ej; auto. destruct Ej as (v & Hv & Hr). assert (v = w) by congruence. lia.
  - pose proof (Z.div_mod x p NZ) as HD. pose proof (Z.mod_pos_bound x p ltac:(lia)) as HM.
    assert (Hq : 0 <= x / p) by (apply Z.div_pos; lia). split.
    + intros K. destruct (field_at ws (x mod p)) as [j|] eqn:Ej; [|discriminate]. injection K as K1 K2. subst j.
      apply field_at_spec in Ej; auto; [|lia]. destruct Ej as (v & Hv & Hr). assert (v = w) by congruence. subst v.
      replace (Z.of_nat k) with (x / p) by lia. lia.
    + intros Hr. assert (Ek : Z.of_nat k = x / p) by (apply Z.div_unique with (x - Z.of_nat k * p); lia).
      assert (Em : x mod p = x - Z.of_nat k * p) by (rewrite Ek; lia).
      assert (Ej : field_at ws (x mod p) = Some i) by (apply field_at_spec; auto; [lia|]; exists w; split; [exact Hi|lia]).
      rewrite Ej. cbn [option_map]. f_equal. f_equal. lia.
Qed.

Section Types.
Context {Item Val E : Type}.
Notation Col := (Column Item Val E).

Lemma start_closed c (cols : list Col) sep ws k i : length ws = length cols ->
  cell_start c cols sep (fun _ => ws) k i = Z.of_nat k * pitch ws (rawWidth c sep) + offset ws i.
Proof.
  intros HL. unfold cell_start, offset, group_width, pitch, slen. rewrite HL. f_equal.
  generalize 0%nat. induction k as [|k IH]; intros a; [reflexivity|]. cbn [seq map].
  match goal with |- zsum (?x :: ?l) = _ => change (x + zsum l = Z.of_nat (S k) * (zsum ws + (Z.of_nat (length cols) - 1) + rawWidth c sep)) end.
  rewrite IH. lia.
Qed.

Theorem at_screen c (t : Table Item Val E) cols items rows :
  Printable t cols items rows -> Reachable c -> Forall (BuiltIn c) cols ->
  Forall (Forall (fun s => Styled s /\ rawWidth c s < 65536)) rows ->
  (forall name, 0 <= Width t name < 65536) ->
  forall m fuel sep maxWidth, Styled sep -> reckoned t cols sep mod 65536 <> 0 -> FitsRecorded c t cols rows ->
  let r := merge m fuel c t (fun _ => true) items maxWidth sep false in
  exists g, Z.of_nat g = estimate t cols sep maxWidth /\ stop r = Finished
    /\ (forall n, (n < length rows)%nat -> exists l k, (k < g)%nat /\ (l < length (written r))%nat /\ number m g (length (written r)) l k = n)
    /\ forall l txt k i row s, nth_error (written r) l = Some txt -> (k < g)%nat -> (i < length cols)%nat ->
       nth_error rows (number m g (length (written r)) l k) = Some row -> nth_error row i = Some s ->
       exists before p q after a b st st', txt = before ++ (spaces p ++ s ++ spaces q) ++ after ++ [x0a]
         /\ show c home before = mkT Ground a st /\ show c home (before ++ spaces p ++ s ++ spaces q) = mkT Ground b st'
         /\ forall x, 0 <= x -> (hit (recorded t cols) (rawWidth c sep) x = Some (k, i) <-> a <= x < b).
Proof.
  intros P Hc Hb Hst Hw m fuel sep maxWidth Hs Hr HF r.
  pose proof (estimate_pos t cols sep maxWidth) as Hp.
  set (g := Z.to_nat (estimate t cols sep maxWidth)). assert (Hg : Z.of_nat g = estimate t cols sep maxWidth) by lia.
  assert (Hg1 : (1 <= g)%nat) by lia.
  assert (HL : Layout m g rows (layout_lines m g rows)) by (apply layout_ok; lia).
  assert (Er : r = {| written := printed c cols sep (fun _ => recorded t cols) g (layout_lines m g rows); stop := Finished |}).
  { unfold r. eapply plain_ok; eauto. }
  assert (Hne : cols <> []) by (intros ->; apply Hr; reflexivity).
  rewrite Er. cbn [written stop]. exists g. split; [exact Hg|]. split; [reflexivity|].
  assert (EL : length (printed c cols sep (fun _ => recorded t cols) g (layout_lines m g rows)) = lineCount (length rows) g).
  { unfold printed. rewrite map_length. apply layout_len. }
  rewrite EL. set (L := lineCount (length rows) g).
  assert (EP : forall l k, number m g L l k = pos m g L l k) by (intros l k; destruct m; cbn [number pos]; lia).
  split.
  { intros n Hn. pose proof (lineCount_spec (length rows) g Hg1 ltac:(lia)) as [L1 L2].
    pose proof (lineCount_pos (length rows) g ltac:(lia)) as L3. fold L in L1, L2, L3. destruct m; cbn [number].
    - exists (n / g)%nat, (n mod g)%nat. pose proof (Nat.div_mod n g ltac:(lia)). pose proof (Nat.mod_upper_bound n g ltac:(lia)).
      split; [lia|]. split; [|lia]. apply Nat.div_lt_upper_bound; lia.
    - exists (n mod L)%nat, (n / L)%nat. pose proof (Nat.div_mod n L ltac:(lia)). pose proof (Nat.mod_upper_bound n L ltac:(lia)).
      split; [apply Nat.div_lt_upper_bound; lia|]. split; lia. }
  intros l txt k i row s Ht Hk Hic Hrow Hi. unfold printed in Ht. rewrite nth_error_map in Ht.
  destruct (nth_error (layout_lines m g rows) l) as [line|] eqn:El; [|discriminate]. injection Ht as <-.
  assert (Hkl : nth_error line k = Some row).
  { pose proof (layout_get2 m g rows l k) as HG. unfold get2 in HG. rewrite El in HG. rewrite HG.
    assert (l < L)%nat by (unfold L; rewrite <- (layout_len m g rows); apply nth_error_Some; congruence).
    fold L. replace (l <? L)%nat with true by lia. replace (k <? g)%nat with true by lia. cbn [andb]. rewrite <- EP. exact Hrow. }
  assert (Hin : forall r0, In r0 line -> In r0 rows).
  { intros r0 H0. eapply line_rows with (g := g); eauto. eapply nth_error_In; eauto. }
  rewrite Forall_forall in Hst.
  assert (HI : IsolatedCells cols rows).
  { intros r0 j s0 H0 H1 _. specialize (Hst r0 H0). rewrite Forall_forall in Hst. destruct (Hst s0 (nth_error_In _ _ H1)) as [H2 _].
    split; [apply styled_not_prev|apply styled_not_next]; auto. }
  assert (HA : Aligned c cols (fun _ => recorded t cols) g line).
  { eapply recorded_aligned with (g := g); eauto. eapply nth_error_In; eauto. }
  destruct HA as [A1 A2 A3 A4]. rewrite Forall_forall in A2.
  destruct (nth_error cols i) as [col|] eqn:Hcol; [|apply nth_error_None in Hcol; lia].
  destruct (line_shown c cols sep (fun _ => recorded t cols) g line Hc Hne Hb Hs) with (k := k) (row := row) (i := i) (s := s) (col := col)
    as (before & p & q & after & st & st' & F1 & F2 & F3 & _); auto.
  - intros j r0 Hj. destruct (A3 j) as [A5 A6]; [apply nth_some_lt in Hj; lia|]. split; auto. split; auto.
    split; [apply A2; eapply nth_error_In; eauto|].
    intros x y w Hy Hwx. destruct (A4 j r0 Hj x y w Hy Hwx) as [A7 _]. split; [|exact A7].
    specialize (Hst r0 (Hin r0 (nth_error_In _ _ Hj))). rewrite Forall_forall in Hst. apply (Hst y (nth_error_In _ _ Hy)).
  - exists before, p, q, after, (cell_start c cols sep (fun _ => recorded t cols) k i),
      (cell_start c cols sep (fun _ => recorded t cols) k i + nth i (recorded t cols) 0), st, st'.
    rewrite F1, <- !app_assoc. split; [reflexivity|]. split; [exact F2|]. split; [exact F3|]. intros x Hx.
    assert (Hwi : nth_error (recorded t cols) i = Some (Width t (colName col))) by (unfold recorded; rewrite nth_error_map, Hcol; reflexivity).
    rewrite (nth_error_nth _ _ 0 Hwi), start_closed by (unfold recorded; apply map_length).
    apply hit_spec; auto; [|apply styled_nonneg; auto].
    apply Forall_forall. intros w Hin'. unfold recorded in Hin'. apply in_map_iff in Hin'. destruct Hin' as (co & <- & _). apply Hw.
Qed.
End Types.
