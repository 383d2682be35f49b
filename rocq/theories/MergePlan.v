(** * MergePlan: the whole output of the merge functions. *)
From Verif Require Import GoBase Utf8Proofs Runewidth ConditionSpec Width TextSpec AlignSpec WidthTheory Table Merge TableContract
  MergeSpec MergeLayout MergeRender MergeSearch MergeTheory MergeWidths.
From Coq Require Import ZifyBool ZifyNat.
Local Open Scope Z_scope.

Section Types.
Context {Item Val E : Type}.
Section Printing.
Context {c : Condition} {t : Table Item Val E} {cols : list (Column Item Val E)} {items : FormattedItemList E}
  {rows : list (list str)}.

Lemma search_or maxWidth sep m g0 fuel : (1 <= g0)%nat ->
  (forall g, (g0 < g <= g0 + fuel)%nat -> Acceptable c cols sep maxWidth m rows g)
  \/ exists g, Search c cols sep maxWidth m rows g0 g /\ (g < g0 + fuel)%nat.
Proof.
  intros Hg0. induction fuel as [|fuel [IH|(g & HS & Hg)]].
  - left. intros g Hg. lia.
  - destruct (acceptable_or (c := c) (cols := cols) (rows := rows) maxWidth sep m (g0 + fuel) ltac:(lia)) as [A|A].
    + left. intros g Hg. destruct (Nat.eq_dec g (S (g0 + fuel))) as [->|Hne]; [exact A|]. apply IH. lia.
    + right. exists (g0 + fuel)%nat. split; [|lia]. split; [lia|]. split; auto.
  - right. exists g. split; auto. lia.
Qed.

Lemma plan_pos sep maxWidth m compact g lines W : Plan c t cols sep maxWidth m rows compact g lines W -> (1 <= g)%nat.
Proof.
  intros (g0 & Hg0 & HS & _). pose proof (estimate_pos t cols sep maxWidth) as Hp.
  destruct compact; [destruct HS|]; lia.
Qed.

Hypothesis HP : Printable t cols items rows.

Lemma plan_output m fuel maxWidth sep compact : reckoned t cols sep mod 65536 <> 0 ->
  stop (merge m fuel c t (fun _ => true) items maxWidth sep compact) = Finished ->
  exists g lines W, Plan c t cols sep maxWidth m rows compact g lines W
    /\ merge m fuel c t (fun _ => true) items maxWidth sep compact =
       {| written := printed c cols sep W g lines; stop := Finished |}.
Proof.
  intros Hr Hst. pose proof (estimate_pos t cols sep maxWidth) as Hp.
  set (g0 := Z.to_nat (estimate t cols sep maxWidth)). assert (Hg0 : Z.of_nat g0 = estimate t cols sep maxWidth) by lia.
  destruct compact.
  - destruct (search_or maxWidth sep m g0 fuel ltac:(lia)) as [A|(g & HS & Hg)].
    + apply (compact_running HP m fuel maxWidth sep g0 Hr Hg0) in A. congruence.
    + destruct (chosen_exists (c := c) (t := t) (cols := cols) (rows := rows) m g0 g ltac:(lia) (proj1 HS)) as (lines & W & HL & HW).
      exists g, lines, W. split; [exists g0; auto|]. eapply compact_ok; eauto.
  - exists g0, (layout_lines m g0 rows), (fun _ => recorded t cols). pose proof (layout_ok m g0 rows ltac:(lia)) as HL. split.
    + exists g0. repeat split; auto. left. auto.
    + eapply plain_ok; eauto.
Qed.

Lemma plan_unique m maxWidth sep compact g lines W g' lines' W' :
  Plan c t cols sep maxWidth m rows compact g lines W -> Plan c t cols sep maxWidth m rows compact g' lines' W' ->
  g = g' /\ lines = lines'.
Proof.
  intros HPl HPl'. pose proof (plan_pos _ _ _ _ _ _ _ HPl) as Hg. destruct HPl as (g0 & Hg0 & HS & HL & _).
  destruct HPl' as (g0' & Hg0' & HS' & HL' & _). assert (g0 = g0') by lia. subst g0'.
  assert (Hgg : g = g').
  { destruct compact; [|congruence]. pose proof (estimate_pos t cols sep maxWidth) as Hp. assert (Hg0p : (1 <= g0)%nat) by lia. eapply Search_unique; eauto. }
  subst g'. split; auto. eapply layout_unique; eauto.
Qed.

Lemma plan_exact m maxWidth sep compact g lines W fuel : reckoned t cols sep mod 65536 <> 0 ->
  Plan c t cols sep maxWidth m rows compact g lines W -> (g < fuel)%nat ->
  merge m fuel c t (fun _ => true) items maxWidth sep compact =
  {| written := printed c cols sep W g lines; stop := Finished |}.
Proof.
  intros Hr (g0 & Hg0 & HS & HL & HW) Hf. destruct compact.
  - eapply compact_ok; eauto. lia.
  - subst g. destruct HW as [[_ ->]|[HW _]]; [|lia]. eapply plain_ok; eauto.
Qed.

(** ** C34 *)
Lemma estimate_most sep maxWidth g' : 0 < reckoned t cols sep < 65536 -> 0 <= maxWidth -> maxWidth + slen sep < 65536 ->
  estimate t cols sep maxWidth < g' -> maxWidth + slen sep < g' * reckoned t cols sep.
Proof.
  intros Hr Hm Hms Hg. unfold estimate in Hg. pose proof (slen_nonneg sep).
  assert (He : effective maxWidth = maxWidth).
  { unfold effective. destruct (Z.gtb_spec maxWidth 65535); [lia|]. apply Z.mod_small. lia. }
  rewrite He, !Z.mod_small in Hg by lia.
  pose proof (Z.mul_succ_div_gt (maxWidth + slen sep) (reckoned t cols sep) ltac:(lia)) as K.
  assert (Z.succ ((maxWidth + slen sep) / reckoned t cols sep) <= g') by lia. nia.
Qed.

Lemma one_column_total sep g : slen cols = 1 ->
  total sep cols (fun _ => recorded t cols) g = Z.of_nat g * reckoned t cols sep - slen sep.
Proof.
  intros Hn. unfold total, reckoned. rewrite Hn.
  assert (Hsum : forall l, zsum (map (fun _ : nat => zsum (recorded t cols)) l) = slen l * zsum (recorded t cols)).
  { induction l as [|a l IH]; [reflexivity|]. cbn [map]. rewrite slen_cons.
    change (zsum (recorded t cols) + zsum (map (fun _ : nat => zsum (recorded t cols)) l) = (1 + slen l) * zsum (recorded t cols)).
    rewrite IH. lia. }
  rewrite Hsum. assert (Hl : slen (seq 0 g) = Z.of_nat g) by (unfold slen; rewrite seq_length; reflexivity). rewrite Hl. lia.
Qed.

(** ** C41 *)
Lemma empty_printed m maxWidth sep compact g lines W fuel : rows = [] -> reckoned t cols sep mod 65536 <> 0 ->
  Plan c t cols sep maxWidth m rows compact g lines W -> (g < fuel)%nat ->
  merge m fuel c t (fun _ => true) items maxWidth sep compact =
  {| written := if (2 <=? g)%nat then [[x0a]] else []; stop := Finished |}.
Proof.
  intros Hrows Hr HPl Hf. rewrite (plan_exact _ _ _ _ _ _ _ _ Hr HPl Hf).
  destruct HPl as (g0 & _ & _ & [[K _]|[_ K]] & _); [congruence|]. subst lines.
  destruct (Nat.leb_spec 2 g) as [L|L]; [|reflexivity]. unfold printed. cbn [map]. unfold line_text, blocks. cbn [blocks_from app].
  cbn [length]. destruct (Nat.ltb_spec 0 g); [reflexivity|lia].
Qed.

Lemma empty_vertical maxWidth sep compact g lines W : rows = [] ->
  Plan c t cols sep maxWidth V rows compact g lines W -> Z.of_nat g = estimate t cols sep maxWidth.
Proof.
  intros Hrows (g0 & Hg0 & HS & _ & _). destruct compact; [|lia]. destruct HS as (Hle & HA & _).
  pose proof (estimate_pos t cols sep maxWidth).
  destruct (Nat.eq_dec g g0) as [->|Hne]; [exact Hg0|]. exfalso.
  specialize (HA (S g0) ltac:(lia)). pose proof (vertical_limit (c := c) (cols := cols) (rows := rows) maxWidth sep (S g0) ltac:(lia) HA) as K. rewrite Hrows in K. cbn in K. lia.
Qed.
End Printing.
End Types.

Section Modes.
Context {Item Val E : Type}.
Lemma mode_output c (t : Table Item Val E) cols items rows : Printable t cols items rows -> forall m fuel maxWidth sep compact,
  reckoned t cols sep mod 65536 <> 0 ->
  stop (merge m fuel c t (fun _ => true) items maxWidth sep compact) = Finished ->
  exists g lines W, Plan c t cols sep maxWidth m rows compact g lines W
    /\ written (merge m fuel c t (fun _ => true) items maxWidth sep compact) = printed c cols sep W g lines.
Proof.
  intros HP m fuel maxWidth sep compact Hr Hst. destruct (plan_output HP m fuel maxWidth sep compact Hr Hst) as (g & lines & W & HPl & E0).
  exists g, lines, W. split; auto. rewrite E0. reflexivity.
Qed.
Lemma horizontal_output c (t : Table Item Val E) cols items rows : Printable t cols items rows -> forall fuel maxWidth sep compact,
  reckoned t cols sep mod 65536 <> 0 ->
  stop (MergeRowsHorizontal fuel c t (fun _ => true) items maxWidth sep compact) = Finished ->
  exists g lines W, Plan c t cols sep maxWidth H rows compact g lines W
    /\ written (MergeRowsHorizontal fuel c t (fun _ => true) items maxWidth sep compact) = printed c cols sep W g lines.
Proof. intros HP. exact (mode_output c t cols items rows HP H). Qed.
Lemma vertical_output c (t : Table Item Val E) cols items rows : Printable t cols items rows -> forall fuel maxWidth sep compact,
  reckoned t cols sep mod 65536 <> 0 ->
  stop (MergeRowsVertical fuel c t (fun _ => true) items maxWidth sep compact) = Finished ->
  exists g lines W, Plan c t cols sep maxWidth V rows compact g lines W
    /\ written (MergeRowsVertical fuel c t (fun _ => true) items maxWidth sep compact) = printed c cols sep W g lines.
Proof. intros HP. exact (mode_output c t cols items rows HP V). Qed.
Lemma horizontal_exact c (t : Table Item Val E) cols items rows : Printable t cols items rows ->
  forall maxWidth sep compact g lines W fuel, reckoned t cols sep mod 65536 <> 0 ->
  Plan c t cols sep maxWidth H rows compact g lines W -> (g < fuel)%nat ->
  MergeRowsHorizontal fuel c t (fun _ => true) items maxWidth sep compact =
  {| written := printed c cols sep W g lines; stop := Finished |}.
Proof. intros HP. exact (plan_exact HP H). Qed.
Lemma vertical_exact c (t : Table Item Val E) cols items rows : Printable t cols items rows ->
  forall maxWidth sep compact g lines W fuel, reckoned t cols sep mod 65536 <> 0 ->
  Plan c t cols sep maxWidth V rows compact g lines W -> (g < fuel)%nat ->
  MergeRowsVertical fuel c t (fun _ => true) items maxWidth sep compact =
  {| written := printed c cols sep W g lines; stop := Finished |}.
Proof. intros HP. exact (plan_exact HP V). Qed.

Lemma one_column_most (t : Table Item Val E) cols sep maxWidth g' :
  0 < reckoned t cols sep < 65536 -> 0 <= maxWidth -> maxWidth + slen sep < 65536 ->
  slen cols = 1 -> estimate t cols sep maxWidth < Z.of_nat g' ->
  maxWidth < total sep cols (fun _ => recorded t cols) g'.
Proof.
  intros Hr Hm Hms Hn Hg. rewrite one_column_total by auto.
  pose proof (estimate_most (t := t) (cols := cols) sep maxWidth (Z.of_nat g') Hr Hm Hms Hg). lia.
Qed.

Lemma merge_clamp_cases m fuel c (t : Table Item Val E) ok items maxWidth sep compact :
  let r w := merge m fuel c t ok items w sep compact in
  (65535 < maxWidth -> r maxWidth = r 65535) /\ (maxWidth < 0 -> r maxWidth = r (maxWidth mod 65536)).
Proof.
  cbn zeta. split; intros Hm; rewrite merge_clamped; symmetry; rewrite merge_clamped; f_equal; unfold effective.
  - change (65535 >? 65535) with false. destruct (Z.gtb_spec maxWidth 65535); [reflexivity|lia].
  - pose proof (Z.mod_pos_bound maxWidth 65536 ltac:(lia)).
    destruct (Z.gtb_spec maxWidth 65535); [lia|]. destruct (Z.gtb_spec (maxWidth mod 65536) 65535); [lia|].
    rewrite Z.mod_mod by lia. reflexivity.
Qed.
End Modes.

Lemma horizontal_reading {A} g (rows : list A) lines : (1 <= g)%nat -> Layout H g rows lines ->
  (forall l k, get2 lines l k = if (k <? g)%nat then nth_error rows (l * g + k) else None)
  /\ (rows <> [] -> concat lines = rows).
Proof.
  intros Hg HL. split; [apply horizontal_positions; auto|]. intros Hr.
  destruct HL as [[_ [K _]]|[K _]]; [exact K|congruence].
Qed.

Lemma vertical_reading {A} g (rows : list A) lines : (1 <= g)%nat -> Layout V g rows lines ->
  (forall l k, get2 lines l k = if (l <? length lines)%nat then nth_error rows (k * length lines + l) else None)
  /\ (rows <> [] -> ((length lines - 1) * g < length rows <= length lines * g)%nat).
Proof.
  intros Hg HL. split; [apply (vertical_positions g); auto|]. intros Hr.
  destruct HL as [[_ HV]|[K _]]; [|congruence]. destruct HV as (columns & Hc & [HF _] & Hlen & _ & _ & Hlt). split; [exact Hlt|].
  rewrite <- Hc. clear -HF Hlen. assert (K : (length (concat columns) <= length columns * length lines)%nat); [|nia].
  clear Hlen. induction HF as [|x l [_ Hx] _ IH]; [cbn; lia|]. cbn [concat length]. rewrite app_length. lia.
Qed.
