(** * GrowProofs: longer lists of wider items never take fewer lines, horizontally. *)
From Verif Require Import GoBase Runewidth Width AlignSpec Table Merge TableContract TableOpsProofs WidthTheory
  MergeSpec MergeLayout MergeRender MergeSearch MergeTheory MergePlan MergeScreens MergeRecorded GrowSpec.
From Coq Require Import ZifyBool ZifyNat.
Local Open Scope Z_scope.

Section Types.
Context {Item Val E : Type}.

Lemma cellw_le c (cols : list (Column Item Val E)) rows rows' i j : Wider c cols rows rows' ->
  Forall (fun row => (length cols <= length row)%nat) rows' -> (i < length cols)%nat ->
  cellw c rows i j <= cellw c rows' i j.
Proof.
  intros [HL HW] HF Hi. destruct (get2 rows (Z.to_nat j) i) as [s|] eqn:Es.
  - assert (Hj : (Z.to_nat j < length rows')%nat).
    { unfold get2 in Es. destruct (nth_error rows (Z.to_nat j)) eqn:Er; [|discriminate]. apply nth_some_lt in Er. lia. }
    destruct (nth_error rows' (Z.to_nat j)) as [row'|] eqn:Er'; [|apply nth_error_None in Er'; lia].
    rewrite Forall_forall in HF. pose proof (HF row' (nth_error_In _ _ Er')) as Hr.
    destruct (nth_error row' i) as [s'|] eqn:Es'; [|apply nth_error_None in Es'; lia].
    assert (G : get2 rows' (Z.to_nat j) i = Some s') by (unfold get2; rewrite Er'; exact Es').
    unfold cellw. rewrite Es, G. eapply HW; eauto.
  - pose proof (cellw_nonneg c rows' i j). unfold cellw at 1. rewrite Es. auto.
Qed.

Lemma maxOf_le c rows rows' i js js' : (forall j, In j js -> In j js') -> (forall j, cellw c rows i j <= cellw c rows' i j) ->
  maxOf c rows i js <= maxOf c rows' i js'.
Proof.
  intros HI HC. destruct (maxOf_max c rows i js) as [[->|(j & Hj & ->)] _]; destruct (maxOf_max c rows' i js') as [_ K].
  - apply K. left. reflexivity.
  - eapply Z.le_trans; [apply HC|]. apply K. right. exists j. auto.
Qed.

Lemma total_le m c (cols : list (Column Item Val E)) sep rows rows' g : Wider c cols rows rows' ->
  (m = V -> length rows = length rows') ->
  Forall (fun row => (length cols <= length row)%nat) rows' -> (1 <= g)%nat ->
  total sep cols (gwidths cols c m rows g) g <= total sep cols (gwidths cols c m rows' g) g.
Proof.
  intros HW HV HF Hg. unfold total. apply Z.add_le_mono_l. apply zsum_le.
  assert (K : forall k, In k (seq 0 g) -> zsum (gwidths cols c m rows g k) <= zsum (gwidths cols c m rows' g k)).
  { intros k Hk. apply in_seq in Hk. apply zsum_le. unfold gwidths.
    assert (K : forall i, In i (seq 0 (length cols)) -> maxOf c rows i (gidx m (length rows) g (Z.of_nat k))
                 <= maxOf c rows' i (gidx m (length rows') g (Z.of_nat k))).
    { intros i Hi. apply in_seq in Hi. apply maxOf_le; [|intros j; apply (cellw_le c cols); auto; lia].
      intros j. destruct m; [|rewrite (HV eq_refl); auto]. cbn [gidx]. rewrite !steps_in by lia.
      intros (q & Hq & -> & Hlt). exists q. split; [exact Hq|]. split; [reflexivity|]. destruct HW. lia. }
    clear -K. induction (seq 0 (length cols)) as [|i l IH]; [constructor|]. cbn [map]. constructor; [apply K; left; reflexivity|].
    apply IH. intros i' Hi'. apply K. right. exact Hi'. }
  clear -K. induction (seq 0 g) as [|i l IH]; [constructor|]. cbn [map]. constructor; [apply K; left; reflexivity|].
  apply IH. intros i' Hi'. apply K. right. exact Hi'.
Qed.

(** ** An item in front *)
Lemma cellw_cons c x rows i j : 0 <= j -> cellw c rows i j = cellw c (x :: rows) i (j + 1).
Proof. intros Hj. unfold cellw, get2. replace (Z.to_nat (j + 1)) with (S (Z.to_nat j)) by lia. reflexivity. Qed.

Lemma maxOf_cons c x rows i js js' : (forall j, In j js -> 0 <= j /\ In (j + 1) js') ->
  maxOf c rows i js <= maxOf c (x :: rows) i js'.
Proof.
  intros HI. destruct (maxOf_max c rows i js) as [[->|(j & Hj & ->)] _]; destruct (maxOf_max c (x :: rows) i js') as [_ K].
  - apply K. left. reflexivity.
  - apply K. right. destruct (HI j Hj). exists (j + 1). split; [auto|apply cellw_cons; auto].
Qed.

(** Where the items of group [k] go when one is put in front. *)
Definition next (g k : nat) : nat := if (S k =? g)%nat then 0%nat else S k.

Lemma gidx_next n g k j : (k < g)%nat -> In j (gidx H n g (Z.of_nat k)) -> 0 <= j /\ In (j + 1) (gidx H (S n) g (Z.of_nat (next g k))).
Proof.
  intros Hk. cbn [gidx]. rewrite !steps_in by lia. intros (q & Hq & -> & Hlt).
  assert (0 <= Z.of_nat g * q) by (apply Z.mul_nonneg_nonneg; lia). split; [lia|].
  unfold next. destruct (Nat.eqb_spec (S k) g) as [Ek|Ek].
  - exists (q + 1). split; [lia|]. split; [|lia]. rewrite Z.mul_add_distr_l. lia.
  - exists q. split; [lia|]. split; lia.
Qed.

Lemma zsum_next (f : nat -> Z) g : (1 <= g)%nat -> zsum (map (fun k => f (next g k)) (seq 0 g)) = zsum (map f (seq 0 g)).
Proof.
  intros Hg. destruct g as [|g]; [lia|]. rewrite seq_S at 1. rewrite map_app, zsum_app. cbn [plus map].
  assert (E1 : map (fun k => f (next (S g) k)) (seq 0 g) = map f (seq 1 g)).
  { rewrite <- seq_shift, map_map. apply map_ext_in. intros k Hk. apply in_seq in Hk. unfold next.
    destruct (Nat.eqb_spec (S k) (S g)); [lia|reflexivity]. }
  rewrite E1. unfold next. rewrite Nat.eqb_refl. cbn [seq map]. change (zsum (map f (seq 1 g)) + (f 0%nat + 0) = f 0%nat + zsum (map f (seq 1 g))). lia.
Qed.

Lemma front_total c (cols : list (Column Item Val E)) sep x rows g : (1 <= g)%nat ->
  total sep cols (gwidths cols c H rows g) g <= total sep cols (gwidths cols c H (x :: rows) g) g.
Proof.
  intros Hg. unfold total. apply Z.add_le_mono_l. rewrite <- (zsum_next (fun k => zsum (gwidths cols c H (x :: rows) g k))) by exact Hg.
  apply zsum_le.
  assert (K : forall k, In k (seq 0 g) -> zsum (gwidths cols c H rows g k) <= zsum (gwidths cols c H (x :: rows) g (next g k))).
  { intros k Hk. apply in_seq in Hk. apply zsum_le. unfold gwidths. clear -Hk.
    induction (seq 0 (length cols)) as [|i l IH]; [constructor|]. cbn [map]. constructor; [|exact IH].
    apply maxOf_cons. intros j Hj. apply gidx_next; [lia|exact Hj]. }
  clear -K. induction (seq 0 g) as [|i l IH]; [constructor|]. cbn [map]. constructor; [apply K; left; reflexivity|].
  apply IH. intros i' Hi'. apply K. right. exact Hi'.
Qed.
Lemma fronts_total c (cols : list (Column Item Val E)) sep ps rows g : (1 <= g)%nat ->
  total sep cols (gwidths cols c H rows g) g <= total sep cols (gwidths cols c H (ps ++ rows) g) g.
Proof.
  intros Hg. induction ps as [|x ps IH]; [cbn [app]; lia|]. cbn [app]. eapply Z.le_trans; [exact IH|apply front_total; exact Hg].
Qed.

Lemma gwidths_nonneg c (cols : list (Column Item Val E)) m rows g k : 0 <= zsum (gwidths cols c m rows g k).
Proof.
  unfold gwidths. induction (seq 0 (length cols)) as [|i l IH]; [cbn; lia|]. cbn [map].
  change (0 <= maxOf c rows i (gidx m (length rows) g (Z.of_nat k)) + zsum (map (fun i => maxOf c rows i (gidx m (length rows) g (Z.of_nat k))) l)).
  assert (0 <= maxOf c rows i (gidx m (length rows) g (Z.of_nat k))); [|lia].
  apply (maxOf_max c rows i (gidx m (length rows) g (Z.of_nat k))). left. reflexivity.
Qed.
Lemma total_nonneg c (cols : list (Column Item Val E)) sep m rows g : (1 <= g)%nat -> cols <> [] ->
  0 <= total sep cols (gwidths cols c m rows g) g.
Proof.
  intros Hg Hc. unfold total.
  assert (0 <= zsum (map (fun k => zsum (gwidths cols c m rows g k)) (seq 0 g))).
  { induction (seq 0 g) as [|k l IH]; [cbn; lia|]. cbn [map].
    change (0 <= zsum (gwidths cols c m rows g k) + zsum (map (fun k => zsum (gwidths cols c m rows g k)) l)).
    pose proof (gwidths_nonneg c cols m rows g k). lia. }
  assert (0 <= slen sep * (Z.of_nat g - 1)) by (apply Z.mul_nonneg_nonneg; unfold slen; lia).
  assert (0 <= (slen cols - 1) * Z.of_nat g).
  { apply Z.mul_nonneg_nonneg; [|lia]. unfold slen. destruct cols; [contradiction|]. cbn [length]. lia. }
  lia.
Qed.

(** What is compared: horizontally, items may also be put in front. *)
Lemma larger_total m c (cols : list (Column Item Val E)) sep rows rows' g : Larger c cols m rows rows' ->
  Forall (fun row => (length cols <= length row)%nat) rows' -> (1 <= g)%nat ->
  total sep cols (gwidths cols c m rows g) g <= total sep cols (gwidths cols c m rows' g) g.
Proof.
  intros HL HF Hg. destruct m; cbn [Larger] in HL.
  - destruct HL as (ps & mid & -> & HW). apply Forall_app in HF. eapply Z.le_trans; [|apply fronts_total; exact Hg].
    apply total_le; [exact HW|discriminate|tauto|exact Hg].
  - destruct HL as [He HW]. apply total_le; auto.
Qed.
Lemma larger_length m c (cols : list (Column Item Val E)) rows rows' : Larger c cols m rows rows' -> (length rows <= length rows')%nat.
Proof.
  destruct m; cbn [Larger]; [|intros [He _]; lia]. intros (ps & mid & -> & [HW _]). rewrite app_length. lia.
Qed.

Lemma acceptable_less m c (cols : list (Column Item Val E)) sep maxWidth rows rows' g : Larger c cols m rows rows' -> cols <> [] ->
  Forall (fun row => (length cols <= length row)%nat) rows' -> Narrow c cols sep m rows' ->
  (2 <= g <= length rows')%nat -> Acceptable c cols sep maxWidth m rows' g -> Acceptable c cols sep maxWidth m rows g.
Proof.
  intros HW Hc HF HN Hg HA. apply acceptable_spec in HA; [|lia]. apply acceptable_spec; [lia|]. unfold acceptable_b in *.
  apply andb_true_iff in HA. destruct HA as [A1 A2]. apply andb_true_iff. split.
  - destruct m; [reflexivity|]. rewrite (proj1 HW). exact A1.
  - apply Z.leb_le in A2. apply Z.leb_le.
    pose proof (larger_total m c cols sep rows rows' g HW HF ltac:(lia)) as L.
    pose proof (total_nonneg c cols sep m rows g ltac:(lia) Hc) as P.
    assert (B : total sep cols (gwidths cols c m rows' g) g < 65536).
    { apply (HN g); [lia|]. apply CompactTotal_is; [lia|reflexivity]. }
    rewrite Z.mod_small in A2 by lia. rewrite Z.mod_small by lia. lia.
Qed.

Lemma no_columns (t : Table Item Val E) sep : reckoned t [] sep mod 65536 = 0.
Proof. reflexivity. Qed.

Lemma grow m c (t : Table Item Val E) cols items items' rows rows' :
  Printable t cols items rows -> Printable t cols items' rows' -> rows <> [] -> Larger c cols m rows rows' ->
  forall fuel fuel' sep w compact, Narrow c cols sep m rows' ->
  let r := merge m fuel c t (fun _ => true) items w sep compact in
  let r' := merge m fuel' c t (fun _ => true) items' w sep compact in
  stop r = Finished -> stop r' = Finished -> (length (written r) <= length (written r'))%nat.
Proof.
  intros HP HP' Hne HW fuel fuel' sep w b HN r r' Hr Hr'.
  destruct (Z.eq_dec (reckoned t cols sep mod 65536) 0) as [Hz|Hz]; [unfold r in Hr; rewrite (merge_divzero HP) in Hr by exact Hz; discriminate|].
  assert (Hc : cols <> []) by (intros ->; apply Hz, no_columns).
  assert (Hne' : rows' <> []) by (pose proof (larger_length _ _ _ _ _ HW) as L; destruct rows' as [|x rs]; [|discriminate]; destruct rows; [congruence|cbn in L; lia]).
  destruct (plan_output HP m fuel w sep b Hz Hr) as (g & lines & W & (g0 & Hg0 & HS & HL & _) & E1).
  destruct (plan_output HP' m fuel' w sep b Hz Hr') as (g' & lines' & W' & (g0' & Hg0' & HS' & HL' & _) & E2).
  unfold r, r'. rewrite E1, E2. cbn [written]. unfold printed. rewrite !map_length.
  pose proof (estimate_pos t cols sep w) as Hp. assert (g0' = g0) by lia. subst g0'.
  assert (Hg : (1 <= g)%nat) by (destruct b; [destruct HS|]; lia).
  assert (Hg' : (1 <= g')%nat) by (destruct b; [destruct HS'|]; lia).
  apply layout_is in HL; [|exact Hg]. apply layout_is in HL'; [|exact Hg']. subst lines lines'. rewrite !layout_len.
  assert (K : (g' <= g \/ length rows' <= g)%nat).
  { destruct b; [|lia]. destruct HS as (S1 & S2 & S3). destruct HS' as (S1' & S2' & S3').
    destruct (le_lt_dec g' g) as [L|L]; [auto|]. destruct (le_lt_dec (length rows') g) as [L2|L2]; [auto|]. exfalso. apply S3.
    apply (acceptable_less m c cols sep w rows rows'); auto; [exact (pr_long _ _ _ _ HP')|lia|]. apply S2'. lia. }
  assert (N1 : (1 <= length rows)%nat) by (destruct rows; [congruence|cbn; lia]).
  pose proof (larger_length _ _ _ _ _ HW) as HWl.
  pose proof (lineCount_spec (length rows) g Hg N1) as C1. pose proof (lineCount_spec (length rows') g' Hg' ltac:(lia)) as C2.
  pose proof (lineCount_pos (length rows') g' ltac:(lia)) as P2.
  set (a := lineCount (length rows) g) in *. set (a' := lineCount (length rows') g') in *.
  destruct (le_lt_dec a a') as [L|L]; [exact L|]. exfalso. destruct K as [K|K].
  - assert ((a - 1) * g >= a' * g')%nat; [|lia]. apply Nat.mul_le_mono; lia.
  - assert ((a - 1) * g >= 1 * g)%nat; [|lia]. apply Nat.mul_le_mono_r. lia.
Qed.

(** Cells that fit the recorded widths, and few enough of them. *)
Lemma narrow_recorded m c (t : Table Item Val E) cols items rows : Printable t cols items rows -> rows <> [] -> FitsRecorded c t cols rows ->
  forall sep, slen rows * (zsum (recorded t cols) + slen cols + slen sep) < 65536 -> Narrow c cols sep m rows.
Proof.
  intros HP Hne HF sep Hs g w Hg HT. apply CompactTotal_is in HT; [|lia]. subst w. unfold total.
  assert (Hb : zsum (map (fun k => zsum (gwidths cols c m rows g k)) (seq 0 g)) <= Z.of_nat g * zsum (recorded t cols)).
  { etransitivity; [apply (zsum_const _ (zsum (recorded t cols)))|rewrite seq_length; reflexivity].
    intros k _. apply zsum_le, fits_group; [exact HF|]. eapply fits_nonneg; eauto. }
  assert (R : 0 <= zsum (recorded t cols)).
  { apply zsum_nonneg'. apply Forall_forall. intros x Hx. unfold recorded in Hx. apply in_map_iff in Hx. destruct Hx as (col & <- & Hc).
    eapply fits_nonneg; eauto. }
  assert (S1 : 0 <= slen sep) by (unfold slen; lia). assert (S2 : 0 <= slen cols) by (unfold slen; lia).
  assert (M : Z.of_nat g * (zsum (recorded t cols) + slen cols + slen sep) <= slen rows * (zsum (recorded t cols) + slen cols + slen sep)).
  { apply Z.mul_le_mono_nonneg_r; unfold slen in *; lia. }
  rewrite !Z.mul_add_distr_l in M. rewrite Z.mul_sub_distr_l, Z.mul_sub_distr_r, Z.mul_1_r, Z.mul_1_l, (Z.mul_comm (slen sep)), (Z.mul_comm (slen cols)). lia.
Qed.
End Types.
