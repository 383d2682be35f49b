(** * ClusterProofs: the width StepString reports for a cluster. *)
From Verif Require Import GoBase Utf8 Utf8Proofs IntervalSpec Pointwise TableProofs PropConst
  GraphemeData EastAsianData EmojiData Uniseg GraphemeSpec UnisegProofs SegmentSpec SegmentTheory ClusterSpec.
From Coq Require Import ZifyBool ZifyNat.
Local Open Scope Z_scope.

Lemma property_lookup d r : Sorted (spans d) -> property d r = lookup d r.
Proof. intros Hs. apply property_spec; [exact Hs|]. apply lookup_HasProperty. Qed.

Lemma uniRuneWidth_cells r : uniRuneWidth r (gprop r) = cells_of r.
Proof.
  rewrite gprop_class. unfold uniRuneWidth, cells_of.
  rewrite (property_lookup emojiPresentation), (property_lookup eastAsianWidth).
  - destruct (class r); reflexivity.
  - apply eastAsian_sorted.
  - apply emoji_sorted.
Qed.

Lemma cells_nonneg r : 0 <= cells_of r <= 4.
Proof.
  unfold cells_of. destruct (class r); repeat (match goal with |- context [if ?b then _ else _] => destruct b end); lia.
Qed.

(** Leading consonants are wide. *)
Lemma lookup_negative d r : forallb (fun e => 0 <=? fst (fst e)) d = true -> r < 0 -> lookup d r = 0.
Proof.
  intros Hd Hr. induction d as [|((a, b), p) d IH]; [reflexivity|]. cbn [forallb] in Hd. apply andb_true_iff in Hd.
  destruct Hd as [H1 H2]. cbn [lookup fst] in *. replace ((a <=? r) && (r <=? b)) with false by lia. auto.
Qed.

Definition leading_wide (r : Z) : bool :=
  negb (lookup graphemeCodePoints r =? prL)
  || (((lookup eastAsianWidth r =? prW) || (lookup eastAsianWidth r =? prF)) && negb (r <=? 0x2E3B) || (r <=? 0x2E39)
      && ((lookup eastAsianWidth r =? prW) || (lookup eastAsianWidth r =? prF))).
Definition gw_cuts : list Z := [0x2E3A; 0x2E3C] ++ cuts (spans graphemeCodePoints) ++ cuts (spans eastAsianWidth).

Lemma leading_wide_all r : 0 <= r -> leading_wide r = true.
Proof.
  apply (pointwise leading_wide gw_cuts 0).
  - intros x y Hs. unfold leading_wide.
    rewrite (lookup_same graphemeCodePoints x y), (lookup_same eastAsianWidth x y).
    + assert (E1 : (0x2E3A <=? x) = (0x2E3A <=? y)) by (apply Hs; left; auto).
      assert (E2 : (0x2E3C <=? x) = (0x2E3C <=? y)) by (apply Hs; right; left; auto).
      replace (x <=? 0x2E3B) with (y <=? 0x2E3B) by lia. replace (x <=? 0x2E39) with (y <=? 0x2E39) by lia. reflexivity.
    + eapply same_incl; [|exact Hs]. intros z Hz. unfold gw_cuts. apply in_or_app. right. apply in_or_app. right. auto.
    + eapply same_incl; [|exact Hs]. intros z Hz. unfold gw_cuts. apply in_or_app. right. apply in_or_app. left. auto.
  - vm_compute. reflexivity.
Qed.

Lemma cells_HL r : class r = HL -> cells_of r = 2.
Proof.
  intros Hr. assert (Hp : lookup graphemeCodePoints r = prL) by (rewrite <- gprop_lookup, gprop_class, Hr; reflexivity).
  assert (H0 : 0 <= r).
  { destruct (Z_lt_le_dec r 0) as [L|L]; [|exact L]. rewrite lookup_negative in Hp; [discriminate|vm_compute; reflexivity|exact L]. }
  pose proof (leading_wide_all r H0) as K. unfold leading_wide in K. rewrite Hp, Z.eqb_refl in K. cbn [negb orb] in K.
  unfold cells_of. rewrite Hr. destruct ((lookup eastAsianWidth r =? prW) || (lookup eastAsianWidth r =? prF)) eqn:EW.
  - destruct (Z.eqb_spec r 0x2E3A); [subst; discriminate|]. destruct (Z.eqb_spec r 0x2E3B); [subst; discriminate|]. reflexivity.
  - rewrite andb_false_l, andb_false_r in K. discriminate.
Qed.

(** ** Accumulating *)
Definition sumw (w : Z) (l : list Z) : Z := fold_left (fun w r => if r =? VS16 then 2 else w + cells_of r) l w.

Lemma sumw_plain w l : ~ In VS16 l -> sumw w l = w + zsum (map cells_of l).
Proof.
  revert w. induction l as [|r l IH]; intros w Hn; [cbn; unfold zsum; cbn; lia|]. cbn [sumw fold_left map].
  destruct (Z.eqb_spec r VS16) as [->|_]; [exfalso; apply Hn; left; auto|].
  change (sumw (w + cells_of r) l = w + (cells_of r + zsum (map cells_of l))). rewrite IH; [lia|]. intros K. apply Hn. right. auto.
Qed.

Lemma last_vs16 l : In VS16 l -> exists mid rest, l = mid ++ VS16 :: rest /\ ~ In VS16 rest.
Proof.
  induction l as [|r l IH]; intros Hin; [destruct Hin|]. destruct (in_dec Z.eq_dec VS16 l) as [K|K].
  - destruct (IH K) as (mid & rest & -> & Hr). exists (r :: mid), rest. auto.
  - destruct Hin as [->|Hin]; [|contradiction]. exists [], l. auto.
Qed.

Lemma wfold_map fp w l : wfold fp w l = fold_left (fun w r => step_width fp w r (gprop r)) (map fst l) w.
Proof. unfold wfold. revert w. induction l as [|x l IH]; intros w; [reflexivity|]. cbn [fold_left map]. apply IH. Qed.

Lemma fold_sum fp w l : (forall r w', step_width fp w' r (gprop r) = if r =? VS16 then 2 else w' + cells_of r) ->
  fold_left (fun w r => step_width fp w r (gprop r)) l w = sumw w l.
Proof.
  intros Hf. revert w. induction l as [|r l IH]; intros w; [reflexivity|]. cbn [fold_left]. rewrite Hf. apply IH.
Qed.

Lemma fold_const fp w l : (forall r, step_width fp w r (gprop r) = w) ->
  fold_left (fun w r => step_width fp w r (gprop r)) l w = w.
Proof. intros Hf. induction l as [|r l IH]; [reflexivity|]. cbn [fold_left]. rewrite Hf. exact IH. Qed.

Lemma step_cluster_cells l r n : decode l = (r, n) :: tl (decode l) -> Cells (runes l) (step_cluster_width (decode l)).
Proof.
  intros E. unfold runes. rewrite E. cbn [map fst step_cluster_width]. generalize (tl (decode l)). intros rest. clear.
  rewrite wfold_map, uniRuneWidth_cells, gprop_class. generalize (map fst rest). clear rest. intros rest.
  destruct (class r) eqn:Hc.
  all: try (
    rewrite fold_sum by (intros x w'; unfold step_width; change vs16 with VS16; rewrite uniRuneWidth_cells; reflexivity);
    destruct (in_dec Z.eq_dec VS16 rest) as [K|K];
    [ destruct (last_vs16 rest K) as (mid & post & -> & Hp);
      unfold sumw; rewrite fold_left_app; cbn [fold_left]; rewrite Z.eqb_refl; fold (sumw 2 post);
      rewrite sumw_plain by auto; apply c_vs16; [rewrite Hc; reflexivity|exact Hp]
    | rewrite sumw_plain by auto;
      apply (c_sum r rest); [rewrite Hc; reflexivity|exact K] ]).
  - replace (cells_of r) with 2 by (unfold cells_of; rewrite Hc; reflexivity).
    rewrite fold_const; [apply c_flag; auto|]. intros x. unfold step_width. destruct (x =? vs16); reflexivity.
  - rewrite (cells_HL r Hc). rewrite fold_const; [apply c_hangul; auto|]. intros x. unfold step_width. destruct (x =? vs16); reflexivity.
  - destruct rest as [|x mid _] using rev_ind; [apply c_single|]. rewrite fold_left_app. cbn [fold_left].
    unfold step_width at 1. change vs16 with VS16. change vs15 with VS15. cbn [code].
    rewrite Z.eqb_refl. cbn [negb andb].
    destruct (Z.eqb_spec x VS16) as [->|H16]; [apply c_emoji; [auto|discriminate]|].
    destruct (Z.eqb_spec x VS15) as [->|H15]; [apply c_text; auto|apply c_emoji; auto].
Qed.

Lemma StepString_cells s st cluster rest b st' : StateFor s st -> s <> [] ->
  StepString s st = Some (cluster, rest, b, st') -> exists w, Cells (runes cluster) w /\ b = 16 * w.
Proof.
  intros HS Hs E. rewrite (restartable s st HS) in E.
  destruct (StepString_spec s Hs) as (p & q & ns & E' & Es & Hp & _). rewrite E' in E.
  assert (EE : cluster = p /\ b = Z.shiftl (step_cluster_width (decode p)) ShiftWidth) by (split; congruence).
  destruct EE as [-> ->]. exists (step_cluster_width (decode p)). split.
  - destruct (DecodeRune p) as [r n] eqn:ED.
    apply step_cluster_cells with (r := r) (n := n). rewrite (decode_cons p Hp), ED. reflexivity.
  - rewrite Z.shiftl_mul_pow2 by (unfold ShiftWidth; lia). unfold ShiftWidth. lia.
Qed.

(** The relation is a function. *)
Definition cellsF (rs : list Z) : Z :=
  match rs with
  | [] => 0
  | r :: rest => fold_left (fun w x => step_width (gprop r) w x (gprop x)) rest (cells_of r)
  end.

Lemma Cells_fun rs w : Cells rs w -> w = cellsF rs.
Proof.
  intros HC. destruct HC as [r|r mid x Hr Hx|r mid Hr|r rest Hr|r rest Hr|r rest Hr Hn|r mid rest Hr Hn]; cbn [cellsF];
    try rewrite gprop_class.
  - reflexivity.
  - rewrite Hr, fold_left_app. cbn [fold_left]. unfold step_width at 1. change vs15 with VS15. cbn [code]. rewrite Z.eqb_refl.
    cbn [negb andb]. destruct (x =? vs16); [reflexivity|]. destruct (Z.eqb_spec x VS15); [contradiction|reflexivity].
  - rewrite Hr, fold_left_app. reflexivity.
  - rewrite Hr. rewrite fold_const; [unfold cells_of; rewrite Hr; reflexivity|]. intros x. unfold cells_of. rewrite Hr. unfold step_width.
    destruct (x =? vs16); reflexivity.
  - rewrite Hr, (cells_HL r Hr). rewrite fold_const; [reflexivity|]. intros x. unfold step_width. destruct (x =? vs16); reflexivity.
  - rewrite fold_sum; [rewrite sumw_plain by auto; reflexivity|]. intros x w'. unfold step_width. change vs16 with VS16.
    rewrite uniRuneWidth_cells. destruct (class r); try discriminate Hr; reflexivity.
  - rewrite fold_sum.
    + unfold sumw. rewrite fold_left_app. cbn [fold_left]. rewrite Z.eqb_refl. fold (sumw 2 rest). rewrite sumw_plain by auto. reflexivity.
    + intros x w'. unfold step_width. change vs16 with VS16. rewrite uniRuneWidth_cells. destruct (class r); try discriminate Hr; reflexivity.
Qed.

Lemma Cells_unique rs w w' : Cells rs w -> Cells rs w' -> w = w'.
Proof. intros H1 H2. rewrite (Cells_fun _ _ H1), (Cells_fun _ _ H2). reflexivity. Qed.

Lemma zsum_cells_nonneg l : 0 <= zsum (map cells_of l).
Proof. induction l as [|r l IH]; [reflexivity|]. cbn [map]. change (0 <= cells_of r + zsum (map cells_of l)). pose proof (cells_nonneg r). lia. Qed.

Lemma Cells_nonneg rs w : Cells rs w -> 0 <= w.
Proof.
  intros HC. destruct HC; try lia; [apply cells_nonneg| |].
  - apply (zsum_cells_nonneg (r :: rest)).
  - pose proof (zsum_cells_nonneg rest). lia.
Qed.
