(** * HangulProofs: Hangul syllables, composed or not. *)
From Verif Require Import GoBase IntervalSpec Utf8 Utf8Spec Utf8Proofs Utf8Theory PropConst GraphemeData Uniseg GraphemeSpec UnisegProofs SegmentTheory
  RuneWidthData Runewidth ConditionSpec RunewidthProofs RuneTheory Pointwise StringWidthProofs HangulSpec.
From Coq Require Import ZifyBool ZifyNat.
Local Open Scope Z_scope.
Ltac Zify.zify_post_hook ::= Z.div_mod_to_equations.

Definition upto (P : Z -> bool) (n : nat) : bool := forallb (fun k => P (Z.of_nat k)) (seq 0 n).
Lemma upto_all P n i : upto P n = true -> 0 <= i < Z.of_nat n -> P i = true.
Proof.
  intros Hu Hi. unfold upto in Hu. rewrite forallb_forall in Hu. specialize (Hu (Z.to_nat i)).
  rewrite Z2Nat.id in Hu by lia. apply Hu. apply in_seq. lia.
Qed.

Lemma code_inj g h : code g = code h -> g = h.
Proof. destruct g, h; vm_compute; intros E; try discriminate E; reflexivity. Qed.

Lemma class_by_gprop r g : gprop r = code g -> class r = g.
Proof. rewrite gprop_class. apply code_inj. Qed.

(** The part of the table about syllables. *)
Fixpoint syllables (k : Z) (n : nat) : list (Z * Z * Z) :=
  match n with
  | O => []
  | S n => (0xAC00 + 28 * k, 0xAC00 + 28 * k, prLV) :: (0xAC00 + 28 * k + 1, 0xAC00 + 28 * k + 27, prLVT) :: syllables (k + 1) n
  end.
Lemma lookup_syllables n : forall k i, 28 * k <= i < 28 * (k + Z.of_nat n) ->
  lookup (syllables k n) (0xAC00 + i) = if i mod 28 =? 0 then prLV else prLVT.
Proof.
  induction n as [|n IH]; intros k i Hi; [lia|]. cbn [syllables lookup].
  destruct ((0xAC00 + 28 * k <=? 0xAC00 + i) && (0xAC00 + i <=? 0xAC00 + 28 * k)) eqn:E1.
  { replace i with (28 * k) by lia. rewrite Z.mul_comm, Z_mod_mult. reflexivity. }
  destruct ((0xAC00 + 28 * k + 1 <=? 0xAC00 + i) && (0xAC00 + i <=? 0xAC00 + 28 * k + 27)) eqn:E2.
  { destruct (Z.eqb_spec (i mod 28) 0); [lia|reflexivity]. }
  apply IH. lia.
Qed.
Lemma lookup_filter d lo hi r : lo <= r <= hi ->
  lookup d r = lookup (filter (fun e => (lo <=? snd (fst e)) && (fst (fst e) <=? hi)) d) r.
Proof.
  intros Hr. induction d as [|((a, b), p) d IH]; [reflexivity|]. cbn [filter lookup fst snd].
  destruct ((lo <=? b) && (a <=? hi)) eqn:E; cbn [lookup]; rewrite <- IH; [reflexivity|].
  replace ((a <=? r) && (r <=? b)) with false by lia. reflexivity.
Qed.

Lemma syllable_class r : Syllable r -> class r = if (r - 0xAC00) mod 28 =? 0 then HLV else HLVT.
Proof.
  intros Hr. unfold Syllable in Hr. apply class_by_gprop. rewrite gprop_lookup, (lookup_filter _ 0xAC00 0xD7A3) by auto.
  replace (filter _ graphemeCodePoints) with (syllables 0 399) by (vm_compute; reflexivity).
  replace r with (0xAC00 + (r - 0xAC00)) at 1 by lia. rewrite lookup_syllables by lia. destruct (_ =? _); reflexivity.
Qed.

Lemma leading_class k : 0 <= k < 19 -> class (0x1100 + k) = HL.
Proof.
  intros Hk. apply class_by_gprop, Z.eqb_eq. apply (upto_all (fun i => gprop (0x1100 + i) =? code HL) 19); [vm_compute; reflexivity|lia].
Qed.
Lemma vowel_class k : 0 <= k < 21 -> class (0x1161 + k) = HV.
Proof.
  intros Hk. apply class_by_gprop, Z.eqb_eq. apply (upto_all (fun i => gprop (0x1161 + i) =? code HV) 21); [vm_compute; reflexivity|lia].
Qed.
Lemma trailing_class k : 1 <= k < 28 -> class (0x11A7 + k) = HT.
Proof.
  intros Hk. apply class_by_gprop, Z.eqb_eq. replace (0x11A7 + k) with (0x11A8 + (k - 1)) by lia.
  apply (upto_all (fun i => gprop (0x11A8 + i) =? code HT) 27); [vm_compute; reflexivity|lia].
Qed.

(** No table has a break point inside the block of syllables. *)
Lemma syllable_width c r : Reachable c -> Syllable r -> RuneWidth c r = 2.
Proof.
  intros Hc Hr. destruct (Reachable_width c Hc) as (ea & st & E). rewrite E. clear E.
  unfold Syllable in Hr. fold (plainCondition ea st). rewrite RuneWidth_plainCondition, RuneWidth_tables_rwM by lia.
  rewrite (rwM_same ea st r 0xAC00).
  - destruct ea, st; vm_compute; reflexivity.
  - intros b Hb. assert (K : forallb (fun b => (b <=? 0xAC00) || (0xD7A3 <? b)) rw_cuts = true) by (vm_compute; reflexivity).
    rewrite forallb_forall in K. specialize (K b Hb). lia.
Qed.
Lemma leading_width c k : Reachable c -> 0 <= k < 19 -> RuneWidth c (0x1100 + k) = 2.
Proof.
  intros Hc Hk. destruct (Reachable_width c Hc) as (ea & st & E). rewrite E. clear E. apply Z.eqb_eq.
  apply (upto_all (fun i => RuneWidth {| combinedLut := []; EastAsianWidth := ea; StrictEmojiNeutral := st |} (0x1100 + i) =? 2) 19); [|lia].
  destruct ea, st; vm_compute; reflexivity.
Qed.

Lemma decompose_cluster r : Syllable r -> segments (decompose r) = [decompose r].
Proof.
  intros Hr. unfold Syllable in Hr. unfold decompose. set (i := r - 0xAC00).
  assert (HL : class (0x1100 + i / 588) = HL) by (apply leading_class; lia).
  assert (HV : class (0x1161 + i mod 588 / 28) = HV) by (apply vowel_class; lia).
  destruct (Z.eqb_spec (i mod 28) 0) as [E|E].
  - cbn [app segments seg]. rewrite HL, HV. reflexivity.
  - assert (HT : class (0x11A7 + i mod 28) = HT) by (apply trailing_class; lia).
    cbn [app segments seg]. rewrite HL, HV, HT. reflexivity.
Qed.

Lemma decompose_scalar r : Syllable r -> Forall Scalar (decompose r).
Proof.
  intros Hr. unfold Syllable in Hr. unfold decompose, Scalar. destruct (_ =? _); repeat constructor; lia.
Qed.

Lemma syllable_one r : Syllable r -> IsSegmentation [r] [[r]] /\ IsSegmentation (decompose r) [decompose r].
Proof.
  intros Hr. split.
  - exact (segments_IsSegmentation [r]).
  - pose proof (segments_IsSegmentation (decompose r)) as K. rewrite (decompose_cluster r Hr) in K. exact K.
Qed.

Lemma hangul_widths c r s s' : Reachable c -> Syllable r -> EncodesText [r] s -> EncodesText (decompose r) s' ->
  StringWidth c s = 2 /\ StringWidth c s' = 2.
Proof.
  intros Hc Hr Hs Hs'. apply text_decode in Hs, Hs'. destruct Hs as [Es _], Hs' as [Es' _]. rewrite !StringWidth_swidth, Es, Es'. split.
  - rewrite swidth_single by (apply Reachable_OK; auto). apply syllable_width; auto.
  - unfold swidth. rewrite decompose_cluster by auto. unfold Syllable in Hr. unfold decompose. cbn [map app cluster_width cluster_width_from].
    rewrite (leading_width c ((r - 0xAC00) / 588) Hc) by lia. reflexivity.
Qed.
