(** * MeasureWordCases: a text of 2^30 bytes on a machine of 32 bits. *)
From Coq Require Import Strings.String.
From Verif Require Import GoBase Utf8 Utf8Proofs GraphemeSpec UnisegProofs Uniseg Runewidth ConditionSpec RunewidthProofs StringWidthProofs Width WidthProofs
  MergeWord MeasureWord MeasureWordProofs TableExamples.
From Coq Require Import ZifyBool ZifyNat.
Local Open Scope Z_scope.

Lemma runes_bad n : runes (repeat x80 n) = repeat RuneError n.
Proof.
  unfold runes. induction n as [|n IH]; [reflexivity|]. cbn [repeat]. rewrite decode_cons by discriminate.
  change (DecodeRune (x80 :: repeat x80 n)) with (RuneError, 1). cbn [map fst snd]. f_equal.
  change (drop 1 (x80 :: repeat x80 n)) with (repeat x80 n). exact IH.
Qed.
Lemma class_bad : class RuneError = Other.
Proof. vm_compute. reflexivity. Qed.
Definition eastAsian : Condition := plainCondition true true.
Lemma width_bad : RuneWidth eastAsian RuneError = 2.
Proof. vm_compute. reflexivity. Qed.
Lemma swidth_bad n : swidth eastAsian (repeat RuneError n) = 2 * Z.of_nat n.
Proof.
  induction n as [|n IH]; [reflexivity|]. change (repeat RuneError (S n)) with ([RuneError] ++ repeat RuneError n).
  destruct n as [|n].
  - rewrite app_nil_r, swidth_single by (apply Reachable_OK, r_fresh). rewrite width_bad. reflexivity.
  - change (repeat RuneError (S n)) with (RuneError :: repeat RuneError n) in *. rewrite swidth_app.
    + rewrite IH, swidth_single by (apply Reachable_OK, r_fresh). rewrite width_bad. lia.
    + cbn [map rev app]. rewrite class_bad. reflexivity.
Qed.
Lemma bad_width n : StringWidth eastAsian (repeat x80 n) = 2 * Z.of_nat n.
Proof. rewrite StringWidth_swidth, runes_bad. apply swidth_bad. Qed.
Lemma bad_len n : slen (repeat x80 n) = Z.of_nat n.
Proof. unfold slen. rewrite repeat_length. reflexivity. Qed.

Lemma overflow_gen half n : 2147483648 <= half -> 2 * Z.of_nat n = half ->
  StringWidthW half eastAsian (repeat x80 n) = Some (- half).
Proof.
  intros Hh Hn. rewrite stringW; [|lia|apply r_fresh|rewrite bad_len; lia]. rewrite bad_width, Hn. f_equal. unfold wrap.
  replace (half + half) with (2 * half) by lia. rewrite Z_mod_same_full. lia.
Qed.

Lemma overflow : exists c s, Reachable c /\ slen s = 2 ^ 30 /\ StringWidth c s = 2 ^ 31 /\ StringWidthW (2 ^ 31) c s = Some (- 2 ^ 31).
Proof.
  assert (G : exists n, Z.of_nat n = 2 ^ 30) by (exists (Z.to_nat (2 ^ 30)); apply Z2Nat.id; apply Z.pow_nonneg; lia).
  destruct G as (n & Hn). exists eastAsian, (repeat x80 n). split; [apply r_fresh|]. split; [rewrite bad_len; exact Hn|].
  change (2 ^ 31) with (2 * 2 ^ 30). split; [rewrite bad_width, Hn; reflexivity|].
  apply overflow_gen; [vm_compute; discriminate|]. rewrite Hn. reflexivity.
Qed.

Definition sample : str := lit "ab "%string ++ (x1b :: lit "[31m"%string) ++ [xea; xb0; x80] ++ (x1b :: lit "[0m"%string).
Lemma sample_example : Reachable exC /\ slen sample < 2 ^ 31 /\ vwidthW (2 ^ 31) exC sample = Some 5
  /\ StringWidthW (2 ^ 31) exC sample = Some 12 /\ vwidthW (2 ^ 31) exC [xc2; x9b; x6d] = Some 65535
  /\ vwidth exC [xc2; x9b; x6d] = 65535.
Proof. split; [apply r_fresh|]. repeat split; vm_compute; reflexivity. Qed.
