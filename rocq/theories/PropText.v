(** * PropText: cluster cells, UTF-8, Hangul, and the laws of StringWidth (C46-C49). *)
From Verif Require Import GoBase Utf8 Utf8Spec Utf8Theory TextSpec Locale PropConst GraphemeData Uniseg GraphemeSpec SegmentSpec ClusterSpec ClusterProofs
  Runewidth ConditionSpec StringWidthSpec HangulSpec HangulProofs LawsTheory.
Local Open Scope Z_scope.

(** ** C46: the width StepString reports *)

Theorem C46_step_width : forall s st cluster rest b st', StateFor s st -> s <> [] ->
  StepString s st = Some (cluster, rest, b, st') ->
  exists w, Cells (runes cluster) w /\ b = 16 * w.
Proof. exact StepString_cells. Qed.
Print Assumptions C46_step_width.

Theorem C46_one_width : forall rs w w', Cells rs w -> Cells rs w' -> w = w'.
Proof. exact Cells_unique. Qed.
Print Assumptions C46_one_width.

Theorem C46_nonneg : forall rs w, Cells rs w -> 0 <= w.
Proof. exact Cells_nonneg. Qed.
Print Assumptions C46_nonneg.

(** The width uniseg reports is not what StringWidth counts: a flag takes two
    cells there and one here, in every mode. *)
Theorem C46_agrees_refuted : exists s b st, StepString s (-1) = Some (s, [], b, st) /\ b = 16 * 2
  /\ forall ea strict, StringWidth (plainCondition ea strict) s = 1.
Proof.
  exists [xf0; x9f; x87; xa9; xf0; x9f; x87; xaa]. eexists _, _. split; [vm_compute; reflexivity|].
  split; [vm_compute; reflexivity|]. intros [] []; vm_compute; reflexivity.
Qed.
Print Assumptions C46_agrees_refuted.

(** "a" with U+0301; a smiley with VS16, with VS15; an emoji alone; the two-em dash. *)
Example C46_example :
  StateFor [x61; xcc; x81; x62] (-1)
  /\ option_map (fun '(c, _, b, _) => (runes c, b)) (StepString [x61; xcc; x81; x62] (-1)) = Some ([0x61; 0x301], 16)
  /\ option_map (fun '(c, _, b, _) => (runes c, b)) (StepString [xe2; x98; xba; xef; xb8; x8f] (-1)) = Some ([0x263A; 0xFE0F], 32)
  /\ option_map (fun '(c, _, b, _) => (runes c, b)) (StepString [xe2; x98; xba; xef; xb8; x8e] (-1)) = Some ([0x263A; 0xFE0E], 16)
  /\ option_map (fun '(c, _, b, _) => (runes c, b)) (StepString [xf0; x9f; x98; x80] (-1)) = Some ([0x1F600], 32)
  /\ option_map (fun '(c, _, b, _) => (runes c, b)) (StepString [xe2; xb8; xba] (-1)) = Some ([0x2E3A], 48).
Proof. split; [apply sf_start; reflexivity|]. vm_compute. auto. Qed.

(** ** C47: UTF-8 *)

Theorem C47_decode : forall s r n, s <> [] ->
  (DecodeRune s = (r, n) <->
   (exists e rest, s = e ++ rest /\ Encodes r e /\ n = slen e)
   \/ (r = RuneError /\ n = 1 /\ forall r' e rest, s = e ++ rest -> ~ Encodes r' e)).
Proof. exact decode_spec. Qed.
Print Assumptions C47_decode.

Theorem C47_encode : forall r, Scalar r -> Encodes r (EncodeRune r).
Proof. exact encode_encodes. Qed.
Print Assumptions C47_encode.

Theorem C47_one_encoding : forall r e e', Encodes r e -> Encodes r e' -> e = e'.
Proof. exact encodes_unique. Qed.
Print Assumptions C47_one_encoding.

Theorem C47_text : forall rs s, EncodesText rs s -> runes s = rs /\ ValidUTF8 s.
Proof. exact text_decode. Qed.
Print Assumptions C47_text.

Theorem C47_valid : forall s, ValidUTF8 s -> EncodesText (runes s) s.
Proof. exact valid_text. Qed.
Print Assumptions C47_valid.

Theorem C47_clusters : forall rs s gs, EncodesText rs s -> Visits (NewGraphemes s) gs -> concat (map Runes gs) = rs.
Proof. exact text_visits. Qed.
Print Assumptions C47_clusters.

Theorem C47_width : forall c rs s w, Reachable c -> EncodesText rs s ->
  (StringWidth c s = w <-> TextWidth (RuneWidth c) rs w).
Proof. exact text_width. Qed.
Print Assumptions C47_width.

(** One encoding of each length; an overlong form and a surrogate are none. *)
Example C47_example : EncodesText [0x41; 0xE9; 0x3042; 0x1F600]
    [x41; xc3; xa9; xe3; x81; x82; xf0; x9f; x98; x80]
  /\ DecodeRune [xc0; x80] = (RuneError, 1) /\ DecodeRune [xed; xa0; x80] = (RuneError, 1)
  /\ DecodeRune [xf4; x8f; xbf; xbf; x41] = (0x10FFFF, 4).
Proof.
  split; [|vm_compute; auto]. exists [[x41]; [xc3; xa9]; [xe3; x81; x82]; [xf0; x9f; x98; x80]]. split; [|reflexivity].
  repeat constructor.
  - change 0x41 with (bv x41). apply e1. reflexivity.
  - apply (e2 _ 3 41); vm_compute; intuition discriminate.
  - apply (e3 _ 3 1 2); vm_compute; intuition discriminate.
  - apply (e4 _ 0 31 24 0); vm_compute; intuition discriminate.
Qed.

(** ** C48: Hangul *)

Theorem C48_class : forall r, Syllable r -> class r = if (r - 0xAC00) mod 28 =? 0 then HLV else HLVT.
Proof. exact syllable_class. Qed.
Print Assumptions C48_class.

Theorem C48_one_cluster : forall r, Syllable r ->
  IsSegmentation [r] [[r]] /\ IsSegmentation (decompose r) [decompose r].
Proof. exact syllable_one. Qed.
Print Assumptions C48_one_cluster.

Theorem C48_widths : forall c r s s', Reachable c -> Syllable r ->
  EncodesText [r] s -> EncodesText (decompose r) s' ->
  StringWidth c s = 2 /\ StringWidth c s' = 2.
Proof. exact hangul_widths. Qed.
Print Assumptions C48_widths.

(** "han" as one rune and as three. *)
Example C48_example : Syllable 0xD55C /\ decompose 0xD55C = [0x1112; 0x1161; 0x11AB]
  /\ runes [xed; x95; x9c] = [0xD55C]
  /\ runes [xe1; x84; x92; xe1; x85; xa1; xe1; x86; xab] = decompose 0xD55C
  /\ StringWidth (plainCondition false true) [xe1; x84; x92; xe1; x85; xa1; xe1; x86; xab] = 2.
Proof. vm_compute. repeat split; discriminate. Qed.

(** ** C49: laws of StringWidth *)

Theorem C49_prefix : forall c s t, Reachable c -> StartsRune t -> StringWidth c s <= StringWidth c (s ++ t).
Proof. exact width_prefix. Qed.
Print Assumptions C49_prefix.

Theorem C49_subadditive : forall c s t, Reachable c -> StartsRune t ->
  StringWidth c (s ++ t) <= StringWidth c s + StringWidth c t.
Proof. exact width_subadd. Qed.
Print Assumptions C49_subadditive.

Theorem C49_zero_width : forall c s r e, Reachable c -> Encodes r e -> RuneWidth c r = 0 ->
  StringWidth c (s ++ e) = StringWidth c s.
Proof. exact width_zero. Qed.
Print Assumptions C49_zero_width.

Theorem C49_text_starts : forall rs t, EncodesText rs t -> StartsRune t.
Proof. exact text_starts. Qed.
Print Assumptions C49_text_starts.

(** Putting text in front can make a string narrower: U+0600 before a wide kana. *)
Theorem C49_suffix_refuted : exists s t, StartsRune s /\ StartsRune t
  /\ forall st, StringWidth (plainCondition false st) (s ++ t) < StringWidth (plainCondition false st) t.
Proof. exists [xd8; x80], [xe3; x81; x82]. split; [cbn; right; discriminate|]. split; [cbn; right; discriminate|]. intros []; vm_compute; reflexivity. Qed.
Print Assumptions C49_suffix_refuted.

(** Completing a truncated encoding can make a string narrower. *)
Theorem C49_truncated_refuted : exists s t,
  forall st, StringWidth (plainCondition false st) (s ++ t) < StringWidth (plainCondition false st) s.
Proof. exists [xf0; x9f; x98], [x80]. intros []; vm_compute; reflexivity. Qed.
Print Assumptions C49_truncated_refuted.

(** The two halves of a flag: 1 + 1 cells apart, 1 together. *)
Example C49_example : StartsRune [xf0; x9f; x87; xaa]
  /\ StringWidth (plainCondition false true) [xf0; x9f; x87; xa9] = 1
  /\ StringWidth (plainCondition false true) [xf0; x9f; x87; xaa] = 1
  /\ StringWidth (plainCondition false true) ([xf0; x9f; x87; xa9] ++ [xf0; x9f; x87; xaa]) = 1
  /\ RuneWidth (plainCondition false true) 0x301 = 0.
Proof. split; [cbn; right; discriminate|]. vm_compute. auto. Qed.
