(** * PropEdit: by how much an edit changes the width of a text (C98). *)
From Coq Require Import Strings.String.
From Verif Require Import GoBase Utf8 Utf8Spec GraphemeSpec Runewidth ConditionSpec TextSpec Width EditSpec EditProofs EditTheory EditCases.
Local Open Scope Z_scope.

(** C98: two texts one after the other take at most four cells less than apart. *)
Theorem C98_seam : forall c s t, Reachable c -> StartsRune t ->
  StringWidth c s + StringWidth c t - 4 <= StringWidth c (s ++ t) <= StringWidth c s + StringWidth c t.
Proof. exact seam. Qed.
Print Assumptions C98_seam.

(** One character more makes a text at most five cells wider and at most three
    narrower. *)
Theorem C98_insert : forall c a r e b, Reachable c -> Encodes r e -> StartsRune b ->
  StringWidth c (a ++ b) - 3 <= StringWidth c (a ++ e ++ b) <= StringWidth c (a ++ b) + 5.
Proof. exact insert_width. Qed.
Print Assumptions C98_insert.

(** Another character in its place: five cells at most. *)
Theorem C98_replace : forall c a r e r' e' b, Reachable c -> Encodes r e -> Encodes r' e' -> StartsRune b ->
  Z.abs (StringWidth c (a ++ e ++ b) - StringWidth c (a ++ e' ++ b)) <= 5.
Proof. exact replace_width. Qed.
Print Assumptions C98_replace.

(** Two neighbours exchanged: four cells at most. *)
Theorem C98_swap : forall c a r e r' e' b, Reachable c -> Encodes r e -> Encodes r' e' -> StartsRune b ->
  Z.abs (StringWidth c (a ++ e ++ e' ++ b) - StringWidth c (a ++ e' ++ e ++ b)) <= 4.
Proof. exact swap_width. Qed.
Print Assumptions C98_swap.

(** Any text in the place of any other. *)
Theorem C98_splice : forall c a x y b, Reachable c -> StartsRune x -> StartsRune y -> StartsRune b ->
  StringWidth c (a ++ x ++ b) <= StringWidth c (a ++ y ++ b) + StringWidth c x + 4.
Proof. exact splice_width. Qed.
Print Assumptions C98_splice.

(** So [k] edits change the width by at most 5k cells, *)
Theorem C98_edits : forall c k rs rs' s t, Reachable c -> EncodesText rs s -> EncodesText rs' t -> Edits k rs rs' ->
  Z.abs (StringWidth c s - StringWidth c t) <= 5 * Z.of_nat k.
Proof. exact edits_width. Qed.
Print Assumptions C98_edits.

(** and the visual width of cells without escape sequences too. *)
Theorem C98_visual : forall c k rs rs' s t, Reachable c -> EncodesText rs s -> EncodesText rs' t -> Edits k rs rs' ->
  Forall (fun r => ~ Introducer r) rs -> Forall (fun r => ~ Introducer r) rs' -> StringWidth c s < 65536 -> StringWidth c t < 65536 ->
  Z.abs (vwidth c s - vwidth c t) <= 5 * Z.of_nat k.
Proof. exact edits_visual. Qed.
Print Assumptions C98_visual.

(** Behind a visible rune that is no Extend, ZWJ or regional indicator a text
    measures as if it began with that rune. *)
Theorem C98_settles : forall c a r e b, Reachable c -> Encodes r e -> StartsRune b ->
  0 < RuneWidth c r -> class r <> Extend -> class r <> ZWJ -> class r <> RI ->
  StringWidth c (a ++ e ++ b) = StringWidth c (a ++ e) + StringWidth c (e ++ b) - RuneWidth c r.
Proof. exact settles_width. Qed.
Print Assumptions C98_settles.

(** None of the bounds can be lower, in any mode. *)
Theorem C98_sharp : forall ea s, let W := StringWidth (plainCondition ea s) in
  W (copyright ++ joined) = W copyright + W joined - 4 /\
  W (copyright ++ mark ++ joined) = W (copyright ++ joined) + 5 /\
  W ([] ++ copyright ++ joined) = W ([] ++ joined) - 3 /\
  W (sign ++ mark ++ joined) = W (sign ++ copyright ++ joined) + 5 /\
  W ([] ++ copyright ++ [x0d] ++ joined) = W ([] ++ [x0d] ++ copyright ++ joined) + 4 /\
  W (copyright ++ mark ++ joined) = W (copyright ++ [] ++ joined) + W mark + 4.
Proof.
  intros ea s. exact (conj (seam_sharp ea s) (conj (proj1 (insert_sharp ea s)) (conj (proj2 (insert_sharp ea s))
    (conj (replace_sharp ea s) (conj (swap_sharp ea s) (splice_sharp ea s)))))).
Qed.
Print Assumptions C98_sharp.

(** Regional indicators do not settle, nor visible Extend runes. *)
Theorem C98_settles_refuted : forall ea s, let W := StringWidth (plainCondition ea s) in
  W (flagD ++ flagD ++ flagD) <> W (flagD ++ flagD) + W (flagD ++ flagD) - W flagD /\
  W (copyright ++ joined) <> W (copyright ++ tone) + W joined - W tone.
Proof. exact settles_not. Qed.
Print Assumptions C98_settles_refuted.

(** One ESC can take away any width. *)
Theorem C98_escape_refuted : forall n, exists c a r e b, Reachable c /\ Encodes r e /\ StartsRune b /\
  rawWidth c (a ++ e ++ b) <= rawWidth c (a ++ b) - n.
Proof. exact escape_refuted. Qed.
Print Assumptions C98_escape_refuted.

Example C98_insert_ex : Reachable (plainCondition false true) /\ Encodes 0x61C mark /\ Encodes 0xA9 copyright /\ Encodes 0xD [x0d] /\ StartsRune joined.
Proof. split; [apply r_fresh|]. split; [apply enc_mark|]. split; [apply enc_copyright|]. split; [apply enc_cr|apply starts_joined]. Qed.
Example C98_edits_ex : Edits 2 [0x600; 0x61C; 0x1F3FB; 0x200D; 0x231A] [0x600; 0xA9; 0x1F3FB; 0x200D; 0x231A; 0x61].
Proof. exact edits_example. Qed.
Example C98_settles_ex : forall ea s, let W := StringWidth (plainCondition ea s) in
  Encodes 0x61 [x61] /\ RuneWidth (plainCondition ea s) 0x61 = 1 /\ class 0x61 = Other /\
  W (joined ++ [x61] ++ joined) = 7 /\ W (joined ++ [x61]) = 5 /\ W ([x61] ++ joined) = 3.
Proof. intros ea s. cbv zeta. split; [apply enc_a|]. split; [destruct ea, s; vm_compute; reflexivity|]. split; [vm_compute; reflexivity|]. apply settles_example. Qed.
