(** * PropCount: by how much an edit changes the number of characters (C112). *)
From Verif Require Import GoBase Utf8 Utf8Spec SegmentSpec CountSpec CountProofs EditSpec EditCases CountCases.
Local Open Scope Z_scope.

(** C112: the characters of two texts, apart and one after the other: up to two
    fewer, never more, and never fewer than in the first alone. *)
Theorem C112_seam : forall s t m n k, StartsRune t -> Count s m -> Count t n -> Count (s ++ t) k -> m + n - 2 <= k <= m + n /\ m <= k.
Proof. exact seam_chars. Qed.
Print Assumptions C112_seam.
Example C112_seam_example : Count copyright 1 /\ Count joined 2 /\ Count (copyright ++ joined) 1.
Proof. exact seam_sharp. Qed.

(** A rune at the end adds one character or none. *)
Theorem C112_append : forall s r e m k, Encodes r e -> Count s m -> Count (s ++ e) k -> m <= k <= m + 1.
Proof. exact append_chars. Qed.
Print Assumptions C112_append.
Example C112_append_example : Count joined 2 /\ Count (joined ++ tone) 2 /\ Count (joined ++ [x61]) 3.
Proof. exact append_example. Qed.

(** Anywhere else: from one fewer to three more. *)
Theorem C112_insert : forall a r e b m k, Encodes r e -> StartsRune b -> Count (a ++ b) m -> Count (a ++ e ++ b) k -> m - 1 <= k <= m + 3.
Proof. exact insert_chars. Qed.
Print Assumptions C112_insert.
Example C112_insert_example : Encodes 0xA [x0a] /\ StartsRune joined /\ Count (copyright ++ joined) 1 /\ Count (copyright ++ [x0a] ++ joined) 4 /\
  Count ([] ++ joined) 2 /\ Count ([] ++ copyright ++ joined) 1.
Proof. exact (conj enc_lf (conj starts_joined insert_sharp)). Qed.

(** Another rune in its place, *)
Theorem C112_replace : forall a r e r' e' b m k, Encodes r e -> Encodes r' e' -> StartsRune b ->
  Count (a ++ e ++ b) m -> Count (a ++ e' ++ b) k -> Z.abs (m - k) <= 3.
Proof. exact replace_chars. Qed.
Print Assumptions C112_replace.
Example C112_replace_example : Count (sign ++ copyright ++ joined) 1 /\ Count (sign ++ [x0a] ++ joined) 4.
Proof. exact replace_sharp. Qed.

(** two neighbours exchanged, *)
Theorem C112_swap : forall a r e r' e' b m k, Encodes r e -> Encodes r' e' -> StartsRune b ->
  Count (a ++ e ++ e' ++ b) m -> Count (a ++ e' ++ e ++ b) k -> Z.abs (m - k) <= 3.
Proof. exact swap_chars. Qed.
Print Assumptions C112_swap.
Example C112_swap_example : Count ([x0d] ++ [x0a] ++ copyright ++ joined) 2 /\ Count ([x0d] ++ copyright ++ [x0a] ++ joined) 5.
Proof. exact swap_sharp. Qed.

(** any text in the place of any other. *)
Theorem C112_splice : forall a x y b m k n, StartsRune x -> StartsRune y -> StartsRune b ->
  Count (a ++ x ++ b) m -> Count (a ++ y ++ b) k -> Count x n -> m <= k + n + 2.
Proof. exact splice_chars. Qed.
Print Assumptions C112_splice.
Example C112_splice_example : Count (copyright ++ [x0a] ++ joined) 4 /\ Count (copyright ++ [] ++ joined) 1 /\ Count [x0a] 1.
Proof. exact splice_sharp. Qed.

(** So [j] edits change the number of characters by at most 3j, *)
Theorem C112_edits : forall j rs rs' s t m n, EncodesText rs s -> EncodesText rs' t -> Edits j rs rs' ->
  Count s m -> Count t n -> Z.abs (m - n) <= 3 * Z.of_nat j.
Proof. exact edits_chars. Qed.
Print Assumptions C112_edits.

(** and for every [j] some [j] edits do change it by that much. *)
Theorem C112_edits_sharp : forall j, exists rs rs' s t m, EncodesText rs s /\ EncodesText rs' t /\ Edits j rs rs' /\
  Count s m /\ Count t (m + 3 * Z.of_nat j).
Proof. exact edits_sharp. Qed.
Print Assumptions C112_edits_sharp.

(** A text in front can leave fewer characters than there were behind it, *)
Theorem C112_front_refuted : exists s t m k, StartsRune t /\ Count t m /\ Count (s ++ t) k /\ k < m.
Proof. exact front_refuted. Qed.
Print Assumptions C112_front_refuted.

(** and a seam inside a rune can cost more than two. *)
Theorem C112_inside_refuted : exists s t m n k, Count s m /\ Count t n /\ Count (s ++ t) k /\ k < m + n - 2.
Proof. exact inside_refuted. Qed.
Print Assumptions C112_inside_refuted.
