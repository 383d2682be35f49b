(** * LawsTheory: the laws of StringWidth, for strings. *)
From Verif Require Import GoBase Utf8 Utf8Spec Utf8Proofs Utf8Theory Uniseg SegmentSpec GraphemeSpec UnisegProofs SegmentTheory
  Runewidth ConditionSpec StringWidthSpec StringWidthProofs LawsProofs.
From Coq Require Import ZifyBool ZifyNat.
Local Open Scope Z_scope.

Lemma runes_app s t : StartsRune t -> runes (s ++ t) = runes s ++ runes t.
Proof. intros Ht. unfold runes. rewrite decode_app by exact Ht. apply map_app. Qed.

Lemma encodes_starts r e : Encodes r e -> StartsRune e /\ e <> [].
Proof. intros He. destruct He; (split; [cbn; lia|discriminate]). Qed.

Lemma text_starts rs s : EncodesText rs s -> StartsRune s.
Proof.
  intros (es & HF & ->). destruct HF as [|r e rs es He _]; [exact I|]. apply encodes_starts in He. destruct He as [He Hn].
  destruct e; [congruence|exact He].
Qed.

Lemma width_prefix c s t : Reachable c -> StartsRune t -> StringWidth c s <= StringWidth c (s ++ t).
Proof. intros Hc Ht. rewrite !StringWidth_swidth, runes_app by exact Ht. apply swidth_prefix, Reachable_OK, Hc. Qed.

Lemma width_subadd c s t : Reachable c -> StartsRune t -> StringWidth c (s ++ t) <= StringWidth c s + StringWidth c t.
Proof. intros Hc Ht. rewrite !StringWidth_swidth, runes_app by exact Ht. apply swidth_subadd, Hc. Qed.

Lemma width_zero c s r e : Reachable c -> Encodes r e -> RuneWidth c r = 0 -> StringWidth c (s ++ e) = StringWidth c s.
Proof.
  intros Hc He Hr. pose proof (encodes_starts r e He) as [Hs _].
  assert (Et : EncodesText [r] e) by (exists [e]; split; [repeat constructor; exact He|cbn; rewrite app_nil_r; reflexivity]).
  apply text_decode in Et. destruct Et as [Et _]. rewrite !StringWidth_swidth, runes_app by exact Hs. rewrite Et.
  apply swidth_snoc_zero; [apply Reachable_OK, Hc|exact Hr].
Qed.

Lemma text_visits rs s gs : EncodesText rs s -> Visits (NewGraphemes s) gs -> concat (map Runes gs) = rs.
Proof. intros Ht Hv. apply text_decode in Ht. destruct Ht as [<- _]. apply iteration_runes, Hv. Qed.

Lemma text_width c rs s w : Reachable c -> EncodesText rs s -> (StringWidth c s = w <-> TextWidth (RuneWidth c) rs w).
Proof. intros Hc Ht. apply text_decode in Ht. destruct Ht as [<- _]. apply StringWidth_TextWidth, Hc. Qed.
