(** * EditTheory: edits of strings. *)
From Verif Require Import GoBase Utf8 Utf8Spec Utf8Proofs Utf8Theory Uniseg GraphemeSpec UnisegProofs
  Runewidth ConditionSpec RunewidthProofs StringWidthProofs LawsProofs LawsTheory TextSpec Width WidthProofs WidthTheory EditSpec EditProofs.
From Coq Require Import ZifyBool ZifyNat.
Local Open Scope Z_scope.

Lemma runes_one r e : Encodes r e -> runes e = [r].
Proof.
  intros He. assert (Et : EncodesText [r] e) by (exists [e]; split; [repeat constructor; exact He|cbn; rewrite app_nil_r; reflexivity]).
  apply text_decode in Et. apply Et.
Qed.
Lemma starts_app s t : StartsRune s -> StartsRune t -> StartsRune (s ++ t).
Proof. destruct s; auto. Qed.
Lemma runes_edit a r e b : Encodes r e -> StartsRune b -> runes (a ++ e ++ b) = runes a ++ [r] ++ runes b.
Proof.
  intros He Hb. pose proof (encodes_starts r e He) as [Hs _].
  rewrite runes_app, runes_app by (try apply starts_app; assumption). rewrite (runes_one r e He). reflexivity.
Qed.

Lemma seam c s t : Reachable c -> StartsRune t ->
  StringWidth c s + StringWidth c t - 4 <= StringWidth c (s ++ t) <= StringWidth c s + StringWidth c t.
Proof. intros Hc Ht. rewrite !StringWidth_swidth, runes_app by exact Ht. apply seam_loss, Hc. Qed.

Lemma insert_width c a r e b : Reachable c -> Encodes r e -> StartsRune b ->
  StringWidth c (a ++ b) - 3 <= StringWidth c (a ++ e ++ b) <= StringWidth c (a ++ b) + 5.
Proof. intros Hc He Hb. rewrite !StringWidth_swidth, (runes_edit a r e b He Hb), runes_app by exact Hb. apply insert_one, Hc. Qed.

Lemma replace_width c a r e r' e' b : Reachable c -> Encodes r e -> Encodes r' e' -> StartsRune b ->
  Z.abs (StringWidth c (a ++ e ++ b) - StringWidth c (a ++ e' ++ b)) <= 5.
Proof.
  intros Hc He He' Hb. rewrite !StringWidth_swidth, (runes_edit a r e b He Hb), (runes_edit a r' e' b He' Hb).
  pose proof (replace_one c Hc (runes a) r r' (runes b)). pose proof (replace_one c Hc (runes a) r' r (runes b)). lia.
Qed.

Lemma swap_width c a r e r' e' b : Reachable c -> Encodes r e -> Encodes r' e' -> StartsRune b ->
  Z.abs (StringWidth c (a ++ e ++ e' ++ b) - StringWidth c (a ++ e' ++ e ++ b)) <= 4.
Proof.
  intros Hc He He' Hb. pose proof (encodes_starts r e He) as [Hs _]. pose proof (encodes_starts r' e' He') as [Hs' _].
  rewrite !StringWidth_swidth, (runes_edit a r e (e' ++ b) He), (runes_edit a r' e' (e ++ b) He') by (apply starts_app; assumption).
  rewrite !runes_app by assumption. rewrite (runes_one r e He), (runes_one r' e' He').
  pose proof (swap_two c Hc (runes a) r r' (runes b)). pose proof (swap_two c Hc (runes a) r' r (runes b)). cbn [app] in *. lia.
Qed.

Lemma splice_width c a x y b : Reachable c -> StartsRune x -> StartsRune y -> StartsRune b ->
  StringWidth c (a ++ x ++ b) <= StringWidth c (a ++ y ++ b) + StringWidth c x + 4.
Proof.
  intros Hc Hx Hy Hb. rewrite !StringWidth_swidth, !runes_app by (try apply starts_app; assumption). apply splice, Hc.
Qed.

Lemma settles_width c a r e b : Reachable c -> Encodes r e -> StartsRune b ->
  0 < RuneWidth c r -> class r <> Extend -> class r <> ZWJ -> class r <> RI ->
  StringWidth c (a ++ e ++ b) = StringWidth c (a ++ e) + StringWidth c (e ++ b) - RuneWidth c r.
Proof.
  intros Hc He Hb Hw H1 H2 H3. pose proof (encodes_starts r e He) as [Hs _].
  rewrite !StringWidth_swidth, (runes_edit a r e b He Hb), !runes_app, (runes_one r e He) by assumption.
  rewrite (settles c Hc) by assumption. rewrite swidth_single by apply Reachable_OK, Hc. reflexivity.
Qed.

Lemma edit_width c rs rs' : Reachable c -> Edit rs rs' -> Z.abs (swidth c rs - swidth c rs') <= 5.
Proof.
  intros Hc HE. destruct HE as [a r b|a r b|a r r' b|a r r' b].
  - pose proof (insert_one c Hc a r b) as K. cbn [app] in K. lia.
  - pose proof (insert_one c Hc a r b) as K. cbn [app] in K. lia.
  - pose proof (replace_one c Hc a r r' b) as K. pose proof (replace_one c Hc a r' r b) as K'. cbn [app] in K, K'. lia.
  - pose proof (swap_two c Hc a r r' b) as K. pose proof (swap_two c Hc a r' r b) as K'. cbn [app] in K, K'. lia.
Qed.
Lemma edits_runes c k rs rs' : Reachable c -> Edits k rs rs' -> Z.abs (swidth c rs - swidth c rs') <= 5 * Z.of_nat k.
Proof.
  intros Hc HE. induction HE as [rs|k rs rs' rs'' H1 _ IH]; [lia|]. apply (edit_width c _ _ Hc) in H1. lia.
Qed.
Lemma edits_width c k rs rs' s t : Reachable c -> EncodesText rs s -> EncodesText rs' t -> Edits k rs rs' ->
  Z.abs (StringWidth c s - StringWidth c t) <= 5 * Z.of_nat k.
Proof.
  intros Hc Hs Ht HE. apply text_decode in Hs, Ht. destruct Hs as [<- _], Ht as [<- _]. rewrite !StringWidth_swidth. apply edits_runes; assumption.
Qed.
Lemma edits_visual c k rs rs' s t : Reachable c -> EncodesText rs s -> EncodesText rs' t -> Edits k rs rs' ->
  Forall (fun r => ~ Introducer r) rs -> Forall (fun r => ~ Introducer r) rs' -> StringWidth c s < 65536 -> StringWidth c t < 65536 ->
  Z.abs (vwidth c s - vwidth c t) <= 5 * Z.of_nat k.
Proof.
  intros Hc Hs Ht HE F1 F2 W1 W2. pose proof (edits_width c k rs rs' s t Hc Hs Ht HE) as K.
  apply text_decode in Hs, Ht. destruct Hs as [Hs _], Ht as [Ht _]. rewrite <- Hs in F1. rewrite <- Ht in F2.
  unfold vwidth, rawWidth. rewrite !count_no_intro by assumption. rewrite !Z.sub_0_r.
  pose proof (swidth_nonneg c (runes s) (Reachable_OK c Hc)) as N1. pose proof (swidth_nonneg c (runes t) (Reachable_OK c Hc)) as N2.
  rewrite <- StringWidth_swidth in N1, N2. rewrite !u16_small by lia. exact K.
Qed.
