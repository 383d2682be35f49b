(** * CountCases: texts whose number of characters changes as much as it can. *)
From Verif Require Import GoBase Utf8 Utf8Spec Utf8Proofs Utf8Theory Uniseg GraphemeSpec SegmentSpec PartsSpec PartsCases CountSpec CountProofs EditSpec EditTheory EditCases.
Local Open Scope Z_scope.

Lemma count_by n s k : option_map (fun gs => Z.of_nat (length gs)) (iterate n (NewGraphemes s)) = Some k -> Count s k.
Proof.
  intros H. destruct (iterate n (NewGraphemes s)) as [gs|] eqn:E; [|discriminate]. injection H as <-.
  destruct (clusters_by n s (map g_cluster gs)) as (gs' & Hv & Hm); [rewrite E; reflexivity|].
  exists gs'. split; [exact Hv|]. rewrite <- (map_length g_cluster gs'), Hm, map_length. reflexivity.
Qed.
Ltac counted := apply (count_by 20); vm_compute; reflexivity.

Lemma enc_lf : Encodes 0xA [x0a].
Proof. apply (e1 x0a). vm_compute. reflexivity. Qed.

(** A sign, and what is joined to it. *)
Lemma seam_sharp : Count copyright 1 /\ Count joined 2 /\ Count (copyright ++ joined) 1.
Proof. repeat split; counted. Qed.
Lemma insert_sharp : Count (copyright ++ joined) 1 /\ Count (copyright ++ [x0a] ++ joined) 4 /\ Count ([] ++ joined) 2 /\ Count ([] ++ copyright ++ joined) 1.
Proof. repeat split; counted. Qed.
Lemma replace_sharp : Count (sign ++ copyright ++ joined) 1 /\ Count (sign ++ [x0a] ++ joined) 4.
Proof. repeat split; counted. Qed.
Lemma swap_sharp : Count ([x0d] ++ [x0a] ++ copyright ++ joined) 2 /\ Count ([x0d] ++ copyright ++ [x0a] ++ joined) 5.
Proof. repeat split; counted. Qed.
Lemma splice_sharp : Count (copyright ++ [x0a] ++ joined) 4 /\ Count (copyright ++ [] ++ joined) 1 /\ Count [x0a] 1.
Proof. repeat split; counted. Qed.
Lemma append_example : Count joined 2 /\ Count (joined ++ tone) 2 /\ Count (joined ++ [x61]) 3.
Proof. repeat split; counted. Qed.

(** Text put before another may leave it with fewer characters than it had. *)
Lemma front_refuted : exists s t m k, StartsRune t /\ Count t m /\ Count (s ++ t) k /\ k < m.
Proof. exists copyright, joined, 2, 1. split; [exact starts_joined|]. repeat split; counted. Qed.
(** Inside a character the seam may cost more. *)
Lemma inside_refuted : exists s t m n k, Count s m /\ Count t n /\ Count (s ++ t) k /\ k < m + n - 2.
Proof.
  exists (copyright ++ [xf0]), ([x9f; x8f; xbb] ++ [xe2; x80; x8d] ++ [xe2; x8c; x9a]), 2, 4, 1. repeat split; counted.
Qed.

(** [k] edits of three characters each: line feeds between signs and what is
    joined to them. *)
Fixpoint rep {A} (k : nat) (l : list A) : list A := match k with O => [] | S k => l ++ rep k l end.
Definition whole : list Z := [0xA9; 0x1F3FB; 0x200D; 0x231A].
Definition torn : list Z := [0xA9; 0xA; 0x1F3FB; 0x200D; 0x231A].
Lemma edit_under p q rs rs' : Edit rs rs' -> Edit (p ++ rs ++ q) (p ++ rs' ++ q).
Proof.
  intros [a r b|a r b|a r r' b|a r r' b]; repeat rewrite <- app_assoc; cbn [app]; rewrite !(app_assoc p a); constructor.
Qed.
Lemma edits_front p k rs rs' : Edits k rs rs' -> Edits k (p ++ rs) (p ++ rs').
Proof.
  induction 1 as [rs|k rs rs' rs'' H _ IH]; [constructor|]. apply eds_more with (p ++ rs'); [|exact IH].
  pose proof (edit_under p [] _ _ H) as K. rewrite !app_nil_r in K. exact K.
Qed.
Lemma edits_rep k : Edits k (rep k whole) (rep k torn).
Proof.
  induction k as [|k IH]; [constructor|]. cbn [rep]. apply eds_more with (torn ++ rep k whole).
  - apply (ed_insert [0xA9] 0xA ([0x1F3FB; 0x200D; 0x231A] ++ rep k whole)).
  - apply edits_front. exact IH.
Qed.
Lemma rep_cuts k : forall x, x = None \/ x = Some (Pict, true) -> cuts x (map class (rep k whole)) = Z.of_nat k /\ cuts x (map class (rep k torn)) = 4 * Z.of_nat k.
Proof.
  induction k as [|k IH]; intros x Hx; [split; reflexivity|]. cbn [rep]. rewrite !map_app, !cuts_app.
  assert (E1 : cuts x (map class whole) = 1) by (destruct Hx as [-> | ->]; vm_compute; reflexivity).
  assert (E2 : cuts x (map class torn) = 4) by (destruct Hx as [-> | ->]; vm_compute; reflexivity).
  assert (G1 : gets x (map class whole) = Some (Pict, true)) by (destruct Hx as [-> | ->]; vm_compute; reflexivity).
  assert (G2 : gets x (map class torn) = Some (Pict, true)) by (destruct Hx as [-> | ->]; vm_compute; reflexivity).
  rewrite E1, E2, G1, G2. destruct (IH (Some (Pict, true)) (or_intror eq_refl)) as [-> ->]. lia.
Qed.
Lemma rep_text k l s : EncodesText l s -> EncodesText (rep k l) (rep k s).
Proof.
  intros (es & H & ->). exists (rep k es). induction k as [|k [I1 I2]]; [split; [constructor|reflexivity]|]. cbn [rep]. split.
  - apply Forall2_app; assumption.
  - rewrite concat_app, <- I2. reflexivity.
Qed.
Lemma enc_tone : Encodes 0x1F3FB tone.
Proof. apply (e4 0x1F3FB 0 0x1F 0xF 0x3B); vm_compute; intuition congruence. Qed.
Lemma enc_zwj : Encodes 0x200D [xe2; x80; x8d].
Proof. apply (e3 0x200D 2 0 0xD); vm_compute; intuition congruence. Qed.
Lemma enc_watch : Encodes 0x231A [xe2; x8c; x9a].
Proof. apply (e3 0x231A 2 0xC 0x1A); vm_compute; intuition congruence. Qed.
Lemma whole_text : EncodesText whole (copyright ++ joined).
Proof.
  exists [copyright; tone; [xe2; x80; x8d]; [xe2; x8c; x9a]]. split; [|reflexivity].
  repeat constructor; [exact enc_copyright|exact enc_tone|exact enc_zwj|exact enc_watch].
Qed.
Lemma torn_text : EncodesText torn (copyright ++ [x0a] ++ joined).
Proof.
  exists [copyright; [x0a]; tone; [xe2; x80; x8d]; [xe2; x8c; x9a]]. split; [|reflexivity].
  repeat constructor; [exact enc_copyright|exact enc_lf|exact enc_tone|exact enc_zwj|exact enc_watch].
Qed.
Lemma edits_sharp k : exists rs rs' s t m, EncodesText rs s /\ EncodesText rs' t /\ Edits k rs rs' /\ Count s m /\ Count t (m + 3 * Z.of_nat k).
Proof.
  exists (rep k whole), (rep k torn), (rep k (copyright ++ joined)), (rep k (copyright ++ [x0a] ++ joined)), (Z.of_nat k).
  pose proof (rep_text k _ _ whole_text) as T1. pose proof (rep_text k _ _ torn_text) as T2.
  split; [exact T1|]. split; [exact T2|]. split; [apply edits_rep|].
  destruct (rep_cuts k None (or_introl eq_refl)) as [K1 K2]. apply text_decode in T1, T2. split; apply count_of; unfold count.
  - assert (E : runes (rep k (copyright ++ joined)) = rep k whole) by apply T1. rewrite E. lia.
  - assert (E : runes (rep k (copyright ++ [x0a] ++ joined)) = rep k torn) by apply T2. rewrite E. lia.
Qed.
