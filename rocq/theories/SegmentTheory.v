(** * SegmentTheory: the segmentation properties in the form PropSegment.v states them. *)
From Verif Require Import GoBase Utf8 Utf8Proofs Uniseg GraphemeSpec UnisegProofs SegmentSpec
  Runewidth ConditionSpec StringWidthSpec StringWidthProofs.
From Coq Require Import ZifyBool ZifyNat.
Local Open Scope Z_scope.

Lemma iterate_Visits fuel : forall g gs, iterate fuel g = Some gs -> Visits g gs.
Proof.
  induction fuel as [|f IH]; intros g gs H; cbn [iterate] in H; [discriminate|].
  destruct (Next g) as [(g', b)|] eqn:E; [|discriminate]. destruct b.
  - destruct (iterate f g') as [l|] eqn:El; [|discriminate]. injection H as <-.
    econstructor; eauto.
  - injection H as <-. econstructor; eauto.
Qed.

Lemma Visits_fun g a : Visits g a -> forall b, Visits g b -> a = b.
Proof.
  induction 1 as [g g' H|g g' gs H HV IH]; intros b Hb; inversion Hb; subst; try congruence.
  f_equal; [congruence|]. apply IH. congruence.
Qed.

Lemma iteration_lossless s : exists gs, Visits (NewGraphemes s) gs
  /\ concat (map g_cluster gs) = s
  /\ Forall (fun h => g_cluster h <> []) gs
  /\ (forall gs1 h gs2, gs = gs1 ++ h :: gs2 -> g_offset h = slen (concat (map g_cluster gs1))).
Proof.
  destruct (iterate_new s (S (length s)) ltac:(lia)) as (gs & Hi & Hc & _ & Hn & Ho & _).
  exists gs. split; [eapply iterate_Visits; eauto|]. split; [exact Hc|]. split; [exact Hn|].
  intros gs1 h gs2 E. destruct (Ho h gs1 gs2 E). auto.
Qed.

Lemma Visits_new s gs : Visits (NewGraphemes s) gs -> map Runes gs = segments (runes s).
Proof.
  intros H. destruct (iterate_new s (S (length s)) ltac:(lia)) as (gs' & Hi & _ & Hr & _).
  apply iterate_Visits in Hi. rewrite (Visits_fun _ _ H _ Hi). exact Hr.
Qed.

Lemma iteration_uax29 s gs : Visits (NewGraphemes s) gs -> IsSegmentation (runes s) (map Runes gs).
Proof. intros H. rewrite (Visits_new s gs H). apply segments_IsSegmentation. Qed.

Lemma iteration_runes s gs : Visits (NewGraphemes s) gs -> concat (map Runes gs) = runes s.
Proof. intros H. apply (iteration_uax29 s gs H). Qed.

Lemma Next_after_end n g : g_remaining g = [] ->
  exists g', next_n (S n) g = Some (g', false) /\ g_remaining g' = [] /\ Runes g' = [].
Proof.
  intros H. induction n as [|n IH].
  - cbn [next_n]. apply Next_end. exact H.
  - destruct IH as (g' & E & Hr & _).
    change (next_n (S (S n)) g) with (match next_n (S n) g with Some (g', _) => Next g' | None => None end).
    rewrite E. apply Next_end. exact Hr.
Qed.

Lemma last_visited s gs h : Visits (NewGraphemes s) (gs ++ [h]) -> g_remaining h = [].
Proof.
  intros H. destruct (iterate_new s (S (length s)) ltac:(lia)) as (gs' & Hi & _ & _ & _ & Ho & _).
  apply iterate_Visits in Hi. pose proof (Visits_fun _ _ H _ Hi) as E. symmetry in E.
  destruct (Ho h gs [] E) as [_ K]. exact K.
Qed.

Lemma iteration_ends s gs h n : Visits (NewGraphemes s) (gs ++ [h]) ->
  exists g', next_n (S n) h = Some (g', false) /\ Runes g' = [].
Proof.
  intros H. destruct (Next_after_end n h (last_visited s gs h H)) as (g' & E & _ & R). eauto.
Qed.

Lemma StateFor_Good s st : StateFor s st -> Good st s.
Proof.
  induction 1 as [s st H|s st cl rest b st' H IH E].
  - left. exact H.
  - rewrite (StepString_Good s st IH) in E. destruct s as [|c s].
    + injection E as <- <- <- <-. right. left. reflexivity.
    + destruct (StepString_spec (c :: s) ltac:(congruence)) as (p & q & ns & E' & _ & _ & _ & _ & HG & _).
      rewrite E' in E. injection E as <- <- <- <-. exact HG.
Qed.

Lemma restartable s st : StateFor s st -> StepString s st = StepString s (-1).
Proof. intros H. apply StepString_Good. apply StateFor_Good. exact H. Qed.

(** [StepString] always returns, and cuts off the first cluster. *)
Lemma StepString_cluster s st : s <> [] -> StateFor s st ->
  exists cluster rest b st', StepString s st = Some (cluster, rest, b, st')
    /\ s = cluster ++ rest /\ cluster <> []
    /\ forall cl, IsSegmentation (runes s) cl ->
         exists cl', cl = runes cluster :: cl' /\ IsSegmentation (runes rest) cl'.
Proof.
  intros Hs H. rewrite (restartable s st H).
  destruct (StepString_spec s Hs) as (p & q & ns & E & Es & Hp & Hd & Hseg & _).
  eexists p, q, _, ns. split; [exact E|]. split; [exact Es|]. split; [exact Hp|].
  intros cl Hcl. exists (segments (runes q)).
  split; [|apply segments_IsSegmentation].
  rewrite (IsSegmentation_unique _ _ _ Hcl (segments_IsSegmentation (runes s))). exact Hseg.
Qed.
