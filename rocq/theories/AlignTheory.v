(** * AlignTheory: the lemmas behind PropAlign. *)
From Coq Require Import Strings.String.
From Verif Require Import GoBase Utf8 Utf8Proofs GraphemeSpec Runewidth ConditionSpec Width
  TextSpec AlignSpec WidthProofs WidthTheory Table AlignProofs.
From Coq Require Import ZifyBool ZifyNat.
Local Open Scope Z_scope.

Lemma left_exact c s w : Reachable c -> 0 <= w < 65536 -> ~ JoinsNext s ->
  vwidth c s < w -> vwidth c (AlignmentLeft c s w) = w.
Proof. intros. apply (align_exact ALeft); auto. Qed.

Lemma right_exact c s w : Reachable c -> 0 <= w < 65536 -> ~ JoinsPrevious s ->
  vwidth c s < w -> vwidth c (AlignmentRight c s w) = w.
Proof. intros. apply (align_exact ARight); auto. Qed.

Lemma center_exact c s w : Reachable c -> 0 <= w < 65536 ->
  ~ JoinsPrevious s -> ~ JoinsNext s ->
  vwidth c s < w -> vwidth c (AlignmentCenter c s w) = w.
Proof. intros. apply (align_exact ACenter); auto. split; auto. Qed.

Lemma align_example :
  let s := x1b :: lit "[31m"%string ++ [xe6; xbc; xa2] in
  ~ JoinsPrevious s /\ ~ JoinsNext s
  /\ vwidth (plainCondition false true) s = 2
  /\ vwidth (plainCondition false true) (AlignmentCenter (plainCondition false true) s 9) = 9.
Proof.
  intros s. subst s. split; [|split; [|split; vm_compute; reflexivity]].
  - intros (r & post & E & H). assert (r = 0x1B) by (vm_compute in E; congruence). subst.
    rewrite class_esc in H. destruct H as [H|[H|H]]; discriminate.
  - intros (pre & r & E & H).
    assert (K : pre ++ [r] = [0x1B; 0x5B; 0x33; 0x31; 0x6D] ++ [0x6F22]) by (rewrite <- E; vm_compute; reflexivity).
    apply app_inj_tail in K. destruct K as [_ ->]. vm_compute in H. discriminate.
Qed.

Lemma left_refuted : exists c s w, Reachable c /\ JoinsNext s /\
  vwidth c s < w < 65536 /\ vwidth c (AlignmentLeft c s w) < w.
Proof.
  exists (plainCondition false true), [xd8; x80], 4. split; [apply r_fresh|]. split.
  - exists [], 0x600. split; vm_compute; reflexivity.
  - split; vm_compute; [split; reflexivity|reflexivity].
Qed.

Lemma right_refuted : exists c s w, Reachable c /\ JoinsPrevious s /\
  vwidth c s < w < 65536 /\ vwidth c (AlignmentRight c s w) < w.
Proof.
  exists (plainCondition false true), [xe0; xa4; x83], 4. split; [apply r_fresh|]. split.
  - exists 0x903, []. split; [vm_compute; reflexivity|]. right; right. vm_compute. reflexivity.
  - split; vm_compute; [split; reflexivity|reflexivity].
Qed.

Lemma left_spaces c s w : 0 <= w < 65536 ->
  AlignmentLeft c s w = s ++ spaces (Z.max 0 (w - vwidth c s)).
Proof.
  intros Hw. destruct (align_spaces ALeft c s w Hw) as (l & r & E & Hl & Hr & Ht & HP).
  cbn [align] in E. rewrite E. subst l. rewrite <- Ht. reflexivity.
Qed.

Lemma right_spaces c s w : 0 <= w < 65536 ->
  AlignmentRight c s w = spaces (Z.max 0 (w - vwidth c s)) ++ s.
Proof.
  intros Hw. destruct (align_spaces ARight c s w Hw) as (l & r & E & Hl & Hr & Ht & HP).
  cbn [align] in E. rewrite E. subst r. rewrite <- Ht, Z.add_0_r.
  change (spaces 0) with (@nil byte). rewrite app_nil_r. reflexivity.
Qed.

Lemma center_spaces c s w : 0 <= w < 65536 ->
  exists l r, AlignmentCenter c s w = spaces l ++ s ++ spaces r
    /\ 0 <= l /\ 0 <= r /\ l + r = Z.max 0 (w - vwidth c s) /\ (l = r \/ l = r + 1).
Proof.
  intros Hw. destruct (align_spaces ACenter c s w Hw) as (l & r & E & Hl & Hr & Ht & HP).
  exists l, r. repeat split; auto. lia.
Qed.

Lemma wide_unchanged c s w : w <= vwidth c s ->
  AlignmentLeft c s w = s /\ AlignmentRight c s w = s /\ AlignmentCenter c s w = s.
Proof.
  intros H. split; [apply (align_wide ALeft)|split; [apply (align_wide ARight)|apply (align_wide ACenter)]]; auto.
Qed.

Lemma left_idempotent c s w : Reachable c -> 0 <= w < 65536 -> ~ JoinsNext s ->
  AlignmentLeft c (AlignmentLeft c s w) w = AlignmentLeft c s w.
Proof. intros. apply (align_idempotent ALeft); auto. Qed.

Lemma right_idempotent c s w : Reachable c -> 0 <= w < 65536 -> ~ JoinsPrevious s ->
  AlignmentRight c (AlignmentRight c s w) w = AlignmentRight c s w.
Proof. intros. apply (align_idempotent ARight); auto. Qed.

Lemma center_idempotent c s w : Reachable c -> 0 <= w < 65536 ->
  ~ JoinsPrevious s -> ~ JoinsNext s ->
  AlignmentCenter c (AlignmentCenter c s w) w = AlignmentCenter c s w.
Proof. intros. apply (align_idempotent ACenter); auto. split; auto. Qed.

Lemma left_idempotent_refuted : exists c s w, Reachable c /\ 0 <= w < 65536 /\
  AlignmentLeft c (AlignmentLeft c s w) w <> AlignmentLeft c s w.
Proof.
  exists (plainCondition false true), [xd8; x80], 4. split; [apply r_fresh|].
  split; [lia|]. vm_compute. discriminate.
Qed.
