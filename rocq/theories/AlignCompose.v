(** * AlignCompose: one alignment after the other. *)
From Coq Require Import Strings.String.
From Verif Require Import GoBase Utf8 Uniseg Runewidth ConditionSpec Width TextSpec AlignSpec WidthTheory Table AlignProofs AlignTheory.
From Coq Require Import ZifyBool ZifyNat.
Local Open Scope Z_scope.

Lemma spaces_plus m n : 0 <= m -> 0 <= n -> spaces (m + n) = spaces m ++ spaces n.
Proof. intros. unfold spaces. rewrite Z2Nat.inj_add by lia. apply repeat_app. Qed.

Lemma align_left_compose c s w1 w2 : Reachable c -> 0 <= w1 < 65536 -> 0 <= w2 < 65536 -> ~ JoinsNext s ->
  AlignmentLeft c (AlignmentLeft c s w1) w2 = AlignmentLeft c s (Z.max w1 w2).
Proof.
  intros Hc H1 H2 Hp.
  pose proof (align_vwidth ALeft c s w1 Hc H1 Hp) as HV. cbn [align] in HV.
  destruct (align_spaces ALeft c (AlignmentLeft c s w1) w2 H2) as (l2 & r2 & E2 & P2). cbn [align] in E2. rewrite E2.
  destruct (align_spaces ALeft c s w1 H1) as (l1 & r1 & E1 & P1). cbn [align] in E1.
  destruct (align_spaces ALeft c s (Z.max w1 w2) ltac:(lia)) as (l3 & r3 & E3 & P3). cbn [align] in E3. rewrite E3.
  rewrite HV in P2. rewrite E1. destruct P1 as (_ & ? & ? & ->), P2 as (_ & ? & ? & ->), P3 as (_ & ? & ? & ->).
  change (spaces 0) with (@nil byte). cbn [app]. rewrite <- app_assoc. f_equal. rewrite <- spaces_plus by lia. f_equal. lia.
Qed.

Lemma align_right_compose c s w1 w2 : Reachable c -> 0 <= w1 < 65536 -> 0 <= w2 < 65536 -> ~ JoinsPrevious s ->
  AlignmentRight c (AlignmentRight c s w1) w2 = AlignmentRight c s (Z.max w1 w2).
Proof.
  intros Hc H1 H2 Hp.
  pose proof (align_vwidth ARight c s w1 Hc H1 Hp) as HV. cbn [align] in HV.
  destruct (align_spaces ARight c (AlignmentRight c s w1) w2 H2) as (l2 & r2 & E2 & P2). cbn [align] in E2. rewrite E2.
  destruct (align_spaces ARight c s w1 H1) as (l1 & r1 & E1 & P1). cbn [align] in E1.
  destruct (align_spaces ARight c s (Z.max w1 w2) ltac:(lia)) as (l3 & r3 & E3 & P3). cbn [align] in E3. rewrite E3.
  rewrite HV in P2. rewrite E1. destruct P1 as (? & _ & ? & ->), P2 as (? & _ & ? & ->), P3 as (? & _ & ? & ->).
  change (spaces 0) with (@nil byte). rewrite !app_nil_r. rewrite app_assoc. f_equal. rewrite <- spaces_plus by lia. f_equal. lia.
Qed.

(** Centering twice: as long as the first padding is even. *)
Lemma align_center_compose c s w1 w2 : Reachable c -> 0 <= w1 < 65536 -> 0 <= w2 < 65536 ->
  ~ JoinsPrevious s -> ~ JoinsNext s -> Z.even (Z.max 0 (w1 - vwidth c s)) = true ->
  AlignmentCenter c (AlignmentCenter c s w1) w2 = AlignmentCenter c s (Z.max w1 w2).
Proof.
  intros Hc H1 H2 Hp Hq He.
  pose proof (align_vwidth ACenter c s w1 Hc H1 (conj Hp Hq)) as HV. cbn [align] in HV.
  destruct (align_spaces ACenter c (AlignmentCenter c s w1) w2 H2) as (l2 & r2 & E2 & P2). cbn [align] in E2. rewrite E2.
  destruct (align_spaces ACenter c s w1 H1) as (l1 & r1 & E1 & P1). cbn [align] in E1.
  destruct (align_spaces ACenter c s (Z.max w1 w2) ltac:(lia)) as (l3 & r3 & E3 & P3). cbn [align] in E3. rewrite E3.
  rewrite HV in P2. rewrite E1. destruct P1 as (? & ? & S1 & D1), P2 as (? & ? & S2 & D2), P3 as (? & ? & S3 & D3).
  apply Z.even_spec in He. destruct He as (h & He).
  rewrite !app_assoc, <- (app_assoc _ (spaces r1)), <- !spaces_plus by lia.
  assert (l2 + l1 = l3) by lia. assert (r1 + r2 = r3) by lia. subst l3 r3. reflexivity.
Qed.

Lemma center_twice_refuted : exists c s w1 w2, Reachable c /\ 0 <= w1 < 65536 /\ 0 <= w2 < 65536
  /\ ~ JoinsPrevious s /\ ~ JoinsNext s
  /\ AlignmentCenter c (AlignmentCenter c s w1) w2 <> AlignmentCenter c s (Z.max w1 w2).
Proof.
  exists (plainCondition false true), (lit "a"%string), 2, 3. split; [apply r_fresh|]. split; [lia|]. split; [lia|].
  split; [|split].
  - intros (r & post & E & K). change (runes (lit "a"%string)) with [97] in E. injection E as <- _.
    vm_compute in K. destruct K as [K|[K|K]]; discriminate.
  - intros (pre & r & E & K). change (runes (lit "a"%string)) with [97] in E.
    destruct pre as [|x [|y pre]]; try discriminate. injection E as <-. vm_compute in K. discriminate.
  - vm_compute. discriminate.
Qed.
