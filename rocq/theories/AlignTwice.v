(** * AlignTwice: exactly when centring twice is centring once. *)
From Verif Require Import GoBase Utf8 Uniseg Runewidth ConditionSpec Width TextSpec AlignSpec WidthTheory Table AlignProofs AlignTheory AlignCompose.
From Coq Require Import ZifyBool ZifyNat.
Local Open Scope Z_scope.

Lemma all_spaces (s : str) : Forall (eq space) s <-> s = spaces (slen s).
Proof.
  unfold spaces, slen. rewrite Nat2Z.id. induction s as [|b s IH]; cbn [length repeat]; [split; auto|]. split.
  - intros HF. inversion HF as [|x l H1 H2]; subst. f_equal. apply IH, H2.
  - intros HE. injection HE as -> HE. constructor; [reflexivity|apply IH, HE].
Qed.
Lemma shifted (s : str) : s ++ [space] = space :: s -> Forall (eq space) s.
Proof.
  induction s as [|b s IH]; intros HE; [constructor|]. cbn [app] in HE. injection HE as -> HE. constructor; [reflexivity|apply IH, HE].
Qed.

Lemma center_compose_iff c s w1 w2 : Reachable c -> 0 <= w1 < 65536 -> 0 <= w2 < 65536 ->
  ~ JoinsPrevious s -> ~ JoinsNext s ->
  (AlignmentCenter c (AlignmentCenter c s w1) w2 = AlignmentCenter c s (Z.max w1 w2)
   <-> Z.even (Z.max 0 (w1 - vwidth c s)) = true \/ Z.even (Z.max 0 (w2 - Z.max w1 (vwidth c s))) = true \/ Forall (eq space) s).
Proof.
  intros Hc H1 H2 Hp Hq.
  pose proof (align_vwidth ACenter c s w1 Hc H1 (conj Hp Hq)) as HV. cbn [align] in HV.
  destruct (align_spaces ACenter c (AlignmentCenter c s w1) w2 H2) as (l2 & r2 & E2 & P2). cbn [align] in E2. rewrite E2.
  destruct (align_spaces ACenter c s w1 H1) as (l1 & r1 & E1 & P1). cbn [align] in E1.
  destruct (align_spaces ACenter c s (Z.max w1 w2) ltac:(lia)) as (l3 & r3 & E3 & P3). cbn [align] in E3. rewrite E3.
  rewrite HV in P2. rewrite E1. destruct P1 as (? & ? & S1 & D1), P2 as (? & ? & S2 & D2), P3 as (? & ? & S3 & D3).
  replace (spaces l2 ++ (spaces l1 ++ s ++ spaces r1) ++ spaces r2) with (spaces (l2 + l1) ++ s ++ spaces (r1 + r2))
    by (rewrite !spaces_plus by lia; rewrite <- !app_assoc; reflexivity).
  split.
  - intros HE. destruct (Z.even (Z.max 0 (w1 - vwidth c s))) eqn:Ev1; [left; reflexivity|].
    destruct (Z.even (Z.max 0 (w2 - Z.max w1 (vwidth c s)))) eqn:Ev2; [right; left; reflexivity|]. right. right.
    rewrite <- Z.negb_odd in Ev1, Ev2. apply negb_false_iff in Ev1, Ev2. apply Z.odd_spec in Ev1, Ev2. destruct Ev1 as (h1 & Ev1), Ev2 as (h2 & Ev2).
    assert (K1 : l2 + l1 = l3 + 1) by lia. assert (K2 : r3 = 1 + (r1 + r2)) by lia. rewrite K1, K2 in HE.
    rewrite (spaces_plus l3 1), (spaces_plus 1 (r1 + r2)) in HE by lia. rewrite <- app_assoc in HE. apply app_inv_head in HE.
    rewrite !app_assoc in HE. apply app_inv_tail in HE. apply shifted. symmetry. exact HE.
  - intros [He|[He|He]].
    + apply Z.even_spec in He. destruct He as (h & He). f_equal; [f_equal; lia|f_equal; f_equal; lia].
    + apply Z.even_spec in He. destruct He as (h & He). f_equal; [f_equal; lia|f_equal; f_equal; lia].
    + apply all_spaces in He. rewrite He. assert (0 <= slen s) by (unfold slen; lia). rewrite <- !spaces_plus by lia. f_equal. lia.
Qed.
