(** * AlignProofs: alignment.go. *)
From Verif Require Import GoBase Utf8 Utf8Proofs GraphemeSpec Runewidth ConditionSpec
  StringWidthProofs Regex Width EscapeSpec TextSpec AlignSpec RegexProofs ScanProofs WidthProofs WidthTheory Table.
From Coq Require Import ZifyBool ZifyNat.
Ltac Zify.zify_post_hook ::= Z.div_mod_to_equations.
Local Open Scope Z_scope.

Lemma u16_sub x y : 0 <= x < 65536 -> 0 <= y < x -> u16 (x - y) = x - y.
Proof. intros. apply u16_small. lia. Qed.

Lemma spaces_neg n : n <= 0 -> spaces n = [].
Proof. intros. unfold spaces. replace (Z.to_nat n) with 0%nat by lia. reflexivity. Qed.

Lemma align_spaces a c s w : 0 <= w < 65536 ->
  exists l r, align a c s w = spaces l ++ s ++ spaces r
    /\ Placement a (Z.max 0 (w - vwidth c s)) l r.
Proof.
  intros Hw. pose proof (u16_range (rawWidth c s)) as Hv. fold (vwidth c s) in Hv.
  unfold align. destruct (Z_le_dec w (vwidth c s)) as [L|L].
  - exists 0, 0. split.
    + change (spaces 0) with (@nil byte). rewrite app_nil_r. cbn [app].
      unfold AlignmentLeft, AlignmentRight, AlignmentCenter.
      destruct (Z.geb_spec (vwidth c s) w); [|lia]. destruct a; reflexivity.
    + unfold Placement. destruct a; lia.
  - unfold AlignmentLeft, AlignmentRight, AlignmentCenter.
    destruct (Z.geb_spec (vwidth c s) w); [lia|]. rewrite u16_sub by lia.
    set (n := w - vwidth c s). assert (1 <= n) by lia.
    destruct a.
    + exists 0, n. split; [reflexivity|]. unfold Placement. lia.
    + exists n, 0. split; [change (spaces 0) with (@nil byte); rewrite app_nil_r; reflexivity|].
      unfold Placement. lia.
    + exists (Z.quot (n - 1) 2 + 1), (n - (Z.quot (n - 1) 2 + 1)).
      split; [reflexivity|]. unfold Placement. rewrite Z.quot_div_nonneg by lia. lia.
Qed.

Lemma JoinsPrevious_app_right s t : JoinsPrevious (s ++ t) -> ascii_str t -> JoinsPrevious s \/ s = [].
Proof.
  intros H Ht. destruct s as [|b s]; [auto|]. left. eapply JoinsPrevious_app; eauto. congruence.
Qed.

Lemma spaces_not_prev n : ~ JoinsPrevious (spaces n).
Proof.
  intros (r & post & E & H). rewrite runes_spaces in E. destruct (Z.to_nat n); [discriminate|].
  injection E as <- _. rewrite class_space in H. destruct H as [H|[H|H]]; discriminate.
Qed.

Lemma spaces_not_next n : ~ JoinsNext (spaces n).
Proof.
  intros (pre & r & E & H). rewrite runes_spaces in E.
  assert (In r (repeat 0x20 (Z.to_nat n))) as K by (rewrite E; apply in_or_app; right; left; auto).
  apply repeat_spec in K. subst. rewrite class_space in H. discriminate.
Qed.

Lemma app_spaces_not_prev s n : ~ JoinsPrevious s -> ~ JoinsPrevious (s ++ spaces n).
Proof.
  intros H K. destruct (JoinsPrevious_app_right _ _ K (spaces_ascii n)) as [K'| ->]; [auto|].
  exact (spaces_not_prev _ K).
Qed.

Lemma rawWidth_placed a c s l r t : Reachable c -> Paddable a s -> Placement a t l r ->
  rawWidth c (spaces l ++ s ++ spaces r) = t + rawWidth c s.
Proof.
  intros Hc Hp (Hl & Hr & Ht & HP). destruct a; cbn [Paddable] in Hp.
  - subst l. change (spaces 0) with (@nil byte). cbn [app]. rewrite rawWidth_pad_right by auto. lia.
  - subst r. change (spaces 0) with (@nil byte). rewrite app_nil_r.
    rewrite rawWidth_pad_left by auto. lia.
  - destruct Hp as [H1 H2]. rewrite rawWidth_pad_left, rawWidth_pad_right; auto; [lia|].
    apply app_spaces_not_prev; auto.
Qed.

Lemma align_rawWidth a c s w : Reachable c -> 0 <= w < 65536 -> Paddable a s ->
  rawWidth c (align a c s w) = Z.max 0 (w - vwidth c s) + rawWidth c s.
Proof.
  intros Hc Hw Hp. destruct (align_spaces a c s w Hw) as (l & r & -> & HP).
  eapply rawWidth_placed; eauto.
Qed.

Lemma u16_add x y : u16 (x + y) = u16 (x + u16 y).
Proof. unfold u16. rewrite Zplus_mod_idemp_r. reflexivity. Qed.

Lemma align_vwidth a c s w : Reachable c -> 0 <= w < 65536 -> Paddable a s ->
  vwidth c (align a c s w) = Z.max (vwidth c s) w.
Proof.
  intros Hc Hw Hp. unfold vwidth at 1. rewrite align_rawWidth by auto.
  rewrite u16_add. fold (vwidth c s). pose proof (u16_range (rawWidth c s)) as Hv. fold (vwidth c s) in Hv.
  rewrite u16_small by lia. lia.
Qed.

Lemma align_exact a c s w : Reachable c -> 0 <= w < 65536 -> Paddable a s ->
  vwidth c s < w -> vwidth c (align a c s w) = w.
Proof. intros. rewrite align_vwidth by auto. lia. Qed.

Lemma align_wide a c s w : w <= vwidth c s -> align a c s w = s.
Proof.
  intros H. unfold align, AlignmentLeft, AlignmentRight, AlignmentCenter.
  destruct (Z.geb_spec (vwidth c s) w); [destruct a; reflexivity|lia].
Qed.

Lemma align_idempotent a c s w : Reachable c -> 0 <= w < 65536 -> Paddable a s ->
  align a c (align a c s w) w = align a c s w.
Proof. intros. apply align_wide. rewrite align_vwidth by auto. lia. Qed.

(** Padding never hides or changes anything: removing the spaces added gives
    the text back, and the aligned text is paddable in turn. *)
Lemma runes_app_spaces s n : runes (s ++ spaces n) = runes s ++ repeat 0x20 (Z.to_nat n).
Proof.
  unfold runes. rewrite decode_app by (apply noncont_ascii_str, spaces_ascii).
  rewrite map_app. f_equal. apply runes_spaces.
Qed.

Lemma runes_spaces_app s n : runes (spaces n ++ s) = repeat 0x20 (Z.to_nat n) ++ runes s.
Proof.
  unfold runes. rewrite decode_ascii_app by (apply spaces_ascii).
  rewrite map_app. f_equal. apply runes_spaces.
Qed.

Lemma not_next_app_spaces s n : ~ JoinsNext s -> ~ JoinsNext (s ++ spaces n).
Proof.
  intros H (pre & r & E & Hr). rewrite runes_app_spaces in E.
  destruct (Z.to_nat n) as [|k].
  - cbn in E. rewrite app_nil_r in E. apply H. exists pre, r. auto.
  - change (repeat 0x20 (S k)) with (0x20 :: repeat 0x20 k) in E. rewrite repeat_cons, app_assoc in E.
    apply app_inj_tail in E. destruct E as [_ <-]. rewrite class_space in Hr. discriminate.
Qed.

Lemma not_next_spaces_app s n : ~ JoinsNext s -> ~ JoinsNext (spaces n ++ s).
Proof.
  intros H (pre & r & E & Hr). rewrite runes_spaces_app in E.
  destruct (runes s) as [|x l _] eqn:Es using rev_ind.
  - rewrite app_nil_r in E.
    assert (In r (repeat 0x20 (Z.to_nat n))) as K by (rewrite E; apply in_or_app; right; left; auto).
    apply repeat_spec in K. subst. rewrite class_space in Hr. discriminate.
  - rewrite app_assoc in E. apply app_inj_tail in E. destruct E as [_ <-]. apply H. exists l, x. auto.
Qed.

Lemma not_prev_spaces_app s n : ~ JoinsPrevious s -> ~ JoinsPrevious (spaces n ++ s).
Proof.
  intros H (r & post & E & Hr). rewrite runes_spaces_app in E.
  destruct (Z.to_nat n) as [|k].
  - cbn in E. apply H. exists r, post. auto.
  - injection E as <- _. rewrite class_space in Hr. destruct Hr as [Hr|[Hr|Hr]]; discriminate.
Qed.

(** Texts isolated on both sides, as cells in a line must be. *)
Lemma align_isolated a c s w : 0 <= w < 65536 -> ~ JoinsPrevious s -> ~ JoinsNext s ->
  ~ JoinsPrevious (align a c s w) /\ ~ JoinsNext (align a c s w).
Proof.
  intros Hw H1 H2. destruct (align_spaces a c s w Hw) as (l & r & -> & _). split.
  - apply not_prev_spaces_app, app_spaces_not_prev; auto.
  - apply not_next_spaces_app, not_next_app_spaces; auto.
Qed.
