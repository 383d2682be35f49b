(** * StringWidthProofs: StringWidth as a sum over clusters. *)
From Verif Require Import GoBase Utf8 Utf8Proofs IntervalSpec Pointwise TableProofs PropConst
  GraphemeData Uniseg GraphemeSpec UnisegProofs Runewidth ConditionSpec RunewidthProofs
  RuneTheory StringWidthSpec.
From Coq Require Import ZifyBool ZifyNat.
Local Open Scope Z_scope.

Lemma zsum_cons x l : zsum (x :: l) = x + zsum l.
Proof. reflexivity. Qed.
Lemma zsum_app a b : zsum (a ++ b) = zsum a + zsum b.
Proof. induction a as [|x a IH]; [reflexivity|]. cbn [app]. rewrite !zsum_cons, IH. lia. Qed.

Definition swidth (c : Condition) (l : list Z) : Z := zsum (map (cluster_width c) (segments l)).

Lemma fold_left_zsum (f : Graphemes -> Z) gs : forall a,
  fold_left (fun width g => width + f g) gs a = a + zsum (map f gs).
Proof.
  induction gs as [|g gs IH]; intros a; cbn [fold_left map]; [unfold zsum; simpl; lia|].
  rewrite IH, zsum_cons. lia.
Qed.

Lemma StringWidth_go_swidth c s : StringWidth_go c s = Some (swidth c (runes s)).
Proof.
  unfold StringWidth_go. destruct (iterate_new s (S (length s)) ltac:(lia)) as (gs & -> & _ & Hr & _).
  f_equal. rewrite (fold_left_zsum (fun g => cluster_width c (Runes g))). unfold swidth.
  rewrite <- Hr, map_map. lia.
Qed.

Lemma StringWidth_swidth c s : StringWidth c s = swidth c (runes s).
Proof. unfold StringWidth. rewrite StringWidth_go_swidth. reflexivity. Qed.

(** ** Only the rune widths matter *)
Lemma cluster_width_from_ext c c' rs : (forall r, RuneWidth c r = RuneWidth c' r) ->
  forall w, cluster_width_from c w rs = cluster_width_from c' w rs.
Proof.
  intros H. induction rs as [|r rs IH]; intros w; cbn [cluster_width_from]; auto.
  rewrite H, IH. reflexivity.
Qed.

Lemma swidth_ext c c' l : (forall r, RuneWidth c r = RuneWidth c' r) -> swidth c l = swidth c' l.
Proof.
  intros H. unfold swidth. f_equal. apply map_ext. intros rs. apply cluster_width_from_ext. exact H.
Qed.

Lemma StringWidth_ext c c' s : (forall r, RuneWidth c r = RuneWidth c' r) ->
  StringWidth c s = StringWidth c' s.
Proof. intros H. rewrite !StringWidth_swidth. apply swidth_ext. exact H. Qed.

Lemma CreateLUT_StringWidth c s : Reachable c ->
  StringWidth (CreateLUT c) s =
  StringWidth (plainCondition (EastAsianWidth c) (StrictEmojiNeutral c)) s.
Proof. intros H. apply StringWidth_ext. intros r. apply CreateLUT_transparent. exact H. Qed.

(** ** Cluster widths *)
Definition WidthOK (c : Condition) : Prop :=
  forall r, RuneWidth c r = 0 \/ RuneWidth c r = 1 \/ RuneWidth c r = 2.

Lemma Reachable_OK c : Reachable c -> WidthOK c.
Proof. intros H r. apply Reachable_range. exact H. Qed.

Lemma cluster_width_spec c rs : WidthOK c -> ClusterWidth (RuneWidth c) rs (cluster_width c rs).
Proof.
  intros HO. unfold cluster_width.
  induction rs as [|r rs IH]; cbn [cluster_width_from]; [apply cw_invisible; constructor|].
  destruct (Z.gtb_spec (RuneWidth c r) 0) as [H|H].
  - apply (cw_visible _ [] r rs); [constructor|lia].
  - assert (E : RuneWidth c r = 0) by (pose proof (HO r); lia). rewrite E.
    revert IH. generalize (cluster_width_from c 0 rs). intros w IH.
    destruct IH as [rs Hz|b r' a Hb Hr'].
    + apply cw_invisible. constructor; auto.
    + apply (cw_visible _ (r :: b) r' a); [constructor; auto|auto].
Qed.

Lemma ClusterWidth_fun f rs a b : ClusterWidth f rs a -> ClusterWidth f rs b -> a = b.
Proof.
  intros H. revert b. destruct H as [rs Hz|pre r post Hz Hr]; intros b Hb.
  - destruct Hb as [rs Hz'|pre r post Hz' Hr]; auto. apply Forall_app in Hz. destruct Hz as [_ Hz].
    inversion Hz; subst. lia.
  - remember (pre ++ r :: post) as rs eqn:E. destruct Hb as [rs Hz'|pre' r' post' Hz' Hr'].
    + subst rs. apply Forall_app in Hz'. destruct Hz' as [_ Hz']. inversion Hz'; subst. lia.
    + revert pre' Hz' E. induction Hz as [|x pre Hx Hz IH]; intros pre' Hz' E.
      * destruct Hz' as [|y pre' Hy Hz']; cbn [app] in E; injection E as E1 E2; subst; auto. lia.
      * destruct Hz' as [|y pre' Hy Hz']; cbn [app] in E; injection E as E1 E2; subst; [lia|].
        eapply IH; eauto.
Qed.

Lemma swidth_TextWidth c l w : WidthOK c -> (swidth c l = w <-> TextWidth (RuneWidth c) l w).
Proof.
  intros HO. split.
  - intros <-. exists (segments l), (map (cluster_width c) (segments l)).
    split; [apply segments_IsSegmentation|]. split; [|reflexivity].
    induction (segments l) as [|x xs IH]; constructor; auto. apply cluster_width_spec; auto.
  - intros (cl & ws & Hs & Hw & ->). 
    rewrite (IsSegmentation_unique _ _ _ Hs (segments_IsSegmentation l)) in Hw.
    unfold swidth. f_equal. induction Hw as [|x y xs ys Hxy Hw IH]; [reflexivity|].
    cbn [map]. f_equal; auto. eapply ClusterWidth_fun; [apply cluster_width_spec; auto|auto].
Qed.

Lemma StringWidth_TextWidth c s w : Reachable c ->
  (StringWidth c s = w <-> TextWidth (RuneWidth c) (runes s) w).
Proof. intros H. rewrite StringWidth_swidth. apply swidth_TextWidth. apply Reachable_OK; auto. Qed.

(** ** Bounds *)
Lemma cluster_width_bounds c rs : WidthOK c ->
  0 <= cluster_width c rs /\
  (rs <> [] -> exists r, In r rs /\ cluster_width c rs = RuneWidth c r) .
Proof.
  intros HO. split.
  - destruct (cluster_width_spec c rs HO); lia.
  - intros Hne. destruct (cluster_width_spec c rs HO) as [rs Hz|b r a Hb Hr].
    + destruct rs as [|r rs]; [congruence|]. inversion Hz; subst. exists r. simpl. auto.
    + exists r. split; auto. apply in_or_app. simpl. auto.
Qed.

Lemma swidth_nonneg c l : WidthOK c -> 0 <= swidth c l.
Proof.
  intros HO. unfold swidth. induction (segments l) as [|x xs IH]; [unfold zsum; simpl; lia|].
  cbn [map]. rewrite zsum_cons. pose proof (cluster_width_bounds c x HO). lia.
Qed.

(** Any bound on runes carries over to texts. *)
Lemma cluster_sum_le c rs : WidthOK c -> cluster_width c rs <= zsum (map (RuneWidth c) rs).
Proof.
  intros HO. assert (P : forall l, 0 <= zsum (map (RuneWidth c) l)).
  { induction l as [|r l IH]; [unfold zsum; simpl; lia|]. cbn [map]. rewrite zsum_cons.
    pose proof (HO r). lia. }
  destruct (cluster_width_spec c rs HO) as [rs Hz|b r a Hb Hr]; [apply P|].
  rewrite map_app, zsum_app. cbn [map]. rewrite zsum_cons. pose proof (P b). pose proof (P a). lia.
Qed.

Lemma swidth_le_runes c l : WidthOK c -> swidth c l <= zsum (map (RuneWidth c) l).
Proof.
  intros HO. rewrite <- (segments_concat l) at 2. unfold swidth.
  induction (segments l) as [|x xs IH]; [unfold zsum; simpl; lia|].
  cbn [map concat]. rewrite zsum_cons, map_app, zsum_app.
  pose proof (cluster_sum_le c x HO). lia.
Qed.

Lemma StringWidth_bounds c s : Reachable c ->
  0 <= StringWidth c s <= 2 * slen (runes s).
Proof.
  intros H. pose proof (Reachable_OK c H) as HO. rewrite StringWidth_swidth.
  pose proof (swidth_nonneg c (runes s) HO). pose proof (swidth_le_runes c (runes s) HO) as K.
  split; auto. eapply Z.le_trans; [exact K|]. clear -HO.
  induction (runes s) as [|r l IH]; [unfold zsum, slen; simpl; lia|].
  cbn [map]. rewrite zsum_cons, slen_cons. pose proof (HO r). lia.
Qed.

(** Outside East Asian mode no rune is wider than its encoding. *)
Lemma plain_rune_bytes st r : 0 <= r -> r < 0x300 \/ r = 0xFFFD ->
  RuneWidth (plainCondition false st) r <= 1.
Proof.
  intros H0 H. rewrite RuneWidth_plainCondition by lia. unfold RuneWidth_tables. cbn [negb].
  destruct H as [H|H].
  - destruct (r <? 0x20); [lia|]. destruct (_ || _); [lia|].
    destruct (Z.ltb_spec r 0x300); lia.
  - subst r. destruct st; vm_compute; congruence.
Qed.

Lemma plain_swidth_bytes st s : StringWidth (plainCondition false st) s <= slen s.
Proof.
  set (c := plainCondition false st).
  assert (HO : WidthOK c) by (apply Reachable_OK; apply r_fresh).
  rewrite StringWidth_swidth. eapply Z.le_trans; [apply swidth_le_runes; exact HO|].
  rewrite <- decode_bytes. unfold runes, nb. pose proof (decode_class s) as K.
  induction K as [|x l Hx Hl IH]; [unfold zsum; simpl; lia|].
  cbn [map]. rewrite !zsum_cons. enough (RuneWidth c (fst x) <= snd x) by lia.
  pose proof (HO (fst x)).
  destruct Hx as [[Hn Hr]|[[Hn Hr]|[[Hn Hr]|[Hn Hr]]]]; rewrite Hn; try lia.
  apply plain_rune_bytes; lia.
Qed.

(** ** East Asian mode is never narrower *)
Lemma cluster_width_mono st st' rs :
  cluster_width (plainCondition false st) rs <= cluster_width (plainCondition true st') rs.
Proof.
  unfold cluster_width.
  assert (HO : WidthOK (plainCondition false st)) by (apply Reachable_OK; apply r_fresh).
  assert (HO' : WidthOK (plainCondition true st')) by (apply Reachable_OK; apply r_fresh).
  induction rs as [|r rs IH]; cbn [cluster_width_from]; [lia|].
  pose proof (RuneWidth_mono st st' r). pose proof (RuneWidth_zero st st' r).
  pose proof (HO r). pose proof (HO' r).
  destruct (Z.gtb_spec (RuneWidth (plainCondition false st) r) 0) as [A|A].
  - destruct (Z.gtb_spec (RuneWidth (plainCondition true st') r) 0); lia.
  - assert (E : RuneWidth (plainCondition false st) r = 0) by lia.
    assert (E' : RuneWidth (plainCondition true st') r = 0) by tauto.
    rewrite E, E'. cbn. exact IH.
Qed.

Lemma StringWidth_mono st st' s :
  StringWidth (plainCondition false st) s <= StringWidth (plainCondition true st') s.
Proof.
  rewrite !StringWidth_swidth. unfold swidth.
  induction (segments (runes s)) as [|x xs IH]; [apply Z.le_refl|]. cbn [map]. rewrite !zsum_cons.
  pose proof (cluster_width_mono st st' x). lia.
Qed.

(** ** Additivity at boundaries *)
Lemma swidth_app c l1 r l2 : breaks (rev (map class l1)) (class r) = true ->
  swidth c (l1 ++ r :: l2) = swidth c l1 + swidth c (r :: l2).
Proof. intros H. unfold swidth. rewrite segments_app by auto. rewrite map_app, zsum_app. reflexivity. Qed.

Lemma swidth_nil c : swidth c [] = 0.
Proof. reflexivity. Qed.
Lemma swidth_single c r : WidthOK c -> swidth c [r] = RuneWidth c r.
Proof.
  intros HO. unfold swidth. cbn [segments seg map]. unfold zsum. cbn [fold_right].
  unfold cluster_width. cbn [cluster_width_from]. pose proof (HO r).
  destruct (_ >? 0); lia.
Qed.
