(** * PartsProofs: clusters of a text are found part by part. *)
From Coq Require Import ZifyBool ZifyNat.
From Verif Require Import GoBase Utf8 Utf8Proofs Uniseg GraphemeSpec UnisegProofs SegmentSpec SegmentTheory
  Runewidth ConditionSpec StringWidthProofs TextSpec WidthProofs PartsSpec.
Local Open Scope Z_scope.

(** ** The clusters, cut off one by one *)
Inductive Cut : str -> list str -> Prop :=
| cut_nil : Cut [] []
| cut_cons s p q b st cl : s <> [] -> StepString s (-1) = Some (p, q, b, st) -> Cut q cl -> Cut s (p :: cl).

Lemma visits_cut g gs : Visits g gs -> Good (g_state g) (g_remaining g) -> Cut (g_remaining g) (map g_cluster gs).
Proof.
  induction 1 as [g g' E|g g' gs E _ IH]; intros HG; unfold Next in E; destruct (g_remaining g) as [|x s] eqn:R.
  - constructor.
  - rewrite (StepString_Good (x :: s) _ HG) in E.
    destruct (StepString_spec (x :: s) ltac:(congruence)) as (p & q & ns & E1 & _). rewrite E1 in E. discriminate.
  - discriminate.
  - rewrite (StepString_Good (x :: s) _ HG) in E.
    destruct (StepString_spec (x :: s) ltac:(congruence)) as (p & q & ns & E1 & _ & _ & _ & _ & HQ & _). rewrite E1 in E.
    injection E as <-. cbn [g_state g_remaining g_cluster map] in *. econstructor; [congruence|exact E1|]. apply IH, HQ.
Qed.
Lemma cut_visits s cl : Cut s cl -> forall g, g_remaining g = s -> Good (g_state g) s -> exists gs, Visits g gs /\ map g_cluster gs = cl.
Proof.
  induction 1 as [|s p q b st cl Hs E _ IH]; intros g R HG.
  - destruct (Next_end g R) as (g' & E & _). exists []. split; [econstructor; eauto|reflexivity].
  - destruct (StepString_spec s Hs) as (p' & q' & ns & E1 & _ & _ & _ & _ & HQ & _).
    set (g2 := {| g_original := g_original g; g_remaining := q; g_cluster := p;
      g_offset := g_offset g + slen (g_cluster g); g_boundaries := b; g_state := st |}).
    assert (EN : Next g = Some (g2, true)).
    { unfold Next. rewrite R. destruct s; [congruence|]. rewrite StepString_Good, E by exact HG. reflexivity. }
    rewrite E in E1. injection E1 as E1 E2 _ E3. subst p' q' ns.
    destruct (IH g2 eq_refl HQ) as (gs & Hv & Hm). exists (g2 :: gs). split; [econstructor; eauto|]. cbn [map g_cluster g2]. congruence.
Qed.
Lemma clusters_cut s cl : Clusters s cl <-> Cut s cl.
Proof.
  split.
  - intros (gs & Hv & <-). apply (visits_cut _ _ Hv). left. reflexivity.
  - intros H. apply (cut_visits s cl H (NewGraphemes s) eq_refl). left. reflexivity.
Qed.

Lemma clusters_fun s a b : Clusters s a -> Clusters s b -> a = b.
Proof. intros (g1 & V1 & <-) (g2 & V2 & <-). f_equal. eapply Visits_fun; eauto. Qed.
Lemma clusters_total s : exists cl, Clusters s cl.
Proof. destruct (iteration_lossless s) as (gs & Hv & _). exists (map g_cluster gs), gs. auto. Qed.

Lemma cut_runes s cl : Cut s cl -> concat cl = s /\ map runes cl = segments (runes s) /\ decode s = concat (map decode cl) /\ ~ In [] cl.
Proof.
  induction 1 as [|s p q b st cl Hs E _ (I1 & I2 & I3 & I4)]; [cbn; auto|].
  destruct (StepString_spec s Hs) as (p' & q' & ns & E1 & Es & Hp & Hd & Hseg & _). rewrite E in E1. injection E1 as K1 K2 _ K3; subst p' q' ns.
  cbn [concat map]. rewrite I1, I2, <- I3. repeat split; auto. intros [K|K]; auto.
Qed.

(** ** The first cluster *)
Lemma prefix_same (p q p' q' : str) : p ++ q = p' ++ q' -> slen p = slen p' -> p = p' /\ q = q'.
Proof.
  intros E HL. assert (P : p = p') by (rewrite <- (take_app_exact p q), E, HL; apply take_app_exact).
  subst p'. split; [reflexivity|]. apply app_inv_head in E. exact E.
Qed.
Lemma app_same_len {A} (a b a' b' : list A) : a ++ b = a' ++ b' -> length a = length a' -> a = a'.
Proof.
  revert a'. induction a as [|x a IH]; intros [|y a'] H HL; try discriminate; auto.
  cbn in H, HL. injection H as -> H. f_equal. apply IH; auto.
Qed.
Lemma prefix_decode (p q p' q' : str) : p ++ q = p' ++ q' -> length (decode p) = length (decode p') ->
  decode (p ++ q) = decode p ++ decode q -> decode (p' ++ q') = decode p' ++ decode q' -> p = p' /\ q = q'.
Proof.
  intros E HL D1 D2. apply prefix_same; [exact E|]. rewrite <- !decode_bytes. f_equal.
  rewrite E, D2 in D1. eapply app_same_len; [symmetry; exact D1|exact HL].
Qed.

Lemma cut_first s p q : p <> [] -> s = p ++ q -> decode s = decode p ++ decode q ->
  segments (runes s) = runes p :: segments (runes q) -> forall cl, Cut q cl -> Cut s (p :: cl).
Proof.
  intros Hp Es Hd Hseg cl Hc. assert (Hs : s <> []) by (subst s; destruct p; [congruence|discriminate]).
  destruct (StepString_spec s Hs) as (p' & q' & ns & E1 & Es' & Hp' & Hd' & Hseg' & _).
  unfold runes in Hseg. rewrite Hseg' in Hseg. injection Hseg as H1 H2.
  destruct (prefix_decode p q p' q') as [<- <-]; try congruence.
  - apply (f_equal (@length Z)) in H1. rewrite !map_length in H1. auto.
  - econstructor; eauto.
Qed.

Lemma segments_single k : forall l rest, segments l = k :: rest -> segments k = [k].
Proof.
  intros l rest H. pose proof (segments_IsSegmentation l) as HS. destruct HS as (C & N & B).
  assert (K0 : k <> []) by (intros ->; apply N; rewrite H; left; reflexivity).
  destruct rest as [|y rest].
  - assert (L : l = k) by (rewrite <- (segments_concat l), H; cbn; apply app_nil_r). subst l. exact H.
  - assert (Y : exists r y', y = r :: y'). { destruct y as [|r y']; [|eauto]. exfalso. apply N. rewrite H. right. left. reflexivity. }
    destruct Y as (r & y' & ->).
    assert (L : l = k ++ r :: y' ++ concat rest). { rewrite <- (segments_concat l), H. cbn [concat app]. reflexivity. }
    assert (Hb : breaks (rev (map class k)) (class r) = true).
    { apply (B k r (y' ++ concat rest) L K0). exists [k], ((r :: y') :: rest). split; [exact H|]. cbn. apply app_nil_r. }
    rewrite L, segments_app in H by exact Hb. pose proof (segments_concat k) as CK. pose proof (segments_nonempty k) as NK.
    destruct (segments k) as [|z zs]; [cbn in CK; congruence|]. cbn [app] in H. injection H as -> H.
    cbn [concat] in CK. rewrite <- (app_nil_r k) in CK at 2. apply app_inv_head in CK.
    destruct zs as [|u zs]; [reflexivity|]. exfalso. cbn [concat] in CK. apply app_eq_nil in CK. destruct CK as [-> _]. apply NK. right. left. reflexivity.
Qed.

(** A cluster with another behind it stays, whatever comes after. *)
Lemma segments_grow k y rest l2 l : segments l = k :: y :: rest -> segments (l ++ l2) = k :: segments (concat (y :: rest) ++ l2).
Proof.
  intros H. pose proof (segments_IsSegmentation l) as HS. destruct HS as (C & N & B).
  assert (K0 : k <> []) by (intros ->; apply N; rewrite H; left; reflexivity).
  assert (Y : exists r y', y = r :: y'). { destruct y as [|r y']; [|eauto]. exfalso. apply N. rewrite H. right. left. reflexivity. }
  destruct Y as (r & y' & ->).
  assert (L : l = k ++ r :: y' ++ concat rest). { rewrite <- (segments_concat l), H. cbn [concat app]. reflexivity. }
  assert (Hb : breaks (rev (map class k)) (class r) = true).
  { apply (B k r (y' ++ concat rest) L K0). exists [k], ((r :: y') :: rest). split; [exact H|]. cbn. apply app_nil_r. }
  rewrite L, <- app_assoc. cbn [app]. rewrite segments_app by exact Hb. rewrite (segments_single k l _ H). reflexivity.
Qed.

(** ** Joining *)
Lemma seam_suffix (p q b : str) : decode (p ++ q) = decode p ++ decode q -> decode ((p ++ q) ++ b) = decode (p ++ q) ++ decode b ->
  decode (q ++ b) = decode q ++ decode b /\ decode ((p ++ q) ++ b) = decode p ++ decode (q ++ b).
Proof.
  intros H1 H2. pose proof H2 as H3. rewrite H1, <- !app_assoc in H3. destruct (decode_split _ _ _ H3) as (p2 & q2 & E & D1 & D2 & HL).
  destruct (prefix_same p (q ++ b) p2 q2) as [<- <-].
  - exact E.
  - rewrite HL, decode_bytes. reflexivity.
  - split; [exact D2|]. rewrite H2, D2, H1, <- app_assoc. reflexivity.
Qed.
Lemma cut_each s cl : Cut s cl -> Forall (fun k => segments (runes k) = [runes k]) cl.
Proof.
  induction 1 as [|s p q b st cl Hs E _ IH]; constructor; auto.
  destruct (StepString_spec s Hs) as (p' & q' & ns & E1 & Es & Hp & Hd & Hseg & _). rewrite E in E1. injection E1 as K1 K2 _ K3; subst p' q' ns.
  eapply segments_single; eauto.
Qed.
Lemma cut_last w cl : Cut w cl -> forall cl1 keep b, cl = cl1 ++ [keep] -> decode (w ++ b) = decode w ++ decode b ->
  decode (keep ++ b) = decode keep ++ decode b.
Proof.
  induction 1 as [|w p q bd st cl Hw E Hq IH]; intros cl1 keep b HC HD; [destruct cl1; discriminate|].
  destruct (StepString_spec w Hw) as (p' & q' & ns & E1 & Es & Hp & Hd & Hseg & _). rewrite E in E1. injection E1 as K1 K2 _ K3; subst p' q' ns.
  destruct cl1 as [|x cl1]; cbn [app] in HC.
  - injection HC as <- ->. inversion Hq; subst. rewrite app_nil_r in HD. exact HD.
  - injection HC as <- ->. eapply IH; [reflexivity|]. destruct (seam_suffix p q b) as [SQ DQ]; auto; rewrite <- Es; auto.
Qed.
Lemma join_cut w cl : Cut w cl -> forall b cl1 keep out, decode (w ++ b) = decode w ++ decode b -> cl = cl1 ++ [keep] ->
  Cut (keep ++ b) out -> Cut (w ++ b) (cl1 ++ out).
Proof.
  induction 1 as [|w p q bd st cl Hw E Hq IH]; intros b cl1 keep out HD HC HO.
  - destruct cl1; discriminate.
  - destruct (StepString_spec w Hw) as (p' & q' & ns & E1 & Es & Hp & Hd & Hseg & _). rewrite E in E1. injection E1 as K1 K2 _ K3; subst p' q' ns.
    destruct cl1 as [|x cl1]; cbn [app] in HC.
    + injection HC as <- ->. inversion Hq; subst. rewrite app_nil_r. exact HO.
    + injection HC as <- ->. cbn [app]. destruct (cut_runes _ _ Hq) as (C1 & C2 & C3 & C4).
      assert (HG : segments (runes w ++ runes b) = runes p :: segments (runes q ++ runes b)).
      { unfold runes in *. rewrite <- C2 in Hseg. destruct (cl1 ++ [keep]) as [|z zs] eqn:Ez; [destruct cl1; discriminate|].
        cbn [map] in Hseg, C2. rewrite (segments_grow _ _ _ _ _ Hseg). change (map fst (decode z) :: map runes zs) with (map runes (z :: zs)).
        rewrite C2, segments_concat. reflexivity. }
      assert (HW : runes (w ++ b) = runes w ++ runes b) by (unfold runes; rewrite HD, map_app; reflexivity).
      destruct (seam_suffix p q b) as [SQ DQ]; try (rewrite <- Es; auto). rewrite <- Es in DQ.
      apply (cut_first (w ++ b) p (q ++ b)); auto.
      * rewrite Es, <- app_assoc. reflexivity.
      * rewrite HW, HG. f_equal. f_equal. unfold runes. rewrite SQ, map_app. reflexivity.
      * eapply IH; eauto.
Qed.

Theorem feeds_clusters p parts out : Feeds p parts out -> Clusters (p ++ concat parts) out.
Proof.
  induction 1 as [p cl H|p a parts w tail cl keep out E HW HC _ IH|p a parts out _ IH]; cbn [concat].
  - rewrite app_nil_r. exact H.
  - rewrite app_assoc, E, <- app_assoc. rewrite clusters_cut in *. rewrite <- app_assoc in IH.
    apply (join_cut w _ HC _ cl keep out); auto.
  - rewrite app_assoc. exact IH.
Qed.

(** ** Text that stays *)
Lemma valid_stays s : ValidUTF8 s -> Stays s [].
Proof. intros H b. apply decode_valid_app, H. Qed.

Lemma four_bytes s b : (4 <= length s)%nat -> DecodeRune (s ++ b) = DecodeRune s.
Proof. destruct s as [|a0 [|a1 [|a2 [|a3 s]]]]; cbn [length]; try lia. intros _. reflexivity. Qed.

Lemma held_back s : exists w tail, s = w ++ tail /\ Stays w tail /\ (length tail <= 3)%nat.
Proof.
  remember (length s) as n eqn:Hn. assert (HL : (length s <= n)%nat) by lia. clear Hn. revert s HL.
  induction n as [|n IH]; intros s HL.
  - exists [], s. split; [reflexivity|]. split; [intros b; reflexivity|lia].
  - destruct (le_lt_dec 4 (length s)) as [H4|H4]; [|exists [], s; split; [reflexivity|]; split; [intros b; reflexivity|lia]].
    assert (Hs : s <> []) by (intros ->; cbn in H4; lia).
    pose proof (DecodeRune_size s Hs) as Hsz. set (k := snd (DecodeRune s)) in *.
    destruct (IH (drop k s)) as (w & tail & E & HW & HT).
    { assert (slen (drop k s) = slen s - k) by (apply slen_drop; lia). unfold slen in *. lia. }
    assert (HTk : slen (take k s) = k) by (apply slen_take; lia).
    assert (HT0 : take k s <> []) by (intros K; rewrite K in HTk; unfold slen in HTk; cbn in HTk; lia).
    assert (ES : s = take k s ++ w ++ tail) by (rewrite <- E, take_drop; reflexivity).
    exists (take k s ++ w), tail. rewrite <- app_assoc, <- ES. split; [reflexivity|]. split; [|exact HT].
    assert (D1 : DecodeRune (take k s ++ w) = DecodeRune s).
    { rewrite ES at 2. rewrite app_assoc. apply DecodeRune_prefix; [destruct (take k s); [congruence|discriminate]|].
      rewrite <- app_assoc, <- ES. fold k. rewrite slen_app. pose proof (slen_nonneg w). lia. }
    assert (DR : forall v, drop k (take k s ++ v) = v).
    { intros v. pose proof (drop_app_exact (take k s) v) as K. rewrite HTk in K. exact K. }
    intros b. assert (EB : (take k s ++ w) ++ tail ++ b = s ++ b) by (rewrite ES at 2; rewrite <- !app_assoc; reflexivity).
    rewrite EB, (decode_cons (s ++ b)) by (destruct s; [congruence|discriminate]). rewrite four_bytes by exact H4. fold k.
    rewrite (decode_cons (take k s ++ w)) by (destruct (take k s); [congruence|discriminate]). rewrite D1. fold k.
    rewrite DR, <- EB, <- app_assoc, DR. cbn [app]. f_equal. apply HW.
Qed.

(** ** Why the last cluster is held *)
Lemma cut_stop k b : k <> [] -> decode (k ++ b) = decode k ++ decode b -> segments (runes k) = [runes k] ->
  (forall r l, runes b = r :: l -> breaks (rev (map class (runes k))) (class r) = true) -> forall cl, Cut b cl -> Cut (k ++ b) (k :: cl).
Proof.
  intros Hk HD HS HB cl HC. apply (cut_first _ k b); auto.
  unfold runes at 1. rewrite HD, map_app. fold (runes k) (runes b). destruct (runes b) as [|r l] eqn:R.
  - rewrite app_nil_r, HS. reflexivity.
  - rewrite segments_app by (eapply HB; eauto). rewrite HS. reflexivity.
Qed.

Lemma last_rune (s : str) : s <> [] -> exists pre r, runes s = pre ++ [r].
Proof.
  intros H. destruct (runes s) as [|x l] eqn:R.
  - exfalso. apply H. apply decode_nil_inv. unfold runes in R. destruct (decode s); [reflexivity|discriminate].
  - destruct (exists_last (l := x :: l)) as (pre & r & E); [discriminate|]. eauto.
Qed.

Lemma runes_app_stay w b : Stays w [] -> runes (w ++ b) = runes w ++ runes b.
Proof. intros H. unfold runes. specialize (H b). cbn [app] in H. rewrite H, map_app. reflexivity. Qed.

Lemma no_break l pre r x : l = pre ++ [r] -> class r <> LF -> class r <> Control -> class x = (if match class r with CR => true | _ => false end then LF else Extend) ->
  breaks (rev (map class l)) (class x) = false.
Proof. intros -> H1 H2 H3. rewrite map_app, rev_app_distr. cbn [map rev app]. rewrite H3. destruct (class r); try congruence; reflexivity. Qed.

Lemma follower g : exists b x, runes b = [x] /\ class x = (if match g with CR => true | _ => false end then LF else Extend).
Proof.
  destruct (match g with CR => true | _ => false end).
  - exists [x0a], 10. split; vm_compute; reflexivity.
  - exists [xcc; x81], 0x301. split; vm_compute; reflexivity.
Qed.

Theorem must_hold w cl k : Stays w [] -> Clusters w (cl ++ [k]) ->
  ((forall b, exists cl', Clusters (w ++ b) (cl ++ k :: cl')) <-> EndsIn w (fun g => g = LF \/ g = Control)).
Proof.
  intros HW HC. pose proof HC as HC'. rewrite clusters_cut in HC'. destruct (cut_runes _ _ HC') as (C1 & C2 & C3 & C4).
  assert (Hk : k <> []) by (intros ->; apply C4, in_or_app; right; left; reflexivity).
  assert (Hw : w <> []) by (rewrite <- C1, concat_app; cbn; rewrite app_nil_r; intros K; apply app_eq_nil in K; tauto).
  destruct (last_rune w Hw) as (pre & r & ER). split.
  - intros H. exists pre, r. split; [exact ER|]. destruct (follower (class r)) as (b & x & EB & EX).
    destruct (H b) as (cl' & HB). rewrite clusters_cut in HB. destruct (cut_runes _ _ HB) as (B1 & B2 & B3 & B4).
    assert (K : breaks (rev (map class (runes w))) (class x) = true).
    { destruct (segments_IsSegmentation (runes (w ++ b))) as (_ & _ & S). apply (S (runes w) x []).
      - rewrite runes_app_stay, EB by auto. reflexivity.
      - rewrite ER. destruct pre; discriminate.
      - exists (map runes (cl ++ [k])), (map runes cl'). rewrite <- B2, <- map_app, <- app_assoc. split; [reflexivity|]. rewrite C2. apply segments_concat. }
    destruct (class r) eqn:Cr; auto; exfalso; rewrite (no_break (runes w) pre r x ER) in K; try congruence; rewrite Cr; auto.
  - intros (pre' & r' & ER' & HR) b. destruct (clusters_total b) as (cl' & HB). exists cl'. rewrite clusters_cut in *.
    apply (join_cut w _ HC b cl k (k :: cl')); auto; [apply (HW b)|].
    assert (SK : segments (runes k) = [runes k]).
    { pose proof (cut_each _ _ HC) as HF. rewrite Forall_forall in HF. apply HF, in_or_app. right. left. reflexivity. }
    apply cut_stop; auto; [eapply cut_last; [exact HC|reflexivity|apply (HW b)]|]. intros x l EB.
    assert (ES : exists pk, runes k = pk ++ [r']).
    { destruct (last_rune k Hk) as (pk & rk & EK). exists pk. rewrite EK. f_equal. f_equal.
      assert (RW : runes w = map fst (concat (map decode cl)) ++ runes k).
      { unfold runes. rewrite C3, map_app, concat_app, map_app. cbn [map concat]. rewrite app_nil_r. reflexivity. }
      rewrite ER', EK, app_assoc in RW. apply app_inj_tail in RW. symmetry. apply RW. }
    destruct ES as (pk & ->). rewrite map_app, rev_app_distr. cbn [map rev app breaks].
    destruct HR as [-> | ->]; reflexivity.
Qed.

(** ** Widths, and how much is held *)
Lemma clusters_width c s cl : Clusters s cl -> StringWidth c s = zsum (map (StringWidth c) cl).
Proof.
  rewrite clusters_cut. intros H. destruct (cut_runes _ _ H) as (_ & C2 & _). pose proof (cut_each _ _ H) as HF.
  rewrite StringWidth_swidth. unfold swidth. rewrite <- C2, map_map. f_equal. apply map_ext_in. intros k Hk.
  rewrite Forall_forall in HF. rewrite StringWidth_swidth. unfold swidth. rewrite (HF k Hk). cbn. lia.
Qed.
Lemma feeds_width c parts out : Feeds [] parts out -> StringWidth c (concat parts) = zsum (map (StringWidth c) out).
Proof. intros H. apply clusters_width, (feeds_clusters [] parts out H). Qed.
