(** * TrimProofs: cutting a text between its characters. *)
From Coq Require Import ZifyBool ZifyNat.
From Verif Require Import GoBase Utf8 Utf8Spec Utf8Proofs Uniseg GraphemeSpec UnisegProofs SegmentSpec SegmentTheory
  Runewidth ConditionSpec StringWidthProofs TextSpec Width WidthProofs LawsTheory LawsProofs PartsSpec PartsProofs TrimSpec.
Local Open Scope Z_scope.

Lemma decode_front (a b : str) l1 : slen a = nb l1 -> decode (a ++ b) = l1 ++ decode b -> decode a = l1.
Proof.
  intros HL H. destruct (decode_split _ _ _ H) as (p & q & E & D1 & _ & L). destruct (prefix_same a b p q E) as [<- _]; [lia|exact D1].
Qed.

Lemma cut_between cl : forall s cl1 cl2, Cut s cl -> cl = cl1 ++ cl2 ->
  Cut (concat cl1) cl1 /\ Cut (concat cl2) cl2 /\ decode s = decode (concat cl1) ++ decode (concat cl2).
Proof.
  intros s cl1 cl2 H. revert cl1 cl2.
  induction H as [|s p q b st cl Hs E Hq IH]; intros cl1 cl2 HC.
  - symmetry in HC. apply app_eq_nil in HC. destruct HC as [-> ->]. cbn. repeat split; constructor.
  - destruct cl1 as [|k cl1]; cbn [app] in HC.
    + subst cl2. assert (K : Cut s (p :: cl)) by (econstructor; eauto). destruct (cut_runes _ _ K) as (C1 & _). rewrite C1. cbn. repeat split; [constructor|exact K].
    + injection HC as <- ->. destruct (IH _ _ eq_refl) as (I1 & I2 & I3).
      destruct (StepString_spec s Hs) as (p' & q' & ns & E1 & Es & Hp & Hd & Hseg & _). rewrite E in E1. injection E1 as K1 K2 _ K3; subst p' q' ns.
      destruct (cut_runes _ _ Hq) as (C1 & _). rewrite concat_app in C1. fold (runes s) (runes p) (runes q) in Hseg.
      set (p1 := concat cl1) in *. set (q2 := concat cl2) in *. cbn [concat]. fold p1.
      assert (D : decode (p ++ p1) = decode p ++ decode p1).
      { apply decode_front with (b := q2).
        - rewrite slen_app. rewrite <- (decode_bytes p), <- (decode_bytes p1). rewrite nb_app. reflexivity.
        - rewrite <- !app_assoc, C1, <- I3, <- Es. exact Hd. }
      split; [|split; [exact I2|rewrite D, Hd, I3, app_assoc; reflexivity]].
      apply (cut_first (p ++ p1) p p1); auto.
      assert (R : runes (p ++ p1) = runes p ++ runes p1) by (unfold runes; rewrite D, map_app; reflexivity). rewrite R.
      pose proof (segments_single _ _ _ Hseg) as S1.
      destruct (runes p1) as [|r l] eqn:E1; [rewrite app_nil_r, S1; reflexivity|].
      assert (Q : runes q = r :: l ++ runes q2) by (unfold runes in *; rewrite I3, map_app, E1; reflexivity).
      assert (S : runes s = runes p ++ r :: l ++ runes q2) by (rewrite <- Q; unfold runes; rewrite Hd, map_app; reflexivity).
      assert (P0 : runes p <> []).
      { intros K. apply map_eq_nil in K. apply Hp, decode_nil_inv. exact K. }
      rewrite segments_app, S1; [reflexivity|].
      destruct (segments_IsSegmentation (runes s)) as (_ & _ & B). apply (B (runes p) r (l ++ runes q2) S P0).
      exists [runes p], (segments (runes q)). split; [exact Hseg|]. cbn. apply app_nil_r.
Qed.

Lemma between s cl1 cl2 : Clusters s (cl1 ++ cl2) ->
  Clusters (concat cl1) cl1 /\ Clusters (concat cl2) cl2 /\ s = concat cl1 ++ concat cl2 /\ runes s = runes (concat cl1) ++ runes (concat cl2).
Proof.
  intros H. apply clusters_cut in H. destruct (cut_between _ s cl1 cl2 H eq_refl) as (H1 & H2 & H3). rewrite !clusters_cut.
  destruct (cut_runes _ _ H) as (C & _). rewrite concat_app in C. repeat split; auto. unfold runes. rewrite H3, map_app. reflexivity.
Qed.
Lemma char_width c s cl k : Reachable c -> Clusters s cl -> In k cl -> 0 <= StringWidth c k <= 2.
Proof.
  intros Hc H Hk. apply clusters_cut in H. pose proof (cut_each _ _ H) as HF. rewrite Forall_forall in HF. specialize (HF k Hk).
  rewrite StringWidth_swidth. unfold swidth. rewrite HF. cbn [map]. rewrite zsum_cons. change (zsum []) with 0.
  pose proof (Reachable_OK c Hc) as HO. destruct (cluster_width_bounds c (runes k) HO) as [B1 B2]. split; [lia|].
  destruct (runes k) as [|r l] eqn:E; [cbn; lia|]. destruct B2 as (r' & _ & ->); [discriminate|]. pose proof (HO r'). lia.
Qed.
Lemma sum_pos c cl : Reachable c -> 0 <= zsum (map (StringWidth c) cl).
Proof.
  intros Hc. induction cl as [|k cl IH]; [cbn; lia|]. cbn [map]. rewrite zsum_cons. pose proof (StringWidth_bounds c k Hc). lia.
Qed.
Lemma between_width c s cl1 cl2 : Clusters s (cl1 ++ cl2) -> StringWidth c s = StringWidth c (concat cl1) + StringWidth c (concat cl2).
Proof.
  intros H. destruct (between _ _ _ H) as (H1 & H2 & _). rewrite (clusters_width c _ _ H), (clusters_width c _ _ H1), (clusters_width c _ _ H2), map_app, zsum_app. reflexivity.
Qed.

(** ** The cut *)
Lemma trim_any c w : 0 <= w -> Reachable c -> forall cl2 cl1 s, Clusters s (cl1 ++ cl2) -> StringWidth c (concat cl1) <= w -> exists p q, Trim c w s p q.
Proof.
  intros Hw Hc. induction cl2 as [|k cl2 IH]; intros cl1 s H HW.
  - exists (concat cl1), (concat []), cl1, []. repeat split; auto. discriminate.
  - destruct (Z_le_gt_dec (StringWidth c (concat cl1) + StringWidth c k) w) as [L|L].
    + apply (IH (cl1 ++ [k]) s); [rewrite <- app_assoc; exact H|].
      assert (K : Clusters (concat (cl1 ++ [k])) (cl1 ++ [k])) by (apply (between s (cl1 ++ [k]) cl2); rewrite <- app_assoc; exact H).
      rewrite (between_width c _ _ _ K). cbn [concat]. rewrite app_nil_r. exact L.
    + exists (concat cl1), (concat (k :: cl2)), cl1, (k :: cl2). repeat split; auto. intros k' cl E. injection E as <- <-. lia.
Qed.
Lemma trim_total c w s : Reachable c -> 0 <= w -> exists p q, Trim c w s p q.
Proof.
  intros Hc Hw. destruct (clusters_total s) as (cl & H). apply (trim_any c w Hw Hc cl [] s H). cbn [concat].
  rewrite StringWidth_swidth. cbn. exact Hw.
Qed.
Lemma trim_facts c w s p q : Reachable c -> Trim c w s p q ->
  s = p ++ q /\ StringWidth c p <= w /\ StringWidth c s = StringWidth c p + StringWidth c q /\
  (q = [] <-> StringWidth c s <= w) /\ (q <> [] -> w - 1 <= StringWidth c p).
Proof.
  intros Hc (cl1 & cl2 & H & -> & -> & HW & HN). destruct (between _ _ _ H) as (H1 & H2 & Es & _). pose proof (between_width c _ _ _ H) as E.
  split; [exact Es|]. split; [exact HW|]. split; [exact E|]. rewrite E. destruct cl2 as [|k cl2].
  - cbn [concat]. assert (Z0 : StringWidth c [] = 0) by (rewrite StringWidth_swidth; reflexivity). rewrite Z0. split; [split; [lia|reflexivity]|congruence].
  - specialize (HN k cl2 eq_refl). assert (Hk : In k (cl1 ++ k :: cl2)) by (apply in_or_app; right; left; reflexivity).
    pose proof (char_width c s _ k Hc H Hk). rewrite (clusters_width c _ _ H2). cbn [map]. rewrite zsum_cons. pose proof (sum_pos c cl2 Hc).
    split; [|intros _; lia]. split; [|lia]. intros K. exfalso. apply clusters_cut in H. destruct (cut_runes _ _ H) as (_ & _ & _ & N).
    cbn [concat] in K. apply app_eq_nil in K. destruct K as [-> _]. auto.
Qed.
Lemma longer_lists {A} (a b a' b' : list A) : a ++ b = a' ++ b' -> (exists x m, a' = a ++ x :: m) \/ (exists m, a = a' ++ m).
Proof.
  revert a'. induction a as [|x a IH]; intros [|y a'] H; cbn [app] in *.
  - right. exists []. reflexivity.
  - left. exists y, a'. reflexivity.
  - right. exists (x :: a). reflexivity.
  - injection H as -> H. destruct (IH _ H) as [(z & m & ->)|(m & ->)]; [left|right]; eauto.
Qed.
Lemma trim_longest c w s p q cl1 cl2 : Reachable c -> Trim c w s p q -> Clusters s (cl1 ++ cl2) -> StringWidth c (concat cl1) <= w ->
  exists m, p = concat cl1 ++ m.
Proof.
  intros Hc (a1 & a2 & H & -> & -> & HW & HN) H' HW'. pose proof (clusters_fun _ _ _ H H') as E.
  destruct (longer_lists _ _ _ _ E) as [(k & m & ->)|(m & ->)]; [exfalso|rewrite concat_app; eauto].
  rewrite <- app_assoc in E. apply app_inv_head in E. cbn [app] in E. specialize (HN k (m ++ cl2) E).
  destruct (between _ _ _ H') as (H1 & _). rewrite (between_width c _ _ _ H1) in HW'.
  destruct (between _ _ _ H1) as (_ & H2 & _). rewrite (clusters_width c _ _ H2) in HW'. cbn [map] in HW'. rewrite zsum_cons in HW'.
  pose proof (sum_pos c m Hc). lia.
Qed.
Lemma trim_unique c w s p q p' q' : Reachable c -> Trim c w s p q -> Trim c w s p' q' -> p = p' /\ q = q'.
Proof.
  intros Hc H H'. destruct (trim_facts _ _ _ _ _ Hc H) as (E & _). destruct (trim_facts _ _ _ _ _ Hc H') as (E' & _).
  pose proof H as (a1 & a2 & K1 & K2 & _ & K3 & _). pose proof H' as (b1 & b2 & L1 & L2 & _ & L3 & _). rewrite K2 in K3. rewrite L2 in L3.
  destruct (trim_longest _ _ _ _ _ _ _ Hc H L1 L3) as (m & M). destruct (trim_longest _ _ _ _ _ _ _ Hc H' K1 K3) as (n & N). rewrite <- L2 in M. rewrite <- K2 in N.
  apply prefix_same; [congruence|]. apply (f_equal slen) in M, N. rewrite slen_app in M, N. pose proof (slen_nonneg m). pose proof (slen_nonneg n). lia.
Qed.

(** ** Cells *)
Lemma trim_cell c w s p q : Reachable c -> Trim c w s p q -> ~ In 0x9B (runes s) -> w < 65536 -> vwidth c p <= w.
Proof.
  intros Hc H HN Hw. pose proof (trim_facts _ _ _ _ _ Hc H) as (_ & L & _). destruct H as (cl1 & cl2 & H & -> & -> & _).
  destruct (between _ _ _ H) as (_ & _ & _ & R). rewrite R in HN.
  assert (HN' : ~ In 0x9B (runes (concat cl1))) by (intros K; apply HN, in_or_app; left; exact K).
  pose proof (rawWidth_nonneg c _ Hc HN'). pose proof (rawWidth_le_StringWidth c (concat cl1)). unfold vwidth, u16. rewrite Z.mod_small; lia.
Qed.
Lemma trim_sign c w s p q e : Reachable c -> StartsRune e -> Trim c (w - StringWidth c e) s p q -> StringWidth c (p ++ e) <= w.
Proof.
  intros Hc He H. destruct (trim_facts _ _ _ _ _ Hc H) as (_ & L & _). pose proof (width_subadd c p e Hc He). lia.
Qed.

(** ** Lines *)
Lemma trim_some c w s p q : Reachable c -> 2 <= w -> s <> [] -> Trim c w s p q -> p <> [].
Proof.
  intros Hc Hw Hs (cl1 & cl2 & H & -> & -> & HW & HN). destruct cl1 as [|k cl1].
  - exfalso. destruct cl2 as [|k cl2].
    + apply clusters_cut in H. destruct (cut_runes _ _ H) as (C & _). cbn in C. congruence.
    + specialize (HN k cl2 eq_refl). cbn [concat] in HN. assert (Z0 : StringWidth c [] = 0) by (rewrite StringWidth_swidth; reflexivity). rewrite Z0 in HN.
      pose proof (char_width c s _ k Hc H (or_introl eq_refl)). lia.
  - apply clusters_cut in H. destruct (cut_runes _ _ H) as (_ & _ & _ & N). cbn [concat]. intros K. apply app_eq_nil in K. destruct K as [-> _]. apply N. left. reflexivity.
Qed.
Lemma lines_total c w : Reachable c -> 2 <= w -> forall n s, (length s <= n)%nat -> exists ps, Lines c w s ps.
Proof.
  intros Hc Hw. induction n as [|n IH]; intros s L; (destruct s as [|b s]; [exists []; constructor|]); [cbn in L; lia|].
  destruct (trim_total c w (b :: s) Hc ltac:(lia)) as (p & q & H). assert (Hp : p <> []) by (apply (trim_some c w (b :: s) p q Hc Hw); [discriminate|exact H]).
  destruct (trim_facts _ _ _ _ _ Hc H) as (E & _).
  destruct (IH q) as (ps & K). { apply (f_equal (@length byte)) in E. rewrite app_length in E. destruct p; [congruence|]. cbn in E, L. lia. }
  exists (p :: ps). econstructor; eauto. discriminate.
Qed.
Lemma lines_exist c w s : Reachable c -> 2 <= w -> exists ps, Lines c w s ps.
Proof. intros Hc Hw. eapply lines_total; eauto. Qed.
Lemma lines_fun c w s ps : Reachable c -> Lines c w s ps -> forall ps', Lines c w s ps' -> ps = ps'.
Proof.
  intros Hc. induction 1 as [|s p q ps Hs HT _ IH]; intros ps' H'; inversion H'; subst; try congruence.
  destruct (trim_unique _ _ _ _ _ _ _ Hc HT H0) as [<- <-]. f_equal. auto.
Qed.
Lemma lines_facts c w s ps : Reachable c -> Lines c w s ps ->
  concat ps = s /\ StringWidth c s = zsum (map (StringWidth c) ps) /\ Forall (fun p => StringWidth c p <= w) ps /\
  (forall a p x b, ps = a ++ p :: x :: b -> w - 1 <= StringWidth c p).
Proof.
  intros Hc. induction 1 as [|s p q ps Hs HT HL (I1 & I2 & I3 & I4)].
  - split; [reflexivity|]. split; [rewrite StringWidth_swidth; reflexivity|]. split; [constructor|]. intros [|? ?] p x b E; discriminate.
  - destruct (trim_facts _ _ _ _ _ Hc HT) as (E & L & W & _ & F). cbn [concat map]. rewrite zsum_cons, I1, W, I2. split; [auto|]. split; [reflexivity|]. split; [constructor; auto|].
    intros [|y a] p' x b K; cbn [app] in K; injection K as -> K.
    + apply F. intros ->. inversion HL; subst; [discriminate|congruence].
    + eapply I4; eauto.
Qed.
Lemma lines_number c w s ps : Reachable c -> 2 <= w -> Lines c w s ps -> s <> [] ->
  (Z.of_nat (length ps) - 1) * (w - 1) <= StringWidth c s <= Z.of_nat (length ps) * w.
Proof.
  intros Hc Hw. induction 1 as [|s p q ps Hs HT HL IH]; [congruence|]. intros _.
  destruct (trim_facts _ _ _ _ _ Hc HT) as (E & L & W & Q & F). cbn [length].
  destruct q as [|b q].
  - inversion HL; subst; [|congruence]. assert (Z0 : StringWidth c [] = 0) by (rewrite StringWidth_swidth; reflexivity).
    pose proof (StringWidth_bounds c p Hc). rewrite W, Z0. cbn [length]. change (Z.of_nat 1) with 1. lia.
  - specialize (IH ltac:(discriminate)). specialize (F ltac:(discriminate)). rewrite Nat2Z.inj_succ. unfold Z.succ.
    rewrite W. nia.
Qed.
Lemma lines_all c w s : Reachable c -> 2 <= w -> exists ps, Lines c w s ps /\ (forall ps', Lines c w s ps' -> ps = ps') /\
  concat ps = s /\ StringWidth c s = zsum (map (StringWidth c) ps) /\ Forall (fun p => StringWidth c p <= w) ps /\
  (forall a p x b, ps = a ++ p :: x :: b -> w - 1 <= StringWidth c p) /\
  (s <> [] -> (Z.of_nat (length ps) - 1) * (w - 1) <= StringWidth c s <= Z.of_nat (length ps) * w).
Proof.
  intros Hc Hw. destruct (lines_exist c w s Hc Hw) as (ps & H). exists ps. destruct (lines_facts c w s ps Hc H) as (F1 & F2 & F3 & F4).
  split; [exact H|]. split; [apply (lines_fun c w s ps Hc H)|]. repeat (split; [assumption|]). apply (lines_number c w s ps Hc Hw H).
Qed.
