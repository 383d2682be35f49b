(** * TintProofs: a text cut with its sequences left whole. *)
From Coq Require Import Strings.String.
From Coq Require Import ZifyBool ZifyNat.
From Verif Require Import GoBase Utf8 Utf8Spec Utf8Proofs GraphemeSpec EscapeSpec Runewidth ConditionSpec StringWidthProofs TextSpec Width WidthProofs
  TerminalSpec TerminalProofs WrapSpec ColourSpec ColourProofs PartsSpec PartsProofs TrimSpec TrimProofs TintSpec.
Local Open Scope Z_scope.

Lemma simple_raw c t : Reachable c -> SimpleText t -> rawWidth c t = StringWidth c t.
Proof.
  intros Hc [Hv H]. unfold rawWidth. rewrite count_no_intro by (apply stands_no_intro; auto). lia.
Qed.
Lemma simple_nil : SimpleText [].
Proof. split; constructor. Qed.
Lemma trim_simple c w t p q : SimpleText t -> Trim c w t p q -> SimpleText p /\ SimpleText q /\ runes t = runes p ++ runes q.
Proof.
  intros [V S] (cl1 & cl2 & H & -> & -> & _). destruct (between _ _ _ H) as (_ & _ & _ & R). apply clusters_cut in H.
  destruct (cut_between _ t cl1 cl2 H eq_refl) as (_ & _ & D). unfold ValidUTF8 in V. rewrite D in V. rewrite R in S. apply Forall_app in V, S.
  split; [split; apply V || apply S|]. split; [split; apply V || apply S|exact R].
Qed.

(** ** What is drawn, and the attributes afterwards *)
Lemma quiet_paint c e x st : Quiet e -> paint c (mkT Ground x st) e = [].
Proof.
  intros He. pose proof (EscSequence_ascii e (quiet_escseq e He)) as Ha. unfold paint. rewrite runes_ascii_str by auto.
  destruct He as [ps params fin Hps Hpa Hf].
  assert (HP : Forall (fun r => 0x20 <= r <= 0x3F) (map bv ps ++ map bv params)).
  { apply Forall_app. split; [|apply quiet_params; auto]. rewrite Forall_map. eapply Forall_impl; [|exact Hps].
    intros b. unfold oneof. vm_compute (map bv (lit ";?"%string)). cbn [In]. lia. }
  cbn [map ink tMode]. change (drawn (bv x1b)) with false. cbn [app].
  change (step c (step c (mkT Ground x st) (bv x1b)) (bv x5b)) with (mkT (InCsi []) x st).
  change (tMode (step c (mkT Ground x st) (bv x1b))) with AfterEsc. cbn [app]. rewrite !map_app. cbn [map].
  destruct (fold_csi c _ HP [] x st) as [F I]. rewrite ink_app, I, F. reflexivity.
Qed.
Lemma mute_shown c s p : Reachable c -> Mute s p -> Styled s /\ Styled p /\ rawWidth c p = 0 /\ exists st', forall x st,
  (exists x', show c (mkT Ground x st) s = mkT Ground x' (st' ++ st)) /\ show c (mkT Ground x st) p = mkT Ground x (st' ++ st) /\
  paint c (mkT Ground x st) p = [].
Proof.
  intros Hc. induction 1 as [t Ht|t e s p Ht He _ (S1 & S2 & R & s2 & IH)].
  - split; [constructor; exact Ht|]. split; [constructor; apply simple_nil|]. split; [rewrite simple_raw by (auto; apply simple_nil); rewrite StringWidth_swidth; reflexivity|].
    exists []. intros x st. split; [|split; reflexivity]. eexists. apply show_simple; auto.
  - split; [apply st_more; auto|]. split; [apply (st_more [] e p); auto; apply simple_nil|].
    assert (R' : rawWidth c (e ++ p) = 0).
    { change (e ++ p) with ([] ++ e ++ p). rewrite rawWidth_sequence by (auto using quiet_escseq, styled_not_prev). rewrite R.
      rewrite simple_raw by (auto; apply simple_nil). rewrite StringWidth_swidth. reflexivity. }
    split; [exact R'|]. destruct (show_quiet c e He) as (s1 & E1). exists (s2 ++ s1). intros x st.
    rewrite (show_app c _ t) by apply Ht. rewrite show_simple by auto. rewrite !(show_app c _ e) by (apply quiet_valid; auto). rewrite !E1.
    destruct (IH (x + rawWidth c t) (s1 ++ st)) as ((x' & K) & _). destruct (IH x (s1 ++ st)) as (_ & K2 & K3). rewrite K, K2, <- app_assoc.
    split; [eexists; reflexivity|]. split; [reflexivity|]. rewrite paint_app by (apply quiet_valid; auto). rewrite quiet_paint, E1, K3 by exact He. reflexivity.
Qed.

Lemma tint_shown c w s p : Reachable c -> Tint c w s p -> Styled s /\ Styled p /\ rawWidth c p <= w /\
  (rawWidth c s <= w -> p = s) /\ (w < rawWidth c s -> w - 1 <= rawWidth c p) /\ exists st', forall x st,
  (exists x', show c (mkT Ground x st) s = mkT Ground x' (st' ++ st)) /\ (exists x', show c (mkT Ground x st) p = mkT Ground x' (st' ++ st)) /\
  exists more, paint c (mkT Ground x st) s = paint c (mkT Ground x st) p ++ more.
Proof.
  intros Hc. induction 1 as [w t p q Ht HT|w t e s p Ht He HW _ (S1 & S2 & L & F1 & F2 & s2 & IH)|w t p q e s p' Ht He HT Hq HM].
  - destruct (trim_simple _ _ _ _ _ Ht HT) as (Hp & Hq & R). destruct (trim_facts _ _ _ _ _ Hc HT) as (E & L & W & Q & G).
    rewrite !simple_raw by auto. split; [constructor; exact Ht|]. split; [constructor; exact Hp|]. split; [exact L|].
    split; [intros K; apply Q in K; subst q; rewrite E; symmetry; apply app_nil_r|].
    split; [intros K; apply G; intros ->; assert (StringWidth c t <= w) by (apply Q; reflexivity); lia|].
    exists []. intros x st. split; [eexists; apply show_simple; auto|]. split; [eexists; apply show_simple; auto|].
    rewrite !paint_simple by auto. rewrite R, map_app. eauto.
  - split; [apply st_more; auto|]. split; [apply st_more; auto|].
    rewrite (rawWidth_sequence c t e p), (rawWidth_sequence c t e s) by (auto using quiet_escseq, styled_not_prev). rewrite (simple_raw c t) by auto.
    split; [lia|]. split; [intros K; rewrite F1 by lia; reflexivity|]. split; [intros K; specialize (F2 ltac:(lia)); lia|].
    destruct (show_quiet c e He) as (s1 & E1). exists (s2 ++ s1). intros x st.
    rewrite !(show_app c _ t) by apply Ht. rewrite show_simple by auto. rewrite !(show_app c _ e) by (apply quiet_valid; auto). rewrite !E1, <- !app_assoc.
    destruct (IH (x + rawWidth c t) (s1 ++ st)) as (K1 & K2 & more & K3). split; [exact K1|]. split; [exact K2|]. exists more.
    rewrite !(paint_app c _ t) by apply Ht. rewrite show_simple by auto. rewrite !(paint_app c _ e) by (apply quiet_valid; auto). rewrite E1, K3, <- !app_assoc. reflexivity.
  - destruct (trim_simple _ _ _ _ _ Ht HT) as (Hp & Hq' & R). destruct (trim_facts _ _ _ _ _ Hc HT) as (E & L & W & Q & G).
    destruct (mute_shown c s p' Hc HM) as (S1 & S2 & R0 & s2 & IH).
    split; [apply st_more; auto|]. split; [apply st_more; auto|].
    rewrite (rawWidth_sequence c p e p'), (rawWidth_sequence c t e s) by (auto using quiet_escseq, styled_not_prev). rewrite (simple_raw c t), (simple_raw c p) by auto. rewrite R0.
    pose proof (styled_nonneg c s Hc S1). split; [lia|].
    split; [intros K; exfalso; apply Hq, Q; lia|]. split; [intros _; specialize (G Hq); lia|].
    destruct (show_quiet c e He) as (s1 & E1). exists (s2 ++ s1). intros x st.
    rewrite (show_app c _ t), (show_app c _ p) by (apply Ht || apply Hp). rewrite (show_simple c t), (show_simple c p) by auto. rewrite !(show_app c _ e) by (apply quiet_valid; auto). rewrite !E1, <- !app_assoc.
    destruct (IH (x + rawWidth c t) (s1 ++ st)) as (K1 & _). destruct (IH (x + rawWidth c p) (s1 ++ st)) as (_ & K2 & K3).
    split; [exact K1|]. split; [eexists; exact K2|].
    rewrite (paint_app c _ t), (paint_app c _ p) by (apply Ht || apply Hp). rewrite (show_simple c t), (show_simple c p) by auto. rewrite !(paint_app c _ e) by (apply quiet_valid; auto).
    rewrite !(quiet_paint c e), !E1, K3 by exact He. rewrite (paint_simple c t), (paint_simple c p) by auto. rewrite R, map_app. cbn [app]. rewrite app_nil_r, <- app_assoc. eauto.
Qed.

(** ** There is one, and no other *)
Lemma mute_total s : Styled s -> exists p, Mute s p.
Proof. induction 1 as [t Ht|t e s Ht He _ (p & IH)]; [exists []; constructor; exact Ht|exists (e ++ p); constructor; auto]. Qed.
Lemma tint_total c s : Reachable c -> Styled s -> forall w, 0 <= w -> exists p, Tint c w s p.
Proof.
  intros Hc. induction 1 as [t Ht|t e s Ht He Hs IH]; intros w Hw.
  - destruct (trim_total c w t Hc Hw) as (p & q & H). exists p. apply (ti_end c w t p q); auto.
  - destruct (Z_le_gt_dec (StringWidth c t) w) as [L|L].
    + destruct (IH (w - StringWidth c t) ltac:(lia)) as (p & H). exists (t ++ e ++ p). apply ti_more; auto.
    + destruct (trim_total c w t Hc Hw) as (p & q & H). destruct (mute_total s Hs) as (p' & H'). exists (p ++ e ++ p'). apply (ti_full c w t p q e s p'); auto.
      intros ->. destruct (trim_facts _ _ _ _ _ Hc H) as (_ & _ & _ & Q & _). assert (StringWidth c t <= w) by (apply Q; reflexivity). lia.
Qed.

Lemma simple_no_esc t : SimpleText t -> ~ In x1b t.
Proof.
  intros [V S] K. apply in_split in K. destruct K as (a & b & ->).
  assert (D : decode (a ++ x1b :: b) = decode a ++ decode (x1b :: b)) by (apply decode_app; left; vm_compute; reflexivity).
  unfold runes in S. rewrite D, map_app in S. apply Forall_app in S. destruct S as [_ S].
  change (x1b :: b) with ([x1b] ++ b) in S. rewrite decode_ascii_app in S by (repeat constructor). rewrite map_app in S. apply Forall_app in S. destruct S as [S _].
  change (map fst (decode [x1b])) with [0x1B] in S. inversion S as [|? ? S' _]; subst. destruct S' as [A|[A|[A|A]]]; vm_compute in A; discriminate.
Qed.
Lemma quiet_bytes e : Quiet e -> exists l f, e = x1b :: x5b :: l ++ [f] /\ Forall (fun b => bv b < 0x40) l /\ 0x40 <= bv f.
Proof.
  intros [ps params fin Hps Hpa Hf]. exists (ps ++ params), fin. split; [reflexivity|]. split.
  - apply Forall_app. split; [eapply Forall_impl; [|exact Hps]; intros b; unfold oneof; vm_compute (map bv (lit ";?"%string)); cbn [In]; lia|].
    apply quiet_params in Hpa. rewrite Forall_map in Hpa. eapply Forall_impl; [|exact Hpa]. cbn. lia.
  - unfold oneof in Hf. vm_compute (map bv (lit "mJKhl"%string)) in Hf. cbn [In] in Hf. lia.
Qed.
Lemma first_of {A} (Q : A -> Prop) l : forall l' f f' s s', Forall Q l -> Forall Q l' -> ~ Q f -> ~ Q f' -> l ++ f :: s = l' ++ f' :: s' -> l = l' /\ f = f' /\ s = s'.
Proof.
  induction l as [|x l IH]; intros [|y l'] f f' s s' H H' Hf Hf' E; cbn [app] in E; injection E as E1 E2.
  - auto.
  - subst. inversion H'; subst. congruence.
  - subst. inversion H; subst. congruence.
  - subst. inversion H; inversion H'; subst. destruct (IH l' f f' s s') as (-> & -> & ->); auto.
Qed.
Lemma parts_unique t t' e e' s s' : SimpleText t -> SimpleText t' -> Quiet e -> Quiet e' -> t ++ e ++ s = t' ++ e' ++ s' -> t = t' /\ e = e' /\ s = s'.
Proof.
  intros Ht Ht' He He' E. destruct (quiet_bytes e He) as (l & f & -> & Hl & Hf). destruct (quiet_bytes e' He') as (l' & f' & -> & Hl' & Hf').
  cbn [app] in E.
  assert (N : forall t, SimpleText t -> Forall (fun b => b <> x1b) t).
  { intros u Hu. apply Forall_forall. intros b Hb ->. apply (simple_no_esc u Hu Hb). }
  assert (K := first_of (fun b => b <> x1b) t t' x1b x1b _ _ (N t Ht) (N t' Ht') ltac:(auto) ltac:(auto) E). destruct K as (-> & _ & K).
  injection K as K. rewrite <- !app_assoc in K. cbn [app] in K.
  assert (M := first_of (fun b => bv b < 0x40) l l' f f' s s' Hl Hl' ltac:(cbn beta; lia) ltac:(cbn beta; lia) K). destruct M as (-> & -> & ->). auto.
Qed.
Lemma simple_alone t t' e s : SimpleText t -> Quiet e -> t <> t' ++ e ++ s.
Proof.
  intros Ht He E. destruct (quiet_bytes e He) as (l & f & -> & _). apply (simple_no_esc t Ht). rewrite E. apply in_or_app. right. left. reflexivity.
Qed.
Lemma mute_unique s p : Mute s p -> forall p', Mute s p' -> p = p'.
Proof.
  induction 1 as [t Ht|t e s p Ht He _ IH]; intros p' H'; inversion H' as [t2 H1 E1 E2|t2 e2 s2 p2 H1 H2 H3 E1 E2]; subst.
  - reflexivity.
  - exfalso. eapply (simple_alone (t2 ++ e2 ++ s2)); eauto.
  - exfalso. eapply (simple_alone (t ++ e ++ s)); eauto.
  - destruct (parts_unique _ _ _ _ _ _ H1 Ht H2 He E1) as (-> & -> & ->). f_equal. apply IH. exact H3.
Qed.
Lemma tint_unique c w s p : Reachable c -> Tint c w s p -> forall p', Tint c w s p' -> p = p'.
Proof.
  intros Hc. induction 1 as [w t p q Ht HT|w t e s p Ht He HW _ IH|w t p q e s p' Ht He HT Hq HM]; intros p2 H'.
  - inversion H' as [w2 t2 p3 q2 H1 H2|w2 t2 e2 s2 p3 H1 H2 H3 H4 E1 E2|w2 t2 p3 q2 e2 s2 p4 H1 H2 H3 H4 H5 E1 E2]; subst.
    + apply (trim_unique _ _ _ _ _ _ _ Hc HT H2).
    + exfalso. eapply (simple_alone (t2 ++ e2 ++ s2)); eauto.
    + exfalso. eapply (simple_alone (t2 ++ e2 ++ s2)); eauto.
  - inversion H' as [w2 t2 p3 q2 H1 H2|w2 t2 e2 s2 p3 H1 H2 H3 H4 E1 E2|w2 t2 p3 q2 e2 s2 p4 H1 H2 H3 H4 H5 E1 E2]; subst.
    + exfalso. eapply (simple_alone (t ++ e ++ s)); eauto.
    + destruct (parts_unique _ _ _ _ _ _ H1 Ht H2 He E2) as (-> & -> & ->). f_equal. f_equal. apply IH. exact H4.
    + destruct (parts_unique _ _ _ _ _ _ H1 Ht H2 He E2) as (-> & -> & ->). exfalso. apply H4. destruct (trim_facts _ _ _ _ _ Hc H3) as (_ & _ & _ & Q & _). apply Q. exact HW.
  - inversion H' as [w2 t2 p3 q2 H1 H2|w2 t2 e2 s2 p3 H1 H2 H3 H4 E1 E2|w2 t2 p3 q2 e2 s2 p4 H1 H2 H3 H4 H5 E1 E2]; subst.
    + exfalso. eapply (simple_alone (t ++ e ++ s)); eauto.
    + destruct (parts_unique _ _ _ _ _ _ H1 Ht H2 He E2) as (-> & -> & ->). exfalso. apply Hq. destruct (trim_facts _ _ _ _ _ Hc HT) as (_ & _ & _ & Q & _). apply Q. exact H3.
    + destruct (parts_unique _ _ _ _ _ _ H1 Ht H2 He E2) as (-> & -> & ->). destruct (trim_unique _ _ _ _ _ _ _ Hc HT H3) as [<- _]. f_equal. f_equal. apply (mute_unique s); auto.
Qed.

Lemma tint_one c w s : Reachable c -> Styled s -> 0 <= w -> exists p, Tint c w s p /\ forall p', Tint c w s p' -> p = p'.
Proof. intros Hc Hs Hw. destruct (tint_total c s Hc Hs w Hw) as (p & H). exists p. split; [exact H|]. apply (tint_unique c w s p Hc H). Qed.
Lemma tint_fits c w s p : Reachable c -> Tint c w s p -> Styled p /\ 0 <= rawWidth c p <= w /\ (w < 65536 -> vwidth c p <= w) /\
  (p = s <-> rawWidth c s <= w) /\ (w < rawWidth c s -> w - 1 <= rawWidth c p).
Proof.
  intros Hc H. destruct (tint_shown c w s p Hc H) as (_ & S2 & L & F1 & F2 & _). pose proof (styled_nonneg c p Hc S2). split; [exact S2|]. split; [lia|].
  split; [intros Hw; unfold vwidth, u16; rewrite Z.mod_small; lia|]. split; [|exact F2]. split; [intros ->; exact L|exact F1].
Qed.
Lemma tint_drawn c w s p : Reachable c -> Tint c w s p -> forall x st, exists more,
  paint c (mkT Ground x st) s = paint c (mkT Ground x st) p ++ more.
Proof. intros Hc H x st. destruct (tint_shown c w s p Hc H) as (_ & _ & _ & _ & _ & st' & K). apply (K x st). Qed.
Lemma tint_after c w s p : Reachable c -> Tint c w s p ->
  (forall x st, tStyle (show c (mkT Ground x st) p) = tStyle (show c (mkT Ground x st) s) /\ tMode (show c (mkT Ground x st) p) = Ground) /\ (Closed c s -> Closed c p).
Proof.
  intros Hc H. destruct (tint_shown c w s p Hc H) as (_ & S2 & _ & _ & _ & st' & K).
  assert (G : forall x st, tStyle (show c (mkT Ground x st) p) = tStyle (show c (mkT Ground x st) s) /\ tMode (show c (mkT Ground x st) p) = Ground).
  { intros x st. destruct (K x st) as ((x1 & ->) & (x2 & ->) & _). split; reflexivity. }
  split; [exact G|]. intros (_ & _ & C). destruct (G 0 []) as [G1 G2]. split; [apply styled_valid, S2|]. split; [exact G2|]. unfold home in *. rewrite G1. exact C.
Qed.
