(** * MarkProofs: marks do not change the width of a text. *)
From Coq Require Import ZifyBool ZifyNat.
From Verif Require Import GoBase Utf8 Utf8Spec Utf8Proofs Utf8Theory Uniseg GraphemeSpec UnisegProofs TextSpec Runewidth ConditionSpec StringWidthProofs LawsProofs LawsTheory
  Width WidthProofs WidthTheory TerminalSpec TerminalProofs MarkSpec.
Local Open Scope Z_scope.

Definition solid (g : gcb) : bool := negb (is_control g).
Lemma mark_solid r : Mark r -> solid (class r) = true.
Proof. intros [-> | ->]; reflexivity. Qed.
Lemma mark_joins g before r : solid g = true -> Mark r -> breaks (g :: before) (class r) = false.
Proof. intros Hg [-> | ->]; destruct g; try discriminate; reflexivity. Qed.
(** After a mark, or after anything else but a control character, the same
    runes start a cluster that no mark can. *)
Lemma mark_breaks g before m before' b : solid g = true -> Mark m -> breaks (g :: before) b = true -> breaks (class m :: before') b = true.
Proof. intros Hg [-> | ->] K; destruct g; try discriminate; destruct b; try discriminate; reflexivity. Qed.

Lemma run_marks c ms : WidthOK c -> Forall Mark ms -> forall g before w v, solid g = true -> v = true \/ Forall (fun r => RuneWidth c r = 0) ms ->
  fst (run c (g :: before) (w, v) ms) = w.
Proof.
  intros HO HF. induction HF as [|m ms Hm HF IH]; intros g before w v Hg HV; [reflexivity|]. cbn [run]. rewrite mark_joins by assumption. cbn [vstep].
  destruct HV as [->|HZ].
  - cbn [orb]. apply IH; [apply mark_solid, Hm|left; reflexivity].
  - inversion HZ as [|? ? Hz HZ']; subst. rewrite Hz. replace (if v then w else w + 0) with w by (destruct v; lia). apply IH; [apply mark_solid, Hm|right; exact HZ'].
Qed.
Lemma seg_some l : forall before cur, seg before cur l <> [].
Proof. induction l as [|r l IH]; intros before cur; cbn [seg]; [discriminate|]. destruct (breaks before (class r)); [discriminate|apply IH]. Qed.
Lemma seg_visible c l : WidthOK c -> forall before cur w pre lastc, seg before cur l = pre ++ [lastc] ->
  snd (run c before (w, cluster_width c cur >? 0) l) = (cluster_width c lastc >? 0).
Proof.
  intros HO. induction l as [|r l IH]; intros before cur w pre lastc HS; cbn [seg run] in *.
  - destruct pre as [|x pre]; [injection HS as <-; reflexivity|]. destruct pre; discriminate.
  - destruct (breaks before (class r)); cbn [vstep].
    + destruct pre as [|x pre]; cbn [app] in HS.
      * injection HS as _ HS. exfalso. exact (seg_some _ _ _ HS).
      * injection HS as _ HS. specialize (IH (class r :: before) [r] (w + RuneWidth c r) pre lastc HS).
        replace (cluster_width c [r]) with (RuneWidth c r) in IH; [exact IH|]. pose proof (cluster_snoc c [] r HO) as K. cbn [app] in K. rewrite K. reflexivity.
    + specialize (IH (class r :: before) (cur ++ [r]) (if cluster_width c cur >? 0 then w else w + RuneWidth c r) pre lastc HS). rewrite <- IH. f_equal. f_equal. f_equal.
      rewrite cluster_snoc by exact HO. destruct (Z.gtb_spec (cluster_width c cur) 0) as [K|K]; cbn [orb]; [|reflexivity]. destruct (Z.gtb_spec (cluster_width c cur) 0); [reflexivity|lia].
Qed.
Lemma cluster_pos c l r : WidthOK c -> In r l -> 0 < RuneWidth c r -> 0 < cluster_width c l.
Proof.
  intros HO Hin Hr. induction l as [|x l IH] using rev_ind; [destruct Hin|]. rewrite cluster_snoc by exact HO. destruct (Z.gtb_spec (cluster_width c l) 0) as [K|K]; [exact K|].
  apply in_app_or in Hin. destruct Hin as [Hin|[->|[]]]; [specialize (IH Hin); lia|exact Hr].
Qed.
Lemma visible_run c l cl lastc r : WidthOK c -> IsSegmentation l (cl ++ [lastc]) -> In r lastc -> 0 < RuneWidth c r -> snd (run c [] (0, false) l) = true.
Proof.
  intros HO HS Hin Hr. pose proof (IsSegmentation_unique _ _ _ HS (segments_IsSegmentation l)) as E. destruct l as [|x l]; [destruct cl; discriminate|].
  cbn [segments] in E. cbn [run]. change (breaks [] (class x)) with true. cbn [vstep].
  pose proof (seg_visible c l HO [class x] [x] (0 + RuneWidth c x) cl lastc (eq_sym E)) as K.
  replace (cluster_width c [x]) with (RuneWidth c x) in K by (pose proof (cluster_snoc c [] x HO) as K2; cbn [app] in K2; rewrite K2; reflexivity).
  rewrite K. pose proof (cluster_pos c lastc r HO Hin Hr). destruct (Z.gtb_spec (cluster_width c lastc) 0); [reflexivity|lia].
Qed.
Lemma swidth_marks c pre x ms : WidthOK c -> solid (class x) = true -> Forall Mark ms ->
  snd (run c [] (0, false) (pre ++ [x])) = true \/ Forall (fun r => RuneWidth c r = 0) ms -> swidth c ((pre ++ [x]) ++ ms) = swidth c (pre ++ [x]).
Proof.
  intros HO Hx HM HV. rewrite !swidth_run, run_app by exact HO. destruct (run c [] (0, false) (pre ++ [x])) as [w v] eqn:E. cbn [fst snd] in *.
  rewrite map_app, rev_app_distr. cbn [map rev app]. apply run_marks; assumption.
Qed.

Lemma runes_encoded ms m : EncodesText ms m -> runes m = ms /\ StartsRune m.
Proof. intros HE. split; [apply text_decode in HE; apply HE|exact (text_starts _ _ HE)]. Qed.
Lemma starts_app a b : StartsRune a -> StartsRune b -> StartsRune (a ++ b).
Proof. destruct a; [auto|]. auto. Qed.
Lemma marked_runes c s s' : Marked c s s' -> exists la ms lb pre x, runes s = la ++ lb /\ runes s' = la ++ ms ++ lb /\ la = pre ++ [x] /\ solid (class x) = true /\ Forall Mark ms /\
  (forall r post, lb = r :: post -> breaks (rev (map class la)) (class r) = true) /\
  (Forall (fun r => RuneWidth c r = 0) ms \/ exists cl lastc r, IsSegmentation la (cl ++ [lastc]) /\ In r lastc /\ 0 < RuneWidth c r).
Proof.
  intros [a ms m b HE HM HB (pre & x & Hp & Hx) HW HV]. destruct (runes_encoded _ _ HE) as [Er Es]. exists (runes a), ms, (runes b), pre, x.
  rewrite !runes_app, Er by (try apply starts_app; assumption). unfold solid. rewrite Hx. repeat (split; [auto; fail|]). exact HV.
Qed.
Lemma marked_width c s s' : Reachable c -> Marked c s s' -> StringWidth c s' = StringWidth c s.
Proof.
  intros Hc HM. pose proof (Reachable_OK c Hc) as HO. destruct (marked_runes c s s' HM) as (la & ms & lb & pre & x & E1 & E2 & -> & Hx & HF & HB & HV).
  rewrite !StringWidth_swidth, E1, E2. assert (KA : swidth c ((pre ++ [x]) ++ ms) = swidth c (pre ++ [x])).
  { apply swidth_marks; auto. destruct HV as [HZ|(cl & lastc & r & H1 & H2 & H3)]; [right; exact HZ|left]. exact (visible_run c _ cl lastc r HO H1 H2 H3). }
  destruct lb as [|r post]; [rewrite !app_nil_r; exact KA|]. rewrite app_assoc, (swidth_app c (pre ++ [x]) r post) by (apply HB with post; reflexivity). rewrite (swidth_app c ((pre ++ [x]) ++ ms) r post), KA; [reflexivity|].
  specialize (HB r post eq_refl). destruct ms as [|m ms _] using rev_ind; [rewrite app_nil_r; exact HB|]. rewrite app_assoc, map_app, rev_app_distr. cbn [map rev app].
  rewrite map_app, rev_app_distr in HB. cbn [map rev app] in HB. apply Forall_app in HF. destruct HF as [_ HF]. inversion HF; subst. eapply mark_breaks; eauto.
Qed.
Lemma mark_no_intro r : Mark r -> ~ Introducer r.
Proof. intros HM HI. apply class_intro in HI. destruct HM; congruence. Qed.
Lemma raw_no_intro c s : Forall (fun r => ~ Introducer r) (runes s) -> rawWidth c s = StringWidth c s.
Proof. intros K. unfold rawWidth. rewrite count_no_intro by exact K. lia. Qed.
Lemma marked_visual c s s' : Reachable c -> Forall (fun r => ~ Introducer r) (runes s) -> Marked c s s' -> rawWidth c s' = rawWidth c s /\ vwidth c s' = vwidth c s.
Proof.
  intros Hc HI HM. assert (K : rawWidth c s' = rawWidth c s).
  { rewrite !raw_no_intro; [apply marked_width; assumption|exact HI|]. destruct (marked_runes c s s' HM) as (la & ms & lb & pre & x & E1 & E2 & _ & _ & HF & _).
    rewrite E1 in HI. rewrite E2. apply Forall_app in HI. destruct HI. apply Forall_app. split; [assumption|]. apply Forall_app. split; [|assumption].
    eapply Forall_impl; [|exact HF]. exact mark_no_intro. }
  split; [exact K|]. unfold vwidth. rewrite K. reflexivity.
Qed.
Lemma decorated_width c s s' : Reachable c -> Decorated c s s' -> vwidth c s' = vwidth c s.
Proof.
  intros Hc HD. induction HD as [s|s s' u HI HM _ IH|s s' u HI HM _ IH|on off s u H1 H2 H3 _ IH|on off s u H1 H2 H3 _ IH].
  - reflexivity.
  - rewrite IH. apply (marked_visual c s s'); assumption.
  - rewrite IH. symmetry. apply (marked_visual c s' s); assumption.
  - rewrite IH. apply wrap_in_colour; assumption.
  - rewrite IH. symmetry. apply wrap_in_colour; assumption.
Qed.

(** ** Characters with marks *)
Lemma stands_solid r : Stands r -> solid (class r) = true.
Proof. intros [-> |[-> |[-> | ->]]]; reflexivity. Qed.
Lemma end_breaks pre x ms b before : Stands x -> Forall Mark ms -> Stands b -> breaks (rev (map class (pre ++ x :: ms)) ++ before) (class b) = true.
Proof.
  intros Hx HM Hb. rewrite map_app, rev_app_distr. destruct ms as [|m ms _] using rev_ind.
  - cbn [map rev app]. apply breaks_stands; assumption.
  - cbn [map rev]. rewrite map_app, rev_app_distr. cbn [map rev app]. apply Forall_app in HM. destruct HM as [_ HM]. inversion HM as [|? ? HMm _]; subst.
    destruct HMm as [-> | ->]; destruct Hb as [-> |[-> |[-> | ->]]]; reflexivity.
Qed.
Lemma swidth_pieces c ps : Reachable c -> Forall (fun p => Stands (fst p) /\ 0 < RuneWidth c (fst p) /\ Forall Mark (snd p)) ps ->
  swidth c (concat (map spelled ps)) = zsum (map (fun p => RuneWidth c (fst p)) ps).
Proof.
  intros Hc HF. pose proof (Reachable_OK c Hc) as HO.
  assert (ONE : forall p, Stands (fst p) /\ 0 < RuneWidth c (fst p) /\ Forall Mark (snd p) -> swidth c (spelled p) = RuneWidth c (fst p)).
  { intros [x ms] (Hx & Hw & HM). cbn [fst snd spelled] in *. transitivity (swidth c ([] ++ [x])); [|apply swidth_single, HO]. apply (swidth_marks c [] x ms).
    - exact HO.
    - apply stands_solid, Hx.
    - exact HM.
    - left. cbn. destruct (Z.gtb_spec (RuneWidth c x) 0); [reflexivity|lia]. }
  induction ps as [|p ps IH] using rev_ind; [reflexivity|]. apply Forall_app in HF. destruct HF as [HF Hp]. inversion Hp as [|? ? Hp' _]; subst.
  rewrite !map_app, concat_app, zsum_app. cbn [map concat]. rewrite app_nil_r. change (zsum [RuneWidth c (fst p)]) with (RuneWidth c (fst p) + 0).
  rewrite <- (IH HF), Z.add_0_r, <- (ONE p Hp'). unfold spelled at 2 3. apply swidth_app.
  destruct ps as [|q ps _] using rev_ind; [reflexivity|]. apply Forall_app in HF. destruct HF as [_ Hq]. inversion Hq as [|? ? Hq' _]; subst.
  rewrite map_app, concat_app. cbn [map concat]. rewrite app_nil_r. rewrite <- (app_nil_r (rev _)). apply end_breaks; [apply Hq'|apply Hq'|apply Hp'].
Qed.
Lemma pieces_width c ps s : Reachable c -> Forall (fun p => Stands (fst p) /\ 0 < RuneWidth c (fst p) /\ Forall Mark (snd p)) ps ->
  EncodesText (concat (map spelled ps)) s -> rawWidth c s = zsum (map (fun p => RuneWidth c (fst p)) ps).
Proof.
  intros Hc HF HE. apply runes_encoded in HE. destruct HE as [HE _]. rewrite raw_no_intro.
  - rewrite StringWidth_swidth, HE. apply swidth_pieces; assumption.
  - rewrite HE. apply Forall_concat, Forall_map. eapply Forall_impl; [|exact HF]. intros [x ms] (Hx & _ & HM). constructor.
    + intros HI. apply class_intro in HI. cbn in HI. destruct Hx as [K|[K|[K|K]]]; cbn in K; congruence.
    + eapply Forall_impl; [|exact HM]. exact mark_no_intro.
Qed.
