(** * SwapMerge: merging while the table's parts are replaced. *)
From Coq Require Import ZifyBool ZifyNat.
From Verif Require Import GoBase Runewidth Width CacheProofs Table Merge TableContract MergeSpec MergeLayout Calls CallsSpec Live LiveSpec LiveProofs Swap SwapSpec SwapProofs.
Local Open Scope Z_scope.

Section Merging.
Context {Item Val E G L W : Type} (env : objects Item Val E G L W).
Notation smem := (smem G L).
Notation lmem := (lmem G L).
Notation sevent := (sevent Item Val E G L).
Notation call := (call Item Val G L).
Notation sprog := (sprog Item Val E G L).
Notation lprog := (lprog Item Val E G L).
Notation res := (outcome Empty_set).

(** ** What is called *)
Definition okc (P : call -> Prop) (x : sevent) : Prop := match sAct x with SCalled q _ => P q | _ => True end.
Definition Fine {A} (P : call -> Prop) (p : sprog A) : Prop :=
  forall w m w' m' r tr, srun env p w m = (w', m', r, tr) -> Forall (okc P) tr.
Lemma fine_ret {A} P (a : A) : Fine P (SRet a).
Proof. intros w m w' m' r tr e. cbn in e. injection e as _ _ _ <-. constructor. Qed.
Lemma fine_bind {A B} P (p : sprog A) (f : A -> sprog B) : Fine P p -> (forall a, Fine P (f a)) -> Fine P (sbind p f).
Proof.
  intros T1 T2 w m w' m' r tr e. apply srun_bind_inv in e. destruct e as (w1 & m1 & a & t1 & t2 & e1 & e2 & ->).
  apply Forall_app. split; [exact (T1 _ _ _ _ _ _ e1)|exact (T2 _ _ _ _ _ _ _ e2)].
Qed.
Lemma fine_obind {X A B} P (p : sprog (outcome X A)) (f : A -> sprog (outcome X B)) : Fine P p -> (forall a, Fine P (f a)) -> Fine P (sobind p f).
Proof. intros T1 T2. apply fine_bind; [exact T1|]. intros [a|e|q]; [apply T2|apply fine_ret|apply fine_ret]. Qed.
Lemma fine_see {A} P (k : smem -> sprog A) : (forall m, Fine P (k m)) -> Fine P (SSee k).
Proof. intros T w m w' m' r tr e. exact (T m w m w' m' r tr e). Qed.
Lemma fine_look {A} P name (k : Z -> sprog A) : (forall v, Fine P (k v)) -> Fine P (SLook name k).
Proof.
  intros T w m w' m' r tr e. cbn [srun] in e. cbv zeta in e. destruct (srun env (k _) w m) as [[[w2 m2] b] t2] eqn:K. injection e as <- <- <- <-.
  constructor; [exact Logic.I|exact (T _ _ _ _ _ _ _ K)].
Qed.
Lemma fine_ask {A} (P : call -> Prop) q (k : lanswer q -> sprog A) : P q -> (forall a, Fine P (k a)) -> Fine P (SAsk q k).
Proof.
  intros HP T w m w' m' r tr e. apply srun_ask in e. destruct e as (w1 & m1 & a & t & _ & e & ->). constructor; [exact HP|exact (T _ _ _ _ _ _ _ e)].
Qed.
Lemma fine_field {X A} P p (f : kcol G L -> sprog (outcome X A)) : (forall k, Fine P (f k)) -> Fine P (sfield p f).
Proof. intros T. apply fine_see. intros m. destruct (sderef m p); [apply T|apply fine_ret]. Qed.
Lemma fine_columns {X A} P (f : header -> sprog (outcome X A)) : (forall h, Fine P (f h)) -> Fine P (scolumns f).
Proof. intros T. apply fine_see. intros m. destruct (slice m); [apply T|apply fine_ret]. Qed.
Lemma fine_map {X A B} P (f : A -> sprog (outcome X B)) l : (forall a, Fine P (f a)) -> Fine P (slmap f l).
Proof.
  intros T. induction l as [|a l IH]; cbn [slmap]; [apply fine_ret|]. apply fine_obind; [apply T|]. intros b. apply fine_obind; [exact IH|]. intros. apply fine_ret.
Qed.

(** Alignments and rows only. *)
Definition inLine (q : call) : Prop := match q with CGet _ | CAlign _ _ _ => True | _ => False end.
Definition noWrite (q : call) : Prop := match q with CWrite _ => False | _ => True end.
Definition noGet (q : call) : Prop := match q with CGet _ => False | _ => True end.
Lemma fine_weak {A} (P Q : call -> Prop) (p : sprog A) : (forall q, P q -> Q q) -> Fine P p -> Fine Q p.
Proof.
  intros HPQ T w m w' m' r tr e. eapply Forall_impl; [|exact (T _ _ _ _ _ _ e)]. intros x. unfold okc. destruct (sAct x); auto.
Qed.
Lemma fine_tableWidth {X} P cols : forall width, Fine P (tableWidthS (X := X) cols width).
Proof. induction cols as [|[col|] cols IH]; intros width; cbn [tableWidthS]; [apply fine_ret| |apply fine_ret]. apply fine_look. intros v. apply IH. Qed.
Lemma fine_groupCount P cols maxWidth sep : Fine P (groupCountS cols maxWidth sep).
Proof.
  unfold groupCountS. cbv zeta. apply fine_obind; [apply fine_tableWidth|]. intros tw. destruct (_ =? 0); [apply fine_ret|]. apply fine_ret.
Qed.
Lemma fine_getWidth P colN found j k : Fine P (getWidthS colN found j k).
Proof.
  unfold getWidthS. destruct found; [apply fine_ret|]. apply fine_see. intros m. apply fine_columns. intros h. destruct (negb _); [apply fine_ret|].
  apply fine_field. intros col. apply fine_look. intros v. apply fine_ret.
Qed.
Lemma fine_cells c colN found h item k js : forall done, Fine (fun q => inLine q /\ noGet q) (cellsS c colN found h js item k done).
Proof.
  induction js as [|j js IH]; intros done; cbn [cellsS]; [apply fine_ret|]. apply fine_see. intros m. apply fine_field. intros col.
  destruct (negb _); [apply fine_ret|]. cbv zeta. apply fine_obind; [apply fine_getWidth|]. intros v. apply fine_obind.
  - destruct (kAlign col) as [al|]; [unfold sask; apply fine_ask; [split; exact Logic.I|]; intros; apply fine_ret|apply fine_ret].
  - intros s. destruct (negb _); [apply fine_ret|apply IH].
Qed.
Lemma fine_render c colN found i k : Fine inLine (renderS c colN found i k).
Proof.
  unfold renderS. apply fine_obind; [unfold sask; apply fine_ask; [exact Logic.I|]; intros; apply fine_ret|]. intros item. apply fine_columns. intros h.
  apply fine_obind; [eapply fine_weak; [|apply fine_cells]; intros q [K _]; exact K|]. intros. apply fine_ret.
Qed.
Lemma fine_groups itemN P render gs : (forall i k, Fine inLine (render i k)) -> Fine inLine (groupsS itemN P render gs).
Proof.
  intros T. induction gs as [|g gs IH]; cbn [groupsS]; [apply fine_ret|]. destruct (_ >=? _); [apply fine_ret|].
  apply fine_obind; [apply T|]. intros b. apply fine_obind; [exact IH|]. intros. apply fine_ret.
Qed.
Lemma fine_maxCell c colI idxs : forall mw, Fine noWrite (maxCellS c colI idxs mw).
Proof.
  induction idxs as [|i idxs IH]; intros mw; cbn [maxCellS]; [apply fine_ret|].
  apply fine_obind; [unfold sask; apply fine_ask; [exact Logic.I|]; intros; apply fine_ret|]. intros item. apply fine_see. intros m.
  apply fine_obind; [apply fine_ret|]. intros txt. apply IH.
Qed.
Lemma fine_widths c colN idxs gc : Fine noWrite (widthsS c colN idxs gc).
Proof.
  unfold widthsS. apply fine_obind; [|intros; apply fine_ret]. apply fine_map. intros g. apply fine_map. intros i. apply fine_maxCell.
Qed.
Lemma fine_merged m c gc : Fine noWrite (mergedS m c gc).
Proof.
  unfold mergedS. apply fine_obind; [unfold sask; apply fine_ask; [exact Logic.I|]; intros; apply fine_ret|]. intros itemN. apply fine_columns. intros h.
  cbv zeta. destruct m.
  - apply fine_obind; [apply fine_widths|]. intros. apply fine_ret.
  - destruct (_ =? 0); [apply fine_ret|]. destruct (_ >? _); [apply fine_ret|]. apply fine_obind; [apply fine_widths|]. intros. apply fine_ret.
Qed.
Lemma fine_calc fuel m c colN maxWidth margin g0 : forall extra cw, Fine noWrite (calcS fuel m c colN maxWidth margin g0 extra cw).
Proof.
  induction fuel as [|fuel IH]; intros extra cw; cbn [calcS]; [apply fine_ret|]. cbv zeta. apply fine_bind; [apply fine_merged|].
  intros [[l|]|e|p]; try apply fine_ret. destruct (_ >? _); [apply fine_ret|apply IH].
Qed.

(** ** Without a spec *)
Section Gone.
Hypothesis SG : StaysGone env.
Lemma gone_run {A} (p : sprog A) : forall w m w' m' r tr, gone m = true -> srun env p w m = (w', m', r, tr) -> gone m' = true.
Proof.
  induction p as [x|q k IH|k IH|name k IH|cw name v p IH1 bad IH2|a i s p IH]; intros w m w' m' r tr Hg e.
  - cbn in e. injection e as <- <- <- <-. exact Hg.
  - apply srun_ask in e. destruct e as (w1 & m1 & b & t & e1 & e2 & ->). apply (IH b w1 m1 w' m' r t); [|exact e2].
    specialize (SG q w m Hg). rewrite e1 in SG. exact SG.
  - exact (IH m w m w' m' r tr Hg e).
  - cbn [srun] in e. cbv zeta in e. destruct (srun env (k _) w m) as [[[w2 m2] b] t2] eqn:K. injection e as <- <- <- <-. exact (IH _ _ _ _ _ _ _ Hg K).
  - apply srun_raise in e. destruct e as [(m1 & t & e & -> & Hm)|(_ & _ & e)]; [|exact (IH2 _ _ _ _ _ _ Hg e)].
    apply (IH1 w m1 w' m' r t); [|exact e]. destruct Hm as [[-> _]|(b & _ & -> & _)]; exact Hg.
  - cbn [srun] in e. cbv zeta in e. destruct (srun env p w _) as [[[w2 m2] b] t2] eqn:K. injection e as <- <- <- <-. refine (IH _ _ _ _ _ _ _ K). exact Hg.
Qed.

Lemma render_gone c colN found i k w m w' m' r tr : gone m = true -> srun env (renderS c colN found i k) w m = (w', m', r, tr) -> exists p, r = Panic p.
Proof.
  intros Hg e. unfold renderS in e. apply srun_obind in e. destruct e as [(w1 & m1 & item & t1 & t2 & e1 & e2 & ->)|(o & e & Ho)].
  - pose proof (gone_run _ _ _ _ _ _ _ Hg e1) as H1. unfold scolumns in e2. cbn [srun] in e2. unfold slice in e2. unfold gone in H1.
    destruct (sSpec m1); [discriminate|]. cbn in e2. injection e2 as _ _ <- _. eauto.
  - destruct o as [a|[]|p]; [destruct Ho|]. eauto.
Qed.
Lemma line_gone itemN P render gs : (forall i k w m w' m' r tr, gone m = true -> srun env (render i k) w m = (w', m', r, tr) -> exists p, r = Panic p) ->
  match gs with [] => False | g :: _ => P g < itemN end -> forall w m w' m' r tr, gone m = true ->
  srun env (groupsS itemN P render gs) w m = (w', m', r, tr) -> exists p, r = Panic p.
Proof.
  intros HR. destruct gs as [|g gs]; [intros []|]. intros Hp w m w' m' r tr Hg e. cbn [groupsS] in e.
  replace (P g >=? itemN) with false in e by lia. apply srun_obind in e. destruct e as [(w1 & m1 & b & t1 & t2 & e1 & _)|(o & e & Ho)].
  - destruct (HR _ _ _ _ _ _ _ _ Hg e1) as (p & K). discriminate.
  - destruct o as [a|[]|p]; [destruct Ho|]. eauto.
Qed.

Lemma written_app (t1 t2 : list sevent) : written_gone (t1 ++ t2) = (written_gone t1 + written_gone t2)%nat.
Proof. unfold written_gone. rewrite filter_app, app_length. reflexivity. Qed.
Lemma written_cons (x : sevent) t : written_gone (x :: t) = ((if isWrite x && gone (sBefore x) then 1 else 0) + written_gone t)%nat.
Proof. unfold written_gone. cbn [filter]. destruct (isWrite x && gone (sBefore x)); reflexivity. Qed.
Lemma written_none (tr : list sevent) : Forall (okc noWrite) tr -> written_gone tr = 0%nat.
Proof.
  unfold written_gone. induction 1 as [|x tr Hx _ IH]; [reflexivity|]. cbn [filter].
  assert (isWrite x = false) as ->; [|exact IH]. unfold isWrite, okc in *. destruct (sAct x) as [[]| | |]; cbn in Hx; try reflexivity. destruct Hx.
Qed.
Lemma inLine_noWrite q : inLine q -> noWrite q.
Proof. destruct q; cbn; auto. Qed.

Lemma lines_gone (line : Z -> sprog (res str)) : (forall l, Fine inLine (line l)) -> forall ls,
  (forall l, In l ls -> (forall l', In l' ls -> l' = l) \/ forall w m w' m' r tr, gone m = true -> srun env (line l) w m = (w', m', r, tr) -> exists p, r = Panic p) -> NoDup ls ->
  forall w m w' m' r tr, srun env (linesS line ls) w m = (w', m', r, tr) ->
  (written_gone tr <= 1)%nat /\ (gone m = true -> (length ls <> 1)%nat -> written_gone tr = 0%nat).
Proof.
  intros HF. induction ls as [|l ls IH]; intros HS ND w m w' m' r tr e.
  - cbn in e. injection e as _ _ _ <-. cbn. lia.
  - cbn [linesS] in e. inversion ND as [|? ? Hl ND']; subst.
    assert (NW : forall w m w' m' r tr, srun env (line l) w m = (w', m', r, tr) -> written_gone tr = 0%nat).
    { intros. apply written_none. eapply (fine_weak inLine noWrite); [exact inLine_noWrite|apply HF|eassumption]. }
    apply srun_obind in e. destruct e as [(w1 & m1 & txt & t1 & t2 & e1 & e2 & ->)|(o & e & _)]; [|rewrite (NW _ _ _ _ _ _ e); lia].
    apply srun_ask in e2. destruct e2 as (w2 & m2 & o & t & E2 & e2 & ->).
    rewrite written_app, (NW _ _ _ _ _ _ e1), written_cons. cbn [isWrite sAct sBefore andb].
    destruct (gone m1) eqn:G1; cbn [Nat.add].
    + (* the line was completed without a spec *)
      assert (G2 : gone m2 = true). { specialize (SG (CWrite (txt ++ [x0a])) w1 m1 G1). rewrite E2 in SG. exact SG. }
      assert (Wt : written_gone t = 0%nat).
      { destruct o as [u|x|p]; [|cbn in e2; injection e2 as _ _ _ <-; reflexivity|cbn in e2; injection e2 as _ _ _ <-; reflexivity].
        destruct ls as [|l2 ls].
        - cbn in e2. injection e2 as _ _ _ <-. reflexivity.
        - cbn [linesS] in e2. apply srun_obind in e2. destruct e2 as [(w3 & m3 & txt2 & t3 & t4 & e3 & _)|(o2 & e3 & _)].
          + destruct (HS l2) as [K|K]; [right; left; reflexivity| |].
            * exfalso. apply Hl. rewrite (K l) by (left; reflexivity). left. reflexivity.
            * destruct (K _ _ _ _ _ _ G2 e3) as (p & Kp). discriminate.
          + apply written_none. eapply (fine_weak inLine noWrite); [exact inLine_noWrite|apply HF|exact e3]. }
      split; [cbn; lia|]. intros Hm Hlen. destruct (HS l) as [K|K]; [left; reflexivity| |].
      * exfalso. destruct ls as [|l2 ls]; [cbn in Hlen; lia|]. apply Hl. rewrite (K l2) by (right; left; reflexivity). left. reflexivity.
      * destruct (K _ _ _ _ _ _ Hm e1) as (p & Kp). discriminate.
    + assert (Wt : (written_gone t <= 1)%nat).
      { destruct o as [u|x|p]; [|cbn in e2; injection e2 as _ _ _ <-; cbn; lia|cbn in e2; injection e2 as _ _ _ <-; cbn; lia].
        apply (IH) in e2; [apply e2| |exact ND']. intros l2 Hl2. destruct (HS l2) as [K|K]; [right; exact Hl2| |right; exact K].
        exfalso. apply Hl. rewrite (K l) by (left; reflexivity). exact Hl2. }
      split; [exact Wt|]. intros Hm _. exfalso.
      pose proof (gone_run _ _ _ _ _ _ _ Hm e1). congruence.
Qed.

Lemma emit_gone md c colN sep gc found w m w' m' r tr : 1 <= gc -> srun env (emitS md c colN sep gc found) w m = (w', m', r, tr) -> (written_gone tr <= 1)%nat.
Proof.
  intros Hgc e. unfold emitS in e. apply srun_obind in e. destruct e as [(w1 & m1 & itemN & t1 & t2 & e1 & e2 & ->)|(o & e & _)].
  - asked e1. rewrite written_app. cbv zeta in e2. change (written_gone [_]) with 0%nat. apply lines_gone in e2; [apply e2| | |].
    + intros l. apply fine_obind; [|intros; apply fine_ret]. apply fine_groups. intros. apply fine_render.
    + intros l Hl. apply in_map_iff in Hl. destruct Hl as (n & <- & Hn). apply in_seq in Hn.
      destruct (Z_le_gt_dec itemN 0) as [Hi|Hi].
      * left. intros l' Hl'. apply in_map_iff in Hl'. destruct Hl' as (n' & <- & Hn'). apply in_seq in Hn'.
        assert (lineCountOf itemN gc <= 1); [|lia].
        unfold lineCountOf in *. pose proof (Z.quot_le_mono (itemN - 1) 0 gc ltac:(lia) ltac:(lia)). rewrite Z.quot_0_l in H by lia. lia.
      * right. intros u n0 u' n1 x tr1 Hg ex. apply srun_obind in ex. destruct ex as [(w3 & m3 & bs & t3 & t4 & e3 & _)|(o & e3 & Ho)].
        -- apply line_gone in e3; [destruct e3; discriminate| | |exact Hg].
           ++ intros. eapply render_gone; eauto.
           ++ unfold zrange. replace (Z.to_nat gc) with (S (Z.to_nat (gc - 1))) by lia. cbn [seq map].
              unfold lineCountOf in Hn. rewrite Z.quot_div_nonneg in Hn by lia.
              pose proof (Z.div_mod (itemN - 1) gc ltac:(lia)). pose proof (Z.mod_pos_bound (itemN - 1) gc ltac:(lia)).
              pose proof (Z.div_pos (itemN - 1) gc ltac:(lia) ltac:(lia)).
              assert (Z.of_nat n <= (itemN - 1) / gc) by lia.
              destruct md; unfold place; unfold lineCountOf; rewrite ?Z.quot_div_nonneg by lia.
              ** nia.
              ** nia.
        -- destruct o as [a|[]|p]; [destruct Ho|]. eauto.
    + unfold zrange. apply FinFun.Injective_map_NoDup; [|apply seq_NoDup]. intros a b K. lia.
  - asked e. cbn. lia.
Qed.

Lemma groupCount_pos cols maxWidth sep w m w' m' gc tr : srun env (groupCountS cols maxWidth sep) w m = (w', m', Ok gc, tr) -> 1 <= gc.
Proof.
  intros e. unfold groupCountS in e. cbv zeta in e. apply srun_obind_ok in e. destruct e as (w1 & m1 & tw & t1 & t2 & _ & e & _).
  destruct (_ =? 0); [cbn in e; discriminate|]. cbn [srun] in e.
  destruct (Z.ltb_spec (u16 (clampWidth maxWidth + u16 (slen sep)) / u16 (tw + u16 (slen sep))) 1); injection e as _ _ <- _; lia.
Qed.
Lemma calc_extra fuel md c colN maxWidth margin g0 : forall extra cw w m w' m' x l tr,
  srun env (calcS fuel md c colN maxWidth margin g0 extra cw) w m = (w', m', Some (Ok (x, l)), tr) -> extra <= x.
Proof.
  induction fuel as [|fuel IH]; intros extra cw w m w' m' x l tr e; cbn [calcS] in e; [cbn in e; discriminate|]. cbv zeta in e.
  apply srun_bind_inv in e. destruct e as (w1 & m1 & o & t1 & t2 & _ & e & _). destruct o as [[l1|]|e0|p]; cbn [srun] in e; try discriminate.
  - destruct (_ >? _); [cbn in e; injection e as _ _ <- _ _; lia|]. apply IH in e. lia.
  - injection e as _ _ <- _ _. lia.
Qed.

Lemma merge_gone md fuel c maxWidth sep compact w m w' m' r tr : srun env (mergeS md fuel c maxWidth sep compact) w m = (w', m', r, tr) -> (written_gone tr <= 1)%nat.
Proof.
  intros e. unfold mergeS in e. cbn [srun] in e. destruct (slice m) as [h|]; [|cbn in e; injection e as _ _ _ <-; cbn; lia].
  apply srun_bind_inv in e. destruct e as (w1 & m1 & o & t1 & t2 & e1 & e & ->).
  assert (T1 : written_gone t1 = 0%nat) by (apply written_none; eapply (fine_groupCount noWrite); exact e1). rewrite written_app, T1. cbn [Nat.add].
  destruct o as [gc|x|p]; [|cbn in e; injection e as _ _ _ <-; cbn; lia|cbn in e; injection e as _ _ _ <-; cbn; lia].
  apply groupCount_pos in e1. destruct compact.
  - cbn [srun] in e. destruct (slice m1) as [h2|]; [|cbn in e; injection e as _ _ _ <-; cbn; lia].
    apply srun_bind_inv in e. destruct e as (w2 & m2 & o & t3 & t4 & e2 & e & ->).
    assert (T3 : written_gone t3 = 0%nat) by (apply written_none; eapply fine_calc; exact e2). rewrite written_app, T3. cbn [Nat.add].
    destruct o as [[[extra cw]|x|p]|]; try (cbn in e; injection e as _ _ _ <-; cbn; lia).
    apply calc_extra in e2. apply srun_bind_inv in e. destruct e as (w3 & m3 & o & t5 & t6 & e3 & e & ->).
    cbn in e. injection e as _ _ _ <-. rewrite app_nil_r. destruct (extra >? 0); eapply emit_gone; try exact e3; lia.
  - apply srun_bind_inv in e. destruct e as (w3 & m3 & o & t5 & t6 & e3 & e & ->).
    cbn in e. injection e as _ _ _ <-. rewrite app_nil_r. eapply emit_gone; [|exact e3]. lia.
Qed.
End Gone.

(** ** An item handed out without a spec *)
Definition Stops {X A} (p : sprog (outcome X A)) : Prop :=
  forall w m w' m' r tr, srun env p w m = (w', m', r, tr) -> forall pre x post, tr = pre ++ x :: post -> isGet x = true -> gone (sAfter x) = true ->
  post = [] /\ exists q, r = Panic q /\ (forall i row, sAct x = SCalled (CGet i) (Ok row) -> q = NilDereference).
Lemma split_app {A} (t1 t2 pre : list A) x post : t1 ++ t2 = pre ++ x :: post ->
  (exists post', t1 = pre ++ x :: post' /\ post = post' ++ t2) \/ (exists pre', t2 = pre' ++ x :: post /\ pre = t1 ++ pre').
Proof.
  revert pre. induction t1 as [|y t1 IH]; intros pre e.
  - right. exists pre. auto.
  - destruct pre as [|z pre]; cbn in e; injection e as -> e.
    + left. exists t1. subst. auto.
    + destruct (IH pre e) as [(post' & -> & ->)|(pre' & -> & ->)]; [left|right]; eexists; split; reflexivity.
Qed.
Lemma stops_noget {X A} (p : sprog (outcome X A)) : Fine noGet p -> Stops p.
Proof.
  intros F w m w' m' r tr e pre x post -> Hx _. exfalso. specialize (F _ _ _ _ _ _ e). apply Forall_app in F. destruct F as [_ F].
  inversion F as [|? ? K _]; subst. unfold okc, isGet in *. destruct (sAct x) as [[]| | |]; cbn in *; congruence || destruct K.
Qed.
Lemma stops_obind {X A B} (p : sprog (outcome X A)) (f : A -> sprog (outcome X B)) : Stops p -> (forall a, Stops (f a)) -> Stops (sobind p f).
Proof.
  intros S1 S2 w m w' m' r tr e pre x post Et Hx Hg. apply srun_obind in e. destruct e as [(w1 & m1 & a & t1 & t2 & e1 & e2 & ->)|(o & e & Ho)].
  - apply split_app in Et. destruct Et as [(post' & -> & ->)|(pre' & -> & ->)].
    + destruct (S1 _ _ _ _ _ _ e1 _ _ _ eq_refl Hx Hg) as (_ & q & K & _). discriminate.
    + exact (S2 _ _ _ _ _ _ _ e2 _ _ _ eq_refl Hx Hg).
  - destruct (S1 _ _ _ _ _ _ e _ _ _ Et Hx Hg) as (-> & q & -> & K). split; [reflexivity|]. exists q. split; [exact Ho|exact K].
Qed.
Lemma stops_render c colN found i k : Stops (renderS c colN found i k).
Proof.
  intros w m w' m' r tr e pre x post Et Hx Hg. unfold renderS in e. apply srun_obind in e. destruct e as [(w1 & m1 & item & t1 & t2 & e1 & e2 & ->)|(o & e & Ho)].
  - asked e1. destruct pre as [|y pre]; cbn in Et.
    + injection Et as <- ->. cbn [sAfter] in Hg. unfold scolumns in e2. cbn [srun] in e2. unfold slice in e2. unfold gone in Hg.
      destruct (sSpec m1) eqn:K; [discriminate|]. cbn in e2. injection e2 as _ _ <- <-. split; [reflexivity|]. exists NilDereference. auto.
    + injection Et as <- ->. exfalso.
      assert (F : Fine noGet (scolumns (fun h => sobind (cellsS c colN found h (seq 0 (hLen h)) item k []) (fun cells => SRet (Ok (join innerSep cells)))))).
      { apply fine_columns. intros h. apply fine_obind; [eapply fine_weak; [|apply fine_cells]; intros q [_ K]; exact K|]. intros. apply fine_ret. }
      specialize (F _ _ _ _ _ _ e2). apply Forall_app in F. destruct F as [_ F]. inversion F as [|? ? K _]; subst.
      unfold okc, isGet in *. destruct (sAct x) as [[]| | |]; cbn in *; congruence || destruct K.
  - asked e. destruct pre as [|y pre]; [|destruct pre; discriminate]. injection Et as <- <-. split; [reflexivity|].
    destruct o as [a|[]|p]; [destruct Ho|]. exists p. split; [exact Ho|]. cbn. intros j row K.
    apply (f_equal (fun a => match a with SCalled (CGet _) (Ok _) => true | _ => false end)) in K. discriminate K.
Qed.
Lemma stops_groups itemN P render gs : (forall i k, Stops (render i k)) -> Stops (groupsS itemN P render gs).
Proof.
  intros T. induction gs as [|g gs IH]; cbn [groupsS]; [apply stops_noget, fine_ret|]. destruct (_ >=? _); [apply stops_noget, fine_ret|].
  apply stops_obind; [apply T|]. intros b. apply stops_obind; [exact IH|]. intros. apply stops_noget, fine_ret.
Qed.
Lemma stops_lines line ls : (forall l, Stops (line l)) -> Stops (linesS line ls).
Proof.
  intros T. induction ls as [|l ls IH]; cbn [linesS]; [apply stops_noget, fine_ret|]. apply stops_obind; [apply T|]. intros txt.
  intros w m w' m' r tr e pre x post Et Hx Hg. apply srun_ask in e. destruct e as (w1 & m1 & o & t & _ & e & ->).
  destruct pre as [|y pre]; cbn in Et; injection Et as <- ->; [discriminate|].
  destruct o as [u|z|p]; [exact (IH _ _ _ _ _ _ e _ _ _ eq_refl Hx Hg)|..]; cbn in e; injection e as _ _ _ K; destruct pre; discriminate.
Qed.
Lemma stops_emit md c colN sep gc found : Stops (emitS md c colN sep gc found).
Proof.
  unfold emitS. apply stops_obind; [apply stops_noget; unfold sask; apply fine_ask; [exact Logic.I|]; intros; apply fine_ret|]. intros itemN. cbv zeta.
  apply stops_lines. intros l. apply stops_obind; [|intros; apply stops_noget, fine_ret]. apply stops_groups. intros. apply stops_render.
Qed.
Lemma plain_stops md fuel c maxWidth sep w m w' m' r tr : srun env (mergeS md fuel c maxWidth sep false) w m = (w', m', r, tr) ->
  forall pre x post, tr = pre ++ x :: post -> isGet x = true -> gone (sAfter x) = true ->
  post = [] /\ exists q, r = Some (Panic q) /\ (forall i row, sAct x = SCalled (CGet i) (Ok row) -> q = NilDereference).
Proof.
  intros e pre x post Et Hx Hg. unfold mergeS in e. cbn [srun] in e. destruct (slice m) as [h|]; [|cbn in e; injection e as _ _ _ <-; destruct pre; discriminate].
  apply srun_bind_inv in e. destruct e as (w1 & m1 & o & t1 & t2 & e1 & e & ->). pose proof (fine_groupCount noGet _ _ _ _ _ _ _ _ _ e1) as F.
  apply split_app in Et. destruct Et as [(post' & -> & ->)|(pre' & -> & ->)].
  - exfalso. apply Forall_app in F. destruct F as [_ F]. inversion F as [|? ? K _]; subst.
    unfold okc, isGet in *. destruct (sAct x) as [[]| | |]; cbn in *; congruence || destruct K.
  - destruct o as [gc|x0|p]; [|cbn in e; injection e as _ _ _ K; destruct pre'; discriminate..].
    apply srun_bind_inv in e. destruct e as (w2 & m2 & o & t3 & t4 & e2 & e & Et). cbn in e. injection e as <- <- <- <-. rewrite app_nil_r in Et. subst t3.
    destruct (stops_emit _ _ _ _ _ _ _ _ _ _ _ _ e2 _ _ _ eq_refl Hx Hg) as (-> & q & -> & K). eauto.
Qed.

(** ** As long as there is a spec: as in Live.v *)
Notation alive := (fun m : smem => gone m = false).
Definition Sim {A} (ps : sprog A) (pl : lprog A) (w : W) (m : smem) : Prop :=
  forall w' m' r tr, srun env ps w m = (w', m', r, tr) -> gone m = false -> Forall (fun x => gone (sAfter x) = false) tr ->
  forall st, sset_rows st (sRows m) = m -> exists st', sset_rows st' (sRows m') = m' /\ gone m' = false /\
    lrun (as_surroundings env) pl (w, st) (view m) = ((w', st'), view m', r, map view_event tr).
Lemma sim_ret {A} (a : A) w m : Sim (SRet a) (LRet a) w m.
Proof. intros w' m' r tr e Hm _ st Hst. cbn in e. injection e as <- <- <- <-. exists st. auto. Qed.
Lemma sim_bind {A B} (ps : sprog A) pl (f : A -> sprog B) fl w m : Sim ps pl w m ->
  (forall w1 m1 a, gone m1 = false -> Sim (f a) (fl a) w1 m1) -> Sim (sbind ps f) (lbind pl fl) w m.
Proof.
  intros S1 S2 w' m' r tr e Hm Ht st Hst. apply srun_bind_inv in e. destruct e as (w1 & m1 & a & t1 & t2 & e1 & e2 & ->).
  apply Forall_app in Ht. destruct Ht as [Ht1 Ht2]. destruct (S1 _ _ _ _ e1 Hm Ht1 st Hst) as (st1 & Hst1 & Hm1 & L1).
  destruct (S2 w1 m1 a Hm1 _ _ _ _ e2 Hm1 Ht2 st1 Hst1) as (st2 & Hst2 & Hm2 & L2).
  exists st2. split; [exact Hst2|]. split; [exact Hm2|]. rewrite lrun_bind, L1, L2, map_app. reflexivity.
Qed.
Lemma sim_obind {X A B} (ps : sprog (outcome X A)) pl (f : A -> sprog (outcome X B)) fl w m : Sim ps pl w m ->
  (forall w1 m1 a, gone m1 = false -> Sim (f a) (fl a) w1 m1) -> Sim (sobind ps f) (lobind pl fl) w m.
Proof. intros S1 S2. apply sim_bind; [exact S1|]. intros w1 m1 [a|e|p] Hm; [apply S2, Hm|apply sim_ret|apply sim_ret]. Qed.
Lemma sim_ask {A} q (k : lanswer q -> sprog A) kl w m : (forall w1 m1 a, gone m1 = false -> Sim (k a) (kl a) w1 m1) -> Sim (SAsk q k) (LAsk q kl) w m.
Proof.
  intros S1 w' m' r tr e Hm Ht st Hst. apply srun_ask in e. destruct e as (w1 & m1 & a & t & e1 & e2 & ->).
  inversion Ht as [|? ? H1 Ht1]; subst. cbn [sAfter] in H1.
  destruct (S1 w1 m1 a H1 _ _ _ _ e2 H1 Ht1 m1) as (st2 & Hst2 & Hm2 & L2); [destruct m1; reflexivity|].
  exists st2. split; [exact Hst2|]. split; [exact Hm2|]. cbn [lrun]. unfold as_surroundings at 1. cbn [fst snd view lRows]. rewrite Hst, e1, L2. reflexivity.
Qed.
Lemma sim_see {A} (k : smem -> sprog A) kl w m : Sim (k m) (kl (view m)) w m -> Sim (SSee k) (LSee kl) w m.
Proof. intros S1 w' m' r tr e. cbn [srun lrun] in *. apply S1, e. Qed.
Lemma sim_see_l {A} (p : sprog A) kl w m : Sim p (kl (view m)) w m -> Sim p (LSee kl) w m.
Proof. intros S1 w' m' r tr e. cbn [lrun] in *. apply S1, e. Qed.
Lemma sim_see_s {A} (k : smem -> sprog A) pl w m : Sim (k m) pl w m -> Sim (SSee k) pl w m.
Proof. intros S1 w' m' r tr e. cbn [srun] in *. apply S1, e. Qed.
Lemma sim_look {A} name (k : Z -> sprog A) kl w m : (forall v, Sim (k v) (kl v) w m) -> Sim (SLook name k) (LLook name kl) w m.
Proof.
  intros S1 w' m' r tr e Hm Ht st Hst. cbn [srun] in e. cbv zeta in e. destruct (srun env (k _) w m) as [[[w2 m2] b] t2] eqn:K. injection e as <- <- <- <-.
  inversion Ht as [|? ? _ Ht1]; subst. destruct (S1 _ _ _ _ _ K Hm Ht1 st Hst) as (st2 & Hst2 & Hm2 & L2). exists st2. split; [exact Hst2|]. split; [exact Hm2|].
  cbn [lrun view lWidths]. rewrite L2. reflexivity.
Qed.
Lemma sim_store {A} a i s (p : sprog A) pl w m : (forall m1, gone m1 = false -> Sim p pl w m1) -> Sim (SStore a i s p) (LStore a i s pl) w m.
Proof.
  intros S1 w' m' r tr e Hm Ht st Hst. cbn [srun] in e. cbv zeta in e. destruct (srun env p w _) as [[[w2 m2] b] t2] eqn:K. injection e as <- <- <- <-.
  inversion Ht as [|? ? _ Ht1]; subst. destruct (S1 (sset_row m a i s) Hm _ _ _ _ K Hm Ht1 st) as (st2 & Hst2 & Hm2 & L2).
  { rewrite <- Hst. destruct st; reflexivity. }
  exists st2. split; [exact Hst2|]. split; [exact Hm2|]. cbn [lrun]. cbv zeta.
  change (set_row (view m) a i s) with (view (sset_row m a i s)). rewrite L2. reflexivity.
Qed.
Lemma sim_field {X A} p (f : kcol G L -> sprog (outcome X A)) fl w m : (forall col, Sim (f col) (fl col) w m) -> Sim (sfield p f) (lfield p fl) w m.
Proof. intros S1. apply sim_see. change (deref (view m) p) with (sderef m p). destruct (sderef m p); [apply S1|apply sim_ret]. Qed.
Lemma sim_getter {X A} p (f : G -> kcol G L -> sprog (outcome X A)) fl w m : (forall g col, Sim (f g col) (fl g col) w m) -> Sim (sgetter p f) (lgetter p fl) w m.
Proof. intros S1. apply sim_field. intros col. destruct (kGetter col); [apply S1|apply sim_ret]. Qed.
Lemma alive_slice (m : smem) : gone m = false -> slice m = Some (lSlice (view m)).
Proof. unfold gone, view, slice. cbn [lSlice]. destruct (sSpec m); [reflexivity|discriminate]. Qed.
Lemma sim_columns {X A} (f : header -> sprog (outcome X A)) fl w m : gone m = false -> Sim (f (lSlice (view m))) (fl (view m)) w m -> Sim (scolumns f) (LSee fl) w m.
Proof. intros Hm S1. apply sim_see. rewrite (alive_slice m Hm). exact S1. Qed.
Lemma sim_map {X A B} (f : A -> sprog (outcome X B)) fl l : (forall a w m, gone m = false -> Sim (f a) (fl a) w m) -> forall w m, gone m = false -> Sim (slmap f l) (lmap fl l) w m.
Proof.
  intros S1. induction l as [|a l IH]; intros w m Hm; cbn [slmap lmap]; [apply sim_ret|]. apply sim_obind; [apply S1, Hm|]. intros w1 m1 b Hm1.
  apply sim_obind; [apply IH, Hm1|]. intros. apply sim_ret.
Qed.

Lemma basic_live h item sep js : forall acc w m, Sim (basicS h js item sep acc) (basicL h js item sep acc) w m.
Proof.
  induction js as [|j js IH]; intros acc w m; cbn [basicS basicL]; [apply sim_ret|]. apply sim_see. apply sim_getter. intros g col.
  apply sim_obind; [apply sim_ask; intros; apply sim_ret|]. intros w1 m1 s _. apply IH.
Qed.
Lemma align_live h f js : forall w m, Sim (alignS h js f) (alignL h js f) w m.
Proof.
  induction js as [|j js IH]; intros w m; cbn [alignS alignL]; [apply sim_ret|]. apply sim_see. apply sim_field. intros col.
  destruct (kAlign col) as [al|]; [|apply IH]. destruct (negb _); [apply sim_ret|]. apply sim_look. intros v. apply sim_ask.
  intros w1 m1 [s|[]|p] _; [apply sim_store; intros; apply IH|apply sim_ret].
Qed.
Lemma tableWidth_live {X} cols : forall width w m, Sim (tableWidthS (X := X) cols width) (tableWidthL cols width) w m.
Proof. induction cols as [|[col|] cols IH]; intros width w m; cbn [tableWidthS tableWidthL]; [apply sim_ret| |apply sim_ret]. apply sim_look. intros v. apply IH. Qed.
Lemma groupCount_live cols maxWidth sep w m : Sim (groupCountS cols maxWidth sep) (groupCountL cols maxWidth sep) w m.
Proof. apply sim_obind; [apply tableWidth_live|]. intros w1 m1 tw _. cbv zeta. destruct (_ =? 0); apply sim_ret. Qed.
Lemma getWidth_live colN found j k w m : gone m = false -> Sim (getWidthS colN found j k) (getWidthL colN found j k) w m.
Proof.
  intros Hm. unfold getWidthS, getWidthL. destruct found; [apply sim_ret|]. apply sim_see_s. apply sim_columns; [exact Hm|]. cbv beta.
  destruct (negb _); [apply sim_ret|]. apply sim_field. intros col. apply sim_look. intros v. apply sim_ret.
Qed.
Lemma cells_live c colN found h item k js : forall done w m, gone m = false -> Sim (cellsS c colN found h js item k done) (cellsL c colN found h js item k done) w m.
Proof.
  induction js as [|j js IH]; intros done w m Hm; cbn [cellsS cellsL]; [apply sim_ret|]. apply sim_see. apply sim_field. intros col.
  destruct (negb _); [apply sim_ret|]. cbv zeta. apply sim_obind; [apply getWidth_live, Hm|]. intros w1 m1 v Hm1. apply sim_obind.
  - destruct (kAlign col); [apply sim_ask; intros; apply sim_ret|apply sim_ret].
  - intros w2 m2 s Hm2. destruct (negb _); [apply sim_ret|apply IH, Hm2].
Qed.
Lemma render_live c colN found i k w m : Sim (renderS c colN found i k) (renderL c colN found i k) w m.
Proof.
  apply sim_obind; [apply sim_ask; intros; apply sim_ret|]. intros w1 m1 item Hm1. apply sim_columns; [exact Hm1|]. cbv beta.
  apply sim_obind; [apply cells_live, Hm1|]. intros. apply sim_ret.
Qed.
Lemma groups_live itemN P render renderl gs : (forall i k w m, Sim (render i k) (renderl i k) w m) -> forall w m, Sim (groupsS itemN P render gs) (groupsL itemN P renderl gs) w m.
Proof.
  intros T. induction gs as [|g gs IH]; intros w m; cbn [groupsS groupsL]; [apply sim_ret|]. destruct (_ >=? _); [apply sim_ret|].
  apply sim_obind; [apply T|]. intros w1 m1 b _. apply sim_obind; [apply IH|]. intros. apply sim_ret.
Qed.
Lemma lines_live line linel ls : (forall l w m, Sim (line l) (linel l) w m) -> forall w m, Sim (linesS line ls) (linesL linel ls) w m.
Proof.
  intros T. induction ls as [|l ls IH]; intros w m; cbn [linesS linesL]; [apply sim_ret|]. apply sim_obind; [apply T|]. intros w1 m1 txt _.
  apply sim_ask. intros w2 m2 [u|x|p] _; [apply IH|apply sim_ret|apply sim_ret].
Qed.
Lemma emit_live md c colN sep gc found w m : Sim (emitS md c colN sep gc found) (emitL md c colN sep gc found) w m.
Proof.
  apply sim_obind; [apply sim_ask; intros; apply sim_ret|]. intros w1 m1 itemN _. apply lines_live. intros l w2 m2.
  apply sim_obind; [apply groups_live; intros; apply render_live|]. intros. apply sim_ret.
Qed.
Lemma maxCell_live c colI idxs : forall mw w m, Sim (maxCellS c colI idxs mw) (maxCellL c colI idxs mw) w m.
Proof.
  induction idxs as [|i idxs IH]; intros mw w m; cbn [maxCellS maxCellL]; [apply sim_ret|]. apply sim_obind; [apply sim_ask; intros; apply sim_ret|].
  intros w1 m1 item _. apply sim_see. change (row_in (view m1) item) with (srow_in m1 item). apply sim_obind; [apply sim_ret|]. intros w2 m2 txt _. apply IH.
Qed.
Lemma widths_live c colN idxs gc w m : gone m = false -> Sim (widthsS c colN idxs gc) (widthsL c colN idxs gc) w m.
Proof.
  intros Hm. apply sim_obind; [|intros; apply sim_ret]. apply sim_map; [|exact Hm]. intros g w1 m1 Hm1. apply sim_map; [|exact Hm1]. intros i w2 m2 _. apply maxCell_live.
Qed.
Lemma merged_live md c gc w m : Sim (mergedS md c gc) (mergedL md c gc) w m.
Proof.
  apply sim_obind; [apply sim_ask; intros; apply sim_ret|]. intros w1 m1 itemN Hm1. apply sim_columns; [exact Hm1|]. cbv beta zeta. destruct md.
  - apply sim_obind; [apply widths_live, Hm1|]. intros. apply sim_ret.
  - destruct (_ =? 0); [apply sim_ret|]. destruct (_ >? _); [apply sim_ret|]. apply sim_obind; [apply widths_live, Hm1|]. intros. apply sim_ret.
Qed.
Lemma calc_live fuel md c colN maxWidth margin g0 : forall extra cw w m,
  Sim (calcS fuel md c colN maxWidth margin g0 extra cw) (calcL fuel md c colN maxWidth margin g0 extra cw) w m.
Proof.
  induction fuel as [|fuel IH]; intros extra cw w m; cbn [calcS calcL]; [apply sim_ret|]. cbv zeta. apply sim_bind; [apply merged_live|].
  intros w1 m1 [[l|]|e|p] _; try apply sim_ret. destruct (_ >? _); [apply sim_ret|apply IH].
Qed.
Lemma merge_live md fuel c maxWidth sep compact w m : gone m = false ->
  Sim (mergeS md fuel c maxWidth sep compact) (mergeL md fuel c maxWidth sep compact) w m.
Proof.
  intros Hm. apply sim_see. rewrite (alive_slice m Hm). cbv zeta. apply sim_bind; [apply groupCount_live|].
  intros w1 m1 [gc|e|p] Hm1; try apply sim_ret. destruct compact.
  - apply sim_see. rewrite (alive_slice m1 Hm1). apply sim_bind; [apply calc_live|]. intros w2 m2 [[[extra cw]|e|p]|] _; try apply sim_ret.
    apply sim_bind; [destruct (extra >? 0); apply emit_live|]. intros. apply sim_ret.
  - apply sim_bind; [apply emit_live|]. intros. apply sim_ret.
Qed.

(** ** The theorems *)
Lemma merge_as_live md fuel c maxWidth sep compact w0 m0 w' m' r tr : srun env (mergeS md fuel c maxWidth sep compact) w0 m0 = (w', m', r, tr) ->
  gone m0 = false -> Forall (fun x => gone (sAfter x) = false) tr ->
  exists st, lrun (as_surroundings env) (mergeL md fuel c maxWidth sep compact) (w0, m0) (view m0) = ((w', st), view m', r, map view_event tr).
Proof.
  intros e Hm Ht. destruct (merge_live md fuel c maxWidth sep compact w0 m0 Hm _ _ _ _ e Hm Ht m0) as (st & _ & _ & K); [destruct m0; reflexivity|]. eauto.
Qed.
Lemma align_as_live f w0 m0 w' m' r tr : srun env (AlignFormattedItemS f) w0 m0 = (w', m', r, tr) ->
  gone m0 = false -> Forall (fun x => gone (sAfter x) = false) tr ->
  exists st, lrun (as_surroundings env) (AlignFormattedItemL f) (w0, m0) (view m0) = ((w', st), view m', r, map view_event tr).
Proof.
  intros e Hm Ht.
  assert (S1 : Sim (AlignFormattedItemS f) (AlignFormattedItemL f) w0 m0).
  { apply sim_columns; [exact Hm|]. cbv beta zeta. destruct (negb _); [apply sim_ret|apply align_live]. }
  destruct (S1 _ _ _ _ e Hm Ht m0) as (st & _ & _ & K); [destruct m0; reflexivity|]. eauto.
Qed.
Lemma basic_as_live item sep w0 m0 w' m' r tr : srun env (FormatItemBasicS item sep) w0 m0 = (w', m', r, tr) ->
  gone m0 = false -> Forall (fun x => gone (sAfter x) = false) tr ->
  exists st, lrun (as_surroundings env) (FormatItemBasicL item sep) (w0, m0) (view m0) = ((w', st), view m', r, map view_event tr).
Proof.
  intros e Hm Ht.
  assert (S1 : Sim (FormatItemBasicS item sep) (FormatItemBasicL item sep) w0 m0).
  { apply sim_columns; [exact Hm|]. apply basic_live. }
  destruct (S1 _ _ _ _ e Hm Ht m0) as (st & _ & _ & K); [destruct m0; reflexivity|]. eauto.
Qed.
End Merging.
