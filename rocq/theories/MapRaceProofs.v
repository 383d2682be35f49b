(** * MapRaceProofs: tables used at the same time, with the runtime's check. *)
From Coq Require Import ZifyBool ZifyNat.
From Verif Require Import GoBase CacheProofs Runewidth Width Table TableContract TableOpsProofs TableRace TableRaceSpec TableRaceProofs TableRaceCases
  MapRace MapRaceSpec.
Local Open Scope Z_scope.

Lemma wset_at (m : wmap) name w : wset m name w name = w.
Proof. unfold wset. destruct (str_eqb name name) eqn:e; [reflexivity|]. rewrite str_eqb_refl in e. discriminate. Qed.
Lemma wset_grows (m : wmap) name w n : w > m name -> m n <= wset m name w n.
Proof.
  intros H. unfold wset. destruct (str_eqb_spec n name) as [->|]; lia.
Qed.

(** ** Executions without a fatal error are those of TableRace *)

Lemma sim {A} m0 (ts0 : list (sprog A)) x : rexec m0 (map RAt ts0) x ->
  forall m ts seen, x = Running m ts seen -> sexec anyhow m0 ts0 m (map outside ts) seen.
Proof.
  induction 1 as [|m before t after seen m' t' more X IH S|m before t after seen X IH S I]; intros m1 ts1 seen1 e; try discriminate; injection e as <- <- <-.
  - rewrite map_map. cbn [outside]. rewrite map_id. constructor.
  - specialize (IH _ _ _ eq_refl). rewrite map_app in *. cbn [map] in *.
    destruct t as [[a|name k|name w p|name w p]|name w p]; cbn [rstep outside] in *; try discriminate; injection S as <- <- <-; cbn [outside].
    + eapply se_step; [exact IH|exact Logic.I|reflexivity].
    + eapply se_step; [exact IH|exact Logic.I|reflexivity].
    + rewrite app_nil_r. exact IH.
    + eapply se_step; [exact IH|exact Logic.I|reflexivity].
Qed.

(** ** Programs that leave the map alone *)

Inductive quiet {A} (m : wmap) : sprog A -> A -> Prop :=
| q_ret a : quiet m (SRet a) a
| q_get name k a : quiet m (k (m name)) a -> quiet m (SGet name k) a
| q_check name w p a : w <= m name -> quiet m p a -> quiet m (SCheck name w p) a.

Definition rising {A} (m : wmap) (t : sprog A) : Prop := Clean t \/ exists name w p, t = SPut name w p /\ w > m name /\ Clean p.

Lemma runs_grow {A} m (t : sprog A) m' t' : runs m t m' t' -> rising m t -> forall n, m n <= m' n.
Proof.
  induction 1 as [m t|m t m1 t1 more m2 t2 S R IH]; intros H n; [lia|].
  destruct H as [H|(name & w & p & -> & Hw & H)].
  - inversion H; subst; cbn [sstep] in S; try discriminate; injection S as <- <- <-.
    + apply IH. left. auto.
    + apply IH. destruct (w >? m name) eqn:e; [|left; auto]. right. exists name, w, p. split; [reflexivity|]. split; [lia|auto].
  - injection S as <- <- <-. pose proof (wset_grows m name w n Hw). specialize (IH (or_introl H) n). lia.
Qed.

(** Either the program is quiet, or it comes to an assignment with the map as it was. *)
Lemma quiet_or {A} (t : sprog A) : forall m, Clean t ->
  (exists a, quiet m t a) \/ exists name w p, runs m t m (SPut name w p) /\ w > m name /\ Clean p.
Proof.
  induction t as [a|name k IH|name w p IH|name w p IH]; intros m C; inversion C; subst.
  - left. exists a. constructor.
  - destruct (IH (m name) m (H0 _)) as [(a & Q)|(n & w & p & R & Hw & Cp)].
    + left. exists a. constructor. exact Q.
    + right. exists n, w, p. split; [|auto]. econstructor; [reflexivity|exact R].
  - destruct (w >? m name) eqn:e.
    + right. exists name, w, p. split; [|split; [lia|auto]]. econstructor; [cbn [sstep]; rewrite e; reflexivity|constructor].
    + destruct (IH m H0) as [(a & Q)|(n & w' & p' & R & Hw & Cp)].
      * left. exists a. constructor; [lia|exact Q].
      * right. exists n, w', p'. split; [|auto]. econstructor; [cbn [sstep]; rewrite e; reflexivity|exact R].
Qed.

Lemma runs_det {A} m (t : sprog A) m1 t1 : runs m t m1 t1 -> forall m2 a, runs m t m2 (SRet a) -> runs m1 t1 m2 (SRet a).
Proof.
  induction 1 as [|m t m1 t1 more m3 t3 S R IH]; intros m2 a K; [exact K|].
  inversion K; subst; [discriminate|]. rewrite S in H. injection H as <- <- <-. auto.
Qed.

Lemma quiet_runs {A} m (t : sprog A) a : quiet m t a -> runs m t m (SRet a).
Proof.
  induction 1 as [a|name k a Q IH|name w p a Hw Q IH].
  - constructor.
  - econstructor; [reflexivity|exact IH].
  - econstructor; [cbn [sstep]; replace (w >? m name) with false by lia; reflexivity|exact IH].
Qed.

Section Clients.
Context {Item Val E A : Type}.
Implicit Types (t : Table Item Val E) (p : cprog Item E A).

Lemma width_map t m name : columnWidth t = Some m -> Width t name = m name.
Proof. intros H. unfold Width. rewrite H. reflexivity. Qed.

Lemma client_cases t m p : columnWidth t = Some m ->
  (Unchanging t p /\ quiet m (steps (Columns (tSpec t)) p) (snd (in_turn t p)))
  \/ (Changing t p /\ exists name w q, runs m (steps (Columns (tSpec t)) p) m (SPut name w q) /\ w > m name).
Proof.
  intros H. destruct (program_runs p t m H) as (m' & e & R).
  destruct (quiet_or (steps (Columns (tSpec t)) p) m (steps_clean _ _)) as [(a & Q)|(name & w & q & K & Hw & Cq)].
  - left. pose proof (quiet_runs _ _ _ Q) as QR. pose proof (runs_det _ _ _ _ QR _ _ R) as D.
    inversion D; subst; [|discriminate]. split; [|exact Q].
    intros n. rewrite (width_map t m' n H). apply width_map, e.
  - right. split; [|eauto]. exists name. rewrite (width_map t m name H), (width_map _ m' name e).
    pose proof (runs_det _ _ _ _ K _ _ R) as D.
    inversion D; subst. injection H0 as <- <- <-. pose proof (runs_grow _ _ _ _ H1 (or_introl Cq) name) as G. rewrite wset_at in G. lia.
Qed.

Lemma not_both t p : Unchanging t p -> Changing t p -> False.
Proof. intros U (n & C). apply C, U. Qed.

Lemma unchanging_quiet t m p : columnWidth t = Some m -> Unchanging t p -> quiet m (steps (Columns (tSpec t)) p) (snd (in_turn t p)).
Proof. intros H U. destruct (client_cases t m p H) as [[_ Q]|[C _]]; [exact Q|]. destruct (not_both t p U C). Qed.

(** ** Quiet programs together *)

Definition calm (m : wmap) (p : cprog Item E A) (t0 : Table Item Val E) (th : rthread A) : Prop :=
  exists q, th = RAt q /\ quiet m q (snd (in_turn t0 p)).

Lemma forall2_mid {X Y} (R : X -> Y -> Prop) l b y a : Forall2 R l (b ++ y :: a) ->
  exists lb x la, l = lb ++ x :: la /\ Forall2 R lb b /\ R x y /\ Forall2 R la a.
Proof.
  revert l. induction b as [|z b IH]; cbn [app]; intros l H; inversion H; subst.
  - exists [], x, l0. auto.
  - destruct (IH _ H4) as (lb & x' & la & -> & H5 & H6 & H7). exists (x :: lb), x', la. cbn [app]. auto.
Qed.

Lemma calm_exec t m ps x : columnWidth t = Some m -> Forall (Unchanging t) ps -> rexec m (rstart t ps) x ->
  match x with Aborted => False | Running m' ts seen => m' = m /\ Forall2 (fun p th => calm m p t th) ps ts end.
Proof.
  intros H HU X. induction X as [|m' before u after seen m'' u' more X IH S|m' before u after seen X IH S I].
  - split; [reflexivity|]. unfold rstart. induction HU as [|p ps U HU IH]; cbn [map]; constructor; auto.
    eexists. split; [reflexivity|]. apply unchanging_quiet; auto.
  - destruct IH as [-> F]. destruct (forall2_mid _ _ _ _ _ F) as (lb & p & la & -> & F1 & (q & -> & Q) & F2).
    assert (G : m'' = m /\ calm m p t u').
    { inversion Q as [a e1 e2|name k a Q' e1 e2|name w p' a Hw Q' e1 e2]; subst; cbn [rstep] in S; try discriminate; injection S as <- <- <-; split; try reflexivity.
      - eexists. split; [reflexivity|exact Q'].
      - replace (w >? m name) with false by lia. eexists. split; [reflexivity|exact Q']. }
    destruct G as [-> G]. split; [reflexivity|]. apply Forall2_app; auto.
  - destruct IH as [-> F]. apply Exists_exists in I as (v & Hv & Iv).
    assert (C : Forall (fun th => exists q, th = RAt q) (before ++ u :: after)).
    { clear -F. induction F as [|p th ps ts (q & -> & _) F IH]; constructor; eauto. }
    rewrite Forall_forall in C. destruct (C v) as (q & ->); [|exact Iv]. rewrite in_app_iff in *. cbn [In]. tauto.
Qed.

Lemma unchanging_together t m ps : columnWidth t = Some m -> Forall (Unchanging t) ps ->
  ~ rexec m (rstart t ps) Aborted /\
  forall m' ts seen, rexec m (rstart t ps) (Running m' ts seen) -> m' = m /\
    forall i p a, nth_error ps i = Some p -> nth_error ts i = Some (RAt (SRet a)) -> a = snd (in_turn t p).
Proof.
  intros H HU. split.
  - intros X. exact (calm_exec t m ps _ H HU X).
  - intros m' ts seen X. destruct (calm_exec t m ps _ H HU X) as [-> F]. split; [reflexivity|].
    clear X HU. induction F as [|p th ps ts (q & -> & Q) F IH]; intros i p0 a Hp Ha; destruct i as [|i]; try discriminate; cbn [nth_error] in *; eauto.
    injection Hp as <-. injection Ha as ->. inversion Q; subst. reflexivity.
Qed.

(** ** One that changes a width, and another *)

Lemma runs_rexec m0 ts0 m (s : sprog A) m' s' b a seen : runs m s m' s' -> rexec m0 ts0 (Running m (b ++ RAt s :: a) seen) ->
  exists seen', rexec m0 ts0 (Running m' (b ++ RAt s' :: a) seen').
Proof.
  intros R. revert seen. induction R as [m s|m s m1 s1 more m2 s2 S R IH]; intros seen X; [eauto|].
  destruct s as [x|name k|name w p|name w p]; cbn [sstep] in S; try discriminate; injection S as <- <- <-.
  - eapply IH. eapply re_step; [exact X|reflexivity].
  - eapply IH. eapply re_step; [exact X|reflexivity].
  - eapply IH. eapply (re_step _ _ m b (RPut name w p)); [eapply re_step; [exact X|reflexivity]|reflexivity].
Qed.

Lemma nth_split2 {T} (l : list T) i x : nth_error l i = Some x -> exists b a, l = b ++ x :: a /\ length b = i.
Proof. apply nth_error_split. Qed.

Lemma clash t m ps i j p q : columnWidth t = Some m -> i <> j -> nth_error ps i = Some p -> nth_error ps j = Some q ->
  Changing t p -> Touching t q -> rexec m (rstart t ps) Aborted.
Proof.
  intros H Hij Hi Hj C T. destruct (client_cases t m p H) as [[U _]|[_ (name & w & r & R & _)]]; [destruct (not_both t p U C)|].
  set (st := fun p => @RAt A (steps (Columns (tSpec t)) p)).
  assert (Ni : nth_error (rstart t ps) i = Some (st p)) by (unfold rstart; rewrite nth_error_map, Hi; reflexivity).
  assert (Nj : nth_error (rstart t ps) j = Some (st q)) by (unfold rstart; rewrite nth_error_map, Hj; reflexivity).
  destruct (nth_split2 _ _ _ Ni) as (b & a & e & L).
  pose proof (re_refl m (rstart t ps)) as X. rewrite e in X at 2. destruct (runs_rexec _ _ _ _ _ _ _ _ _ R X) as (seen & X1).
  assert (X2 : rexec m (rstart t ps) (Running m (b ++ RPut name w r :: a) (seen ++ []))) by (eapply re_step; [exact X1|reflexivity]).
  rewrite e in Nj. assert (Nj2 : nth_error (b ++ RPut name w r :: a) j = Some (st q)).
  { rewrite <- Nj. symmetry. apply nth_other. lia. }
  destruct (nth_split2 _ _ _ Nj2) as (b2 & a2 & e2 & L2). rewrite e2 in X2.
  eapply re_abort; [exact X2| |].
  - unfold st. destruct (steps (Columns (tSpec t)) q) eqn:Es; try discriminate. destruct (T _ Es).
  - assert (I : In (RPut name w r) (b2 ++ a2)).
    { assert (I : In (RPut name w r) (b2 ++ st q :: a2)) by (rewrite <- e2, in_app_iff; cbn [In]; tauto).
      rewrite in_app_iff in *. destruct I as [I|[I|I]]; auto. discriminate I. }
    apply Exists_exists. exists (RPut name w r). split; [exact I|exact Logic.I].
Qed.

(** If all others do nothing, nothing happens. *)
Lemma lonely m0 ts0 x : rexec m0 ts0 x -> forall b u a, ts0 = b ++ u :: a ->
  Forall (fun th : rthread A => exists r, th = RAt (SRet r)) (b ++ a) ->
  match x with Aborted => False | Running m ts seen => exists u', ts = b ++ u' :: a end.
Proof.
  induction 1 as [|m before v after seen m' v' more X IH S|m before v after seen X IH S I]; intros b u a e F.
  - exists u. exact e.
  - destruct (IH b u a e F) as (u' & e'). destruct (Nat.eq_dec (length before) (length b)) as [L|L].
    + apply app_eq_app in e' as (l & [[-> e2]|[-> e2]]).
      * rewrite app_length in L. destruct l; [|cbn in L; lia]. rewrite app_nil_r in *. cbn [app] in e2. injection e2 as -> ->. exists v'. reflexivity.
      * rewrite app_length in L. destruct l; [|cbn in L; lia]. rewrite app_nil_r in *. cbn [app] in e2. injection e2 as -> ->. exists v'. reflexivity.
    + assert (N : nth_error (b ++ u' :: a) (length before) = Some v) by (rewrite <- e'; apply nth_mid).
      assert (I : In v (b ++ a)).
      { destruct (lt_dec (length before) (length b)).
        - rewrite nth_error_app1 in N by auto. apply nth_error_In in N. rewrite in_app_iff. auto.
        - rewrite nth_error_app2 in N by lia. destruct (length before - length b)%nat as [|k] eqn:Ek; [lia|].
          cbn [nth_error] in N. apply nth_error_In in N. rewrite in_app_iff. auto. }
      rewrite Forall_forall in F. destruct (F v I) as (r & ->). discriminate.
  - destruct (IH b u a e F) as (u' & e'). apply Exists_exists in I as (w & Iw & Hw).
    assert (N : nth_error (b ++ u' :: a) (length before) = Some v) by (rewrite <- e'; apply nth_mid).
    rewrite Forall_forall in F. destruct (Nat.eq_dec (length before) (length b)) as [L|L].
    + assert (Eb : before = b /\ after = a).
      { apply app_eq_app in e' as (l & [[-> e2]|[-> e2]]); rewrite app_length in L; (destruct l; [|cbn in L; lia]); rewrite app_nil_r in *;
          cbn [app] in e2; injection e2 as -> ->; auto. }
      destruct Eb as [-> ->]. destruct (F w Iw) as (r & ->). exact Hw.
    + assert (I : In v (b ++ a)).
      { destruct (lt_dec (length before) (length b)).
        - rewrite nth_error_app1 in N by auto. apply nth_error_In in N. rewrite in_app_iff. auto.
        - rewrite nth_error_app2 in N by lia. destruct (length before - length b)%nat as [|k] eqn:Ek; [lia|].
          cbn [nth_error] in N. apply nth_error_In in N. rewrite in_app_iff. auto. }
      destruct (F v I) as (r & ->). apply S. reflexivity.
Qed.

Lemma touching_or t p : (exists a, steps (Columns (tSpec t)) p = SRet a) \/ Touching t p.
Proof. unfold Touching. destruct (steps (Columns (tSpec t)) p); [left; eauto|right|right|right]; discriminate. Qed.

Lemma abort_iff t m ps : columnWidth t = Some m ->
  (rexec m (rstart t ps) Aborted <->
   exists i j p q, i <> j /\ nth_error ps i = Some p /\ nth_error ps j = Some q /\ Changing t p /\ Touching t q).
Proof.
  intros H. split.
  - intros X. assert (D : Forall (Unchanging t) ps \/ exists b p a, ps = b ++ p :: a /\ Changing t p).
    { clear X. induction ps as [|p ps IH]; [left; constructor|]. destruct (client_cases t m p H) as [[U _]|[C _]].
      - destruct IH as [IH|(b & p' & a & -> & C)]; [left; constructor; auto|right; exists (p :: b), p', a; auto].
      - right. exists [], p, ps. auto. }
    destruct D as [D|(b & p & a & -> & C)]; [destruct (proj1 (unchanging_together t m ps H D) X)|].
    assert (D : Forall (fun th : rthread A => exists r, th = RAt (SRet r)) (rstart t b ++ rstart t a) \/ exists q, In q (b ++ a) /\ Touching t q).
    { unfold rstart. rewrite <- map_app. clear X. induction (b ++ a) as [|q l IH]; cbn [map]; [left; constructor|].
      destruct (touching_or t q) as [(r & e)|T]; [|right; exists q; split; [left; reflexivity|exact T]].
      destruct IH as [IH|(q' & I & T)]; [left; constructor; [exists r; rewrite e; reflexivity|exact IH]|right; exists q'; split; [right; exact I|exact T]]. }
    destruct D as [D|(q & I & T)].
    + unfold rstart in X at 1. rewrite map_app in X. cbn [map] in X. destruct (lonely _ _ _ X _ _ _ eq_refl D).
    + apply in_app_iff in I as [I|I]; apply In_nth_error in I as (j & Hj).
      * exists (length b), j, p, q. assert (j < length b)%nat by (apply nth_error_Some; congruence).
        split; [lia|]. split; [apply nth_mid|]. split; [|auto]. rewrite nth_error_app1 by auto. exact Hj.
      * exists (length b), (length b + S j)%nat, p, q. split; [lia|]. split; [apply nth_mid|]. split; [|auto].
        rewrite nth_error_app2 by lia. replace (length b + S j - length b)%nat with (S j) by lia. exact Hj.
  - intros (i & j & p & q & Hij & Hi & Hj & C & T). exact (clash t m ps i j p q H Hij Hi Hj C T).
Qed.

Lemma reads_only_unchanging t p : ReadsOnly p -> Unchanging t p.
Proof. intros R. enough (fst (in_turn t p) = t) by (intros n; congruence). induction R; cbn [in_turn]; auto. Qed.
End Clients.
