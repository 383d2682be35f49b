(** * WeakRaceHalts: the goroutines come to an end whatever they read. *)
From Coq Require Import ZifyBool ZifyNat.
From Verif Require Import GoBase Uniseg Runewidth LutRace LutRaceSpec RaceHalts WeakRace WeakRaceSpec WeakRaceProofs WeakRaceRuns.
Local Open Scope Z_scope.

Section Halts.
Context {A : Type}.
(** A goroutine may be in state [t'] after [t]. *)
Definition wnext (t' t : wstate A) : Prop :=
  match wact t with
  | WNothing => False
  | WLocal u => t' = u
  | WRead _ f | WAlloc f => exists x, t' = f x
  | WWrite _ _ u => t' = u
  end.
Lemma wdead_acc : Acc wnext WDied.
Proof. constructor. intros t' []. Qed.
Ltac next := constructor; intros t'; unfold wnext; cbn [wact].
Lemma wwidth_acc c : (forall w, Acc wnext (wgive c w)) -> forall r, Acc wnext (WAtLen r c).
Proof.
  intros H r.
  assert (S1 : forall ea, Acc wnext (WAtStrict r ea c)) by (intros ea; next; intros [x ->]; apply H).
  assert (S2 : Acc wnext (WAtEA r c)) by (next; intros [x ->]; apply S1).
  assert (S3 : forall p, Acc wnext (WAtElem r p c)).
  { intros p. next. destruct (p =? 0); [intros ->; apply wdead_acc|intros [x ->]; apply H]. }
  assert (S4 : forall p, Acc wnext (WAtTableLen r p c)).
  { intros p. next. intros [x ->]. destruct (_ <? x); [apply S3|apply wdead_acc]. }
  assert (S5 : Acc wnext (WAtTablePtr r c)) by (next; intros [x ->]; apply S4).
  next. intros [x ->]. destruct (0 <? x); assumption.
Qed.
Lemma wloop_acc k : Acc wnext (WAt k) -> forall j p n i, (Z.to_nat (n - i) <= j)%nat -> Acc wnext (WAtLoop p n i k).
Proof.
  intros H.
  assert (S0 : forall n, Acc wnext (WAtStoreLen n k)) by (intros n; next; intros ->; exact H).
  assert (S1 : forall p n, Acc wnext (WAtStorePtr p n k)) by (intros p n; next; intros ->; apply S0).
  induction j as [|j IH]; intros p n i L; next; intros ->; destruct (Z.ltb_spec i n) as [X|X]; try apply S1; [exfalso; lia|].
  apply wwidth_acc. intros w. cbn [wgive]. apply wwidth_acc. intros w'. cbn [wgive].
  next. destruct (p =? 0); intros ->; [apply wdead_acc|]. apply IH. lia.
Qed.
Lemma wmake_acc k : Acc wnext (WAt k) -> Acc wnext (WAtTakePtr k).
Proof.
  intros H. pose proof (fun p n i => wloop_acc k H (Z.to_nat (n - i)) p n i (Nat.le_refl _)) as L.
  assert (S1 : forall p n, Acc wnext (WAtDropLen p n k)) by (intros p n; next; intros ->; apply L).
  assert (S2 : forall p n, Acc wnext (WAtDropPtr p n k)) by (intros p n; next; intros ->; apply S1).
  assert (S3 : Acc wnext (WAtMake k)) by (next; intros [x ->]; apply L).
  assert (S4 : forall p n, Acc wnext (WAtTest p n k)) by (intros p n; next; intros [x ->]; destruct (negb _); [apply S2|apply S3]).
  assert (S5 : forall p, Acc wnext (WAtTakeLen p k)) by (intros p; next; intros [x ->]; apply S4).
  next. intros [x ->]. apply S5.
Qed.
Lemma wprog_acc p : Acc wnext (WAt p).
Proof.
  induction p as [a|r k IH|k IH|k IH|b k IH|b k IH]; next.
  - intros [].
  - intros ->. unfold wask. destruct ((r <? 0) || (r >? 0x10FFFF)); [apply IH|apply wwidth_acc; exact IH].
  - intros ->. apply wmake_acc, IH.
  - intros ->. next. intros [x ->]. destruct (0 <? x); [exact IH|apply wmake_acc, IH].
  - intros ->. exact IH.
  - intros ->. exact IH.
Qed.

Lemma step_moves x y : wstep (A := A) x y -> moves (fun u t => wnext (snd u) (snd t)) (cThreads y) (cThreads x).
Proof.
  intros []; cbn [cThreads]; (eexists before, (v, t), (_, _), after; split; [reflexivity|]; split; [reflexivity|]); cbn [snd]; unfold wnext; rewrite H; eauto.
Qed.
Lemma wacc (x : wconfig A) : Forall (fun t => Acc wnext (snd t)) (cThreads x) -> Acc (fun y x => wstep x y) x.
Proof.
  intros F. assert (G : Acc (moves (fun u t : view * wstate A => wnext (snd u) (snd t))) (cThreads x)).
  { apply moves_acc. eapply Forall_impl; [|exact F]. intros [v t] K. cbn [snd] in K. clear F. revert v. induction K as [t _ IH]. intros v.
    constructor. intros [v' t'] K. apply IH. exact K. }
  remember (cThreads x) as ts eqn:e. clear F. revert x e. induction G as [ts _ IH]. intros x ->. constructor. intros y Hy.
  apply (IH (cThreads y)); [apply step_moves, Hy|reflexivity].
Qed.
Lemma wstart_acc c ps : Acc (fun y x => wstep (A := A) x y) (wstart c ps).
Proof.
  apply wacc. cbn [wstart cThreads]. apply Forall_forall. intros t X. apply in_map_iff in X. destruct X as (p & <- & _). apply wprog_acc.
Qed.
Lemma weak_halts c (ps : list (lprog A)) : ~ exists f, f O = wstart c ps /\ forall n, wstep (f n) (f (S n)).
Proof. intros (f & H0 & Hs). exact (acc_no_run _ _ (wstart_acc c ps) f H0 Hs). Qed.

Definition wover (t : view * wstate A) : Prop := (exists a, snd t = WAt (LRet a)) \/ snd t = WDied.
Lemma wover_or t : wover t \/ wact (snd t) <> WNothing.
Proof.
  destruct t as [v t]. unfold wover. cbn [snd]. destruct t as [[]| | | | | | | | | | | | | | | | | |]; cbn [wact]; try (right; discriminate); eauto.
  - right. destruct (_ =? 0); discriminate.
  - right. destruct (_ =? 0); discriminate.
Qed.
Lemma can_step log n b v t a : wact (A := A) t <> WNothing -> exists y, wstep {| cLog := log; cArrs := n; cThreads := b ++ (v, t) :: a |} y.
Proof.
  destruct (wact t) as [|t'|l f|l x t'|f] eqn:e; intros K; [contradiction|..]; eexists.
  - apply ws_local, e.
  - eapply ws_read; [exact e|apply mr_own].
  - apply ws_write, e.
  - eapply ws_alloc, e.
Qed.
Lemma all_wover (x : wconfig A) : Forall wover (cThreads x) \/ exists y, wstep x y.
Proof.
  destruct x as [log n ts]. cbn [cThreads].
  assert (G : Forall wover ts \/ exists b v t a, ts = b ++ (v, t) :: a /\ wact t <> WNothing).
  { induction ts as [|[v t] ts [IH|(b & v' & t' & a & -> & K)]]; [left; constructor|..].
    - destruct (wover_or (v, t)) as [O|K]; [left; constructor; assumption|right]. exists [], v, t, ts. split; [reflexivity|exact K].
    - right. exists ((v, t) :: b), v', t', a. split; [reflexivity|exact K]. }
  destruct G as [G|(b & v & t & a & -> & K)]; [left; exact G|right]. apply can_step, K.
Qed.
Lemma weak_ends c (ps : list (lprog A)) x : wexec (wstart c ps) x ->
  exists y, wexec x y /\ Forall (fun t => (exists a, snd t = WAt (LRet a)) \/ snd t = WDied) (cThreads y).
Proof.
  intros X. assert (HA : Acc (fun y x => wstep (A := A) x y) x).
  { pose proof (wstart_acc c ps) as K. induction X as [|x y z X IH ST]; [exact K|]. exact (Acc_inv (IH K) ST). }
  clear X. assert (G : forall s, wexec s x -> exists y, wexec s y /\ Forall wover (cThreads y)); [|exact (G x (we_refl x))].
  induction HA as [x _ IH]. intros s X. destruct (all_wover x) as [O|(y & Y)]; [exists x; split; assumption|].
  apply (IH y Y). eapply we_step; eassumption.
Qed.
End Halts.
