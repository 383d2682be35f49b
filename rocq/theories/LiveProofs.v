(** * LiveProofs: columns and rows that change while the table's functions run. *)
From Coq Require Import ZifyBool ZifyNat.
From Verif Require Import GoBase Runewidth Width Table Merge TableContract MergeSpec Calls CallsSpec CallsProofs Live LiveSpec.
Local Open Scope Z_scope.

Section Basics.
Context {Item Val E G L : Type}.
Notation lmem := (lmem G L).
Notation event := (event Item Val E G L).
Notation act := (act Item Val E G L).
Notation surroundings := (surroundings Item Val E G L).
Notation lprog := (lprog Item Val E G L).
Notation kprog := (kprog Item Val E G L).

Lemma lrun_bind {W A B} (env : surroundings W) (p : lprog A) (f : A -> lprog B) : forall w m,
  lrun env (lbind p f) w m = let '(w1, m1, a, t1) := lrun env p w m in let '(w2, m2, r, t2) := lrun env (f a) w1 m1 in (w2, m2, r, t1 ++ t2).
Proof.
  induction p as [x|q k IH|k IH|name k IH|name v p IH|a i s p IH]; intros w m; cbn [lrun lbind].
  - destruct (lrun env (f x) w m) as [[[w2 m2] r2] t2]. reflexivity.
  - destruct (env q w m) as [[w1 m1] a]. rewrite IH. destruct (lrun env (k a) w1 m1) as [[[w2 m2] r2] t2].
    destruct (lrun env (f r2) w2 m2) as [[[w3 m3] r3] t3]. reflexivity.
  - apply IH.
  - rewrite IH. destruct (lrun env (k (lWidths m name)) w m) as [[[w2 m2] r2] t2]. destruct (lrun env (f r2) w2 m2) as [[[w3 m3] r3] t3]. reflexivity.
  - cbv zeta. rewrite IH. destruct (lrun env p w _) as [[[w2 m2] r2] t2]. destruct (lrun env (f r2) w2 m2) as [[[w3 m3] r3] t3]. reflexivity.
  - cbv zeta. rewrite IH. destruct (lrun env p w _) as [[[w2 m2] r2] t2]. destruct (lrun env (f r2) w2 m2) as [[[w3 m3] r3] t3]. reflexivity.
Qed.
Lemma lrun_bind_inv {W A B} (env : surroundings W) (p : lprog A) (f : A -> lprog B) w m w' m' r tr :
  lrun env (lbind p f) w m = (w', m', r, tr) -> exists w1 m1 a t1 t2, lrun env p w m = (w1, m1, a, t1) /\ lrun env (f a) w1 m1 = (w', m', r, t2) /\ tr = t1 ++ t2.
Proof.
  rewrite lrun_bind. destruct (lrun env p w m) as [[[w1 m1] a] t1]. destruct (lrun env (f a) w1 m1) as [[[w2 m2] b] t2] eqn:K. intros e. injection e as <- <- <- <-.
  do 5 eexists. split; [reflexivity|]. split; [exact K|reflexivity].
Qed.
Lemma lrun_obind_ok {W X A B} (env : surroundings W) (p : lprog (outcome X A)) (f : A -> lprog (outcome X B)) w m w' m' b tr :
  lrun env (lobind p f) w m = (w', m', Ok b, tr) -> exists w1 m1 a t1 t2, lrun env p w m = (w1, m1, Ok a, t1) /\ lrun env (f a) w1 m1 = (w', m', Ok b, t2) /\ tr = t1 ++ t2.
Proof.
  unfold lobind. intros K. apply lrun_bind_inv in K. destruct K as (w1 & m1 & [a|e|p0] & t1 & t2 & K1 & K2 & ->); cbn [lrun] in K2; try discriminate.
  do 5 eexists. split; [exact K1|]. split; [exact K2|reflexivity].
Qed.
Lemma lrun_obind {W X A B} (env : surroundings W) (p : lprog (outcome X A)) (f : A -> lprog (outcome X B)) w m w' m' r tr :
  lrun env (lobind p f) w m = (w', m', r, tr) ->
  (exists w1 m1 a t1 t2, lrun env p w m = (w1, m1, Ok a, t1) /\ lrun env (f a) w1 m1 = (w', m', r, t2) /\ tr = t1 ++ t2)
  \/ (exists o, lrun env p w m = (w', m', o, tr) /\ match o with Ok _ => False | Err e => r = Err e | Panic q => r = Panic q end).
Proof.
  unfold lobind. intros K. apply lrun_bind_inv in K. destruct K as (w1 & m1 & [a|e|p0] & t1 & t2 & K1 & K2 & ->).
  - left. do 5 eexists. split; [exact K1|]. split; [exact K2|reflexivity].
  - right. cbn [lrun] in K2. injection K2 as <- <- <- <-. rewrite app_nil_r. exists (Err e). auto.
  - right. cbn [lrun] in K2. injection K2 as <- <- <- <-. rewrite app_nil_r. exists (Panic p0). auto.
Qed.
Lemma lrun_ask {W R} (env : surroundings W) q (k : lanswer q -> lprog R) w m w' m' r tr :
  lrun env (LAsk q k) w m = (w', m', r, tr) -> exists w1 m1 a t, env q w m = (w1, m1, a) /\ lrun env (k a) w1 m1 = (w', m', r, t) /\
    tr = {| eBefore := m; eAct := LCalled q a; eAfter := m1 |} :: t.
Proof.
  cbn [lrun]. destruct (env q w m) as [[w1 m1] a]. destruct (lrun env (k a) w1 m1) as [[[w2 m2] b] t2] eqn:K. intros e. injection e as <- <- <- <-.
  do 4 eexists. split; [reflexivity|]. split; [exact K|reflexivity].
Qed.
Lemma set_same (m : lmem) : set_widths m (lWidths m) = m.
Proof. destruct m. reflexivity. Qed.
Lemma acts_app (t1 t2 : list event) : acts (t1 ++ t2) = acts t1 ++ acts t2.
Proof. unfold acts. apply flat_map_app. Qed.

(** ** The columns there were at the start *)
Record Ext (m0 m : lmem) : Prop := {
  ex_valid : Valid m;
  ex_arr : (hArr (lSlice m0) < length (lArrs m))%nat;
  ex_more : (hLen (lSlice m0) <= hLen (lSlice m))%nat;
  ex_old : forall j, (j < hLen (lSlice m0))%nat -> ptr m (lSlice m0) j = ptr m0 (lSlice m0) j;
  ex_new : forall j, (j < hLen (lSlice m0))%nat -> ptr m (lSlice m) j = ptr m0 (lSlice m0) j;
  ex_cols : forall j, (j < hLen (lSlice m0))%nat -> deref m (ptr m0 (lSlice m0) j) = deref m0 (ptr m0 (lSlice m0) j)
}.
Lemma ext_refl m : Valid m -> Ext m m.
Proof. intros V. split; auto. apply V. Qed.
Lemma ext_step m0 m m' : Ext m0 m -> Adds m m' -> Ext m0 m'.
Proof.
  intros [V A M O N C] [V' A' M' K' S' C']. split; try assumption; try lia.
  - intros j Hj. rewrite <- (O j Hj). unfold ptr. apply K'; lia.
  - intros j Hj. rewrite S' by lia. auto.
  - intros j Hj. rewrite <- (N j Hj). rewrite C' by lia. rewrite (N j Hj). auto.
Qed.
Lemma ext_like m0 m m' : Ext m0 m -> lCols m' = lCols m -> lArrs m' = lArrs m -> lSlice m' = lSlice m -> Ext m0 m'.
Proof.
  intros [V A M O N C] e1 e2 e3. split; unfold Valid, ptr in *; rewrite ?e2, ?e3; auto.
  intros j Hj. specialize (C j Hj). unfold deref in *. rewrite e1. exact C.
Qed.
Lemma ext_raise m0 m name v : Ext m0 m -> Ext m0 (raise m name v).
Proof. intros X. apply (ext_like m0 m); [exact X|..]; unfold raise; destruct (v >? _); reflexivity. Qed.
Lemma ext_row m0 m a i s : Ext m0 m -> Ext m0 (set_row m a i s).
Proof. intros X. apply (ext_like m0 m); [exact X|..]; reflexivity. Qed.
Lemma ext_env {W} (env : surroundings W) m0 q w m w1 m1 a : OnlyAdds env -> Ext m0 m -> env q w m = (w1, m1, a) -> Ext m0 m1.
Proof. intros OA X e. apply (ext_step m0 m); [exact X|]. specialize (OA q w m (ex_valid _ _ X)). rewrite e in OA. exact OA. Qed.
Lemma ext_run {W R} (env : surroundings W) (p : lprog R) m0 : OnlyAdds env -> forall w m w' m' r tr, Ext m0 m -> lrun env p w m = (w', m', r, tr) -> Ext m0 m'.
Proof.
  intros OA. induction p as [x|q k IH|k IH|name k IH|name v p IH|a i s p IH]; intros w m w' m' r tr X e.
  - cbn in e. injection e as <- <- <- <-. exact X.
  - apply lrun_ask in e. destruct e as (w1 & m1 & b & t & e1 & e2 & ->). apply (IH b w1 m1 w' m' r t); [|exact e2]. exact (ext_env env m0 q w m w1 m1 b OA X e1).
  - apply (IH m w m w' m' r tr X e).
  - cbn [lrun] in e. destruct (lrun env (k _) w m) as [[[w2 m2] b] t2] eqn:K. injection e as <- <- <- <-. exact (IH _ _ _ _ _ _ _ X K).
  - cbn [lrun] in e. cbv zeta in e. destruct (lrun env p w _) as [[[w2 m2] b] t2] eqn:K. injection e as <- <- <- <-. exact (IH _ _ _ _ _ _ (ext_raise _ _ _ _ X) K).
  - cbn [lrun] in e. cbv zeta in e. destruct (lrun env p w _) as [[[w2 m2] b] t2] eqn:K. injection e as <- <- <- <-. exact (IH _ _ _ _ _ _ (ext_row _ _ _ _ _ X) K).
Qed.
Lemma cols_len (m : lmem) h : length (cols_in m h) = hLen h.
Proof. unfold cols_in. rewrite map_length, seq_length. reflexivity. Qed.
Lemma cols_nth (m : lmem) h j : (j < hLen h)%nat -> nth_error (cols_in m h) j = Some (deref m (ptr m h j)).
Proof.
  intros Hj. unfold cols_in. rewrite nth_error_map.
  assert (nth_error (seq 0 (hLen h)) j = Some j) as ->; [|reflexivity].
  rewrite (nth_error_nth' _ 0%nat) by (rewrite seq_length; lia). rewrite seq_nth by lia. reflexivity.
Qed.
(** As long as none was added, the columns are the same. *)
Lemma ext_same m0 m : Ext m0 m -> hLen (lSlice m) = hLen (lSlice m0) -> cols_now m = cols_now m0.
Proof.
  intros X e. unfold cols_now, cols_in. rewrite e. apply map_ext_in. intros j Hj. apply in_seq in Hj. rewrite (ex_new _ _ X) by lia. apply (ex_cols _ _ X). lia.
Qed.
(** A loop that took the header then sees those. *)
Lemma ext_at m0 m j : Ext m0 m -> (j < hLen (lSlice m0))%nat -> nth_error (cols_now m0) j = Some (deref m (ptr m (lSlice m0) j)).
Proof. intros X Hj. unfold cols_now. rewrite cols_nth by exact Hj. rewrite (ex_old _ _ X) by exact Hj. rewrite (ex_cols _ _ X) by exact Hj. reflexivity. Qed.
Lemma ext_now m0 m j : Ext m0 m -> (j < hLen (lSlice m0))%nat -> nth_error (cols_now m0) j = Some (deref m (ptr m (lSlice m) j)).
Proof. intros X Hj. unfold cols_now. rewrite cols_nth by exact Hj. rewrite (ex_new _ _ X) by exact Hj. rewrite (ex_cols _ _ X) by exact Hj. reflexivity. Qed.

(** ** Simulation *)
Definition Sim {W A} (env : surroundings W) (P : A -> lmem -> Prop) (pl : lprog A) (pk : kprog A) (w : W) (m : lmem) : Prop :=
  forall w' m' r tr, lrun env pl w m = (w', m', r, tr) -> P r m' ->
  forall mk, set_widths mk (lWidths m) = m -> exists mk', set_widths mk' (lWidths m') = m' /\
    krun (as_environment env) pk (w, mk) (lWidths m) = ((w', mk'), lWidths m', r, acts tr).
Lemma sim_ret {W A} (env : surroundings W) P (a : A) w m : Sim env P (LRet a) (KRet a) w m.
Proof. intros w' m' r tr e _ mk Hm. cbn in e. injection e as <- <- <- <-. exists mk. auto. Qed.
Lemma sim_bind {W A B} (env : surroundings W) (Q : A -> lmem -> Prop) (P : B -> lmem -> Prop) pl pk (fl : A -> lprog B) fk w m :
  Sim env Q pl pk w m ->
  (forall w' m' a tr w'' m'' b tr', lrun env pl w m = (w', m', a, tr) -> lrun env (fl a) w' m' = (w'', m'', b, tr') -> P b m'' -> Q a m') ->
  (forall w' m' a tr, lrun env pl w m = (w', m', a, tr) -> Sim env P (fl a) (fk a) w' m') ->
  Sim env P (lbind pl fl) (kbind pk fk) w m.
Proof.
  intros S1 HQ S2 w' m' r tr e HP mk Hm. apply lrun_bind_inv in e. destruct e as (w1 & m1 & a & t1 & t2 & e1 & e2 & ->).
  destruct (S1 _ _ _ _ e1 (HQ _ _ _ _ _ _ _ _ e1 e2 HP) mk Hm) as (mk1 & Hm1 & K1).
  destruct (S2 _ _ _ _ e1 _ _ _ _ e2 HP mk1 Hm1) as (mk2 & Hm2 & K2).
  exists mk2. split; [exact Hm2|]. rewrite krun_bind, K1, K2, acts_app. reflexivity.
Qed.
Lemma sim_ask {W R} (env : surroundings W) P q (kl : lanswer q -> lprog R) (kk : answer q -> kprog R) w m :
  (forall w1 m1 a, env q w m = (w1, m1, a) -> Sim env P (kl a) (kk (as_answer q m1 a)) w1 m1) -> Sim env P (LAsk q kl) (KAsk q kk) w m.
Proof.
  intros S w' m' r tr e HP mk Hm. apply lrun_ask in e. destruct e as (w1 & m1 & a & t & e1 & e2 & ->).
  destruct (S _ _ _ e1 _ _ _ _ e2 HP m1 (set_same m1)) as (mk' & Hm' & K). exists mk'. split; [exact Hm'|].
  cbn [krun]. unfold as_environment at 1. cbn [fst snd]. rewrite Hm, e1, K. reflexivity.
Qed.
Lemma sim_see {W R} (env : surroundings W) P (k : lmem -> lprog R) (pk : kprog R) w m : Sim env P (k m) pk w m -> Sim env P (LSee k) pk w m.
Proof. intros S. exact S. Qed.
Lemma sim_look {W R} (env : surroundings W) P name (kl : Z -> lprog R) (kk : Z -> kprog R) w m :
  Sim env P (kl (lWidths m name)) (kk (lWidths m name)) w m -> Sim env P (LLook name kl) (KLook name kk) w m.
Proof.
  intros S w' m' r tr e HP mk Hm. cbn [lrun] in e. destruct (lrun env (kl _) w m) as [[[w2 m2] b] t2] eqn:K. injection e as <- <- <- <-.
  destruct (S _ _ _ _ K HP mk Hm) as (mk' & Hm' & K'). exists mk'. split; [exact Hm'|]. cbn [krun]. rewrite K'. reflexivity.
Qed.
Lemma sim_raise {W R} (env : surroundings W) P name v (pl : lprog R) (pk : kprog R) w m :
  Sim env P pl pk w (raise m name v) -> Sim env P (LRaise name v pl) (KRaise name v pk) w m.
Proof.
  intros S w' m' r tr e HP mk Hm. cbn [lrun] in e. cbv zeta in e. destruct (lrun env pl w _) as [[[w2 m2] b] t2] eqn:K. injection e as <- <- <- <-.
  assert (Hm1 : set_widths mk (lWidths (raise m name v)) = raise m name v).
  { unfold raise. destruct (v >? lWidths m name); [|exact Hm]. destruct mk as [a1 a2 a3 a4 a5], m as [b1 b2 b3 b4 b5]. unfold set_widths in *; cbn in *. injection Hm as -> -> -> ->. reflexivity. }
  destruct (S _ _ _ _ K HP mk Hm1) as (mk' & Hm' & K'). exists mk'. split; [exact Hm'|]. cbn [krun].
  replace (if v >? lWidths m name then wset (lWidths m) name v else lWidths m) with (lWidths (raise m name v)) by (unfold raise; destruct (v >? lWidths m name); reflexivity).
  rewrite K'. reflexivity.
Qed.
Lemma sim_weaken {W A} (env : surroundings W) (P Q : A -> lmem -> Prop) pl pk w m : (forall a m, P a m -> Q a m) -> Sim env Q pl pk w m -> Sim env P pl pk w m.
Proof. intros HQ S w' m' r tr e HP. exact (S w' m' r tr e (HQ _ _ HP)). Qed.
Lemma sim_conv {W A} (env : surroundings W) (P : A -> lmem -> Prop) pl pk pk' w m : (forall st mw, krun (as_environment env) pk st mw = krun (as_environment env) pk' st mw) -> Sim env P pl pk w m -> Sim env P pl pk' w m.
Proof. intros e S w' m' r tr K HP mk Hm. destruct (S w' m' r tr K HP mk Hm) as (mk' & Hm' & K'). exists mk'. rewrite <- e. auto. Qed.
(** Whatever the result. *)
Definition any {A} (a : A) (m : lmem) : Prop := True.
(** If it succeeds. *)
Definition good {X A} (o : outcome X A) (m : lmem) : Prop := exists a, o = Ok a.
Lemma sim_obind_any {W X A B} (env : surroundings W) pl pk (fl : A -> lprog (outcome X B)) fk w m :
  Sim env any pl pk w m -> (forall w' m' a tr, lrun env pl w m = (w', m', Ok a, tr) -> Sim env any (fl a) (fk a) w' m') ->
  Sim env any (lobind pl fl) (kobind pk fk) w m.
Proof.
  intros S1 S2. apply (sim_bind env any any); [exact S1|constructor|]. intros w' m' [a|e|p] tr K; [exact (S2 _ _ _ _ K)|apply sim_ret|apply sim_ret].
Qed.
Lemma sim_obind_good {W X A B} (env : surroundings W) pl pk (fl : A -> lprog (outcome X B)) fk w m :
  Sim env good pl pk w m -> (forall w' m' a tr, lrun env pl w m = (w', m', Ok a, tr) -> Sim env good (fl a) (fk a) w' m') ->
  Sim env good (lobind pl fl) (kobind pk fk) w m.
Proof.
  intros S1 S2. apply (sim_bind env good good); [exact S1| |].
  - intros w' m' [a|e|p] tr w'' m'' b tr' K1 K2 [b' ->]; [exists a; reflexivity|cbn in K2; discriminate|cbn in K2; discriminate].
  - intros w' m' [a|e|p] tr K; [exact (S2 _ _ _ _ K)|apply sim_ret|apply sim_ret].
Qed.
Lemma sim_map_any {W X A B} (env : surroundings W) (fl : A -> lprog (outcome X B)) fk : (forall a w m, Sim env any (fl a) (fk a) w m) ->
  forall l w m, Sim env any (lmap fl l) (kmap fk l) w m.
Proof.
  intros S l. induction l as [|a l IH]; intros w m; cbn [lmap kmap]; [apply sim_ret|].
  apply sim_obind_any; [apply S|]. intros w' m' b tr _. apply sim_obind_any; [apply IH|]. intros. apply sim_ret.
Qed.
End Basics.
