(** * SharedProofs: goroutines that share objects. *)
From Verif Require Import GoBase Runewidth Width Table Merge TableContract MergeSpec MergeAsked Calls CallsSpec CallsProofs CallsMerge CallsSearch CallsResults CallsSteady CallsFinal Shared SharedSpec.
From Coq Require Import ZifyBool ZifyNat Eqdep_dec.
Local Open Scope Z_scope.

Section Types.
Context {Item Val E G L W : Type}.

Lemma put_same {R} (ths : threads Item Val E G L R) i th : put ths i th i = th.
Proof. unfold put. destruct (Nat.eq_dec i i) as [e|n]; [|congruence]. rewrite (UIP_dec Nat.eq_dec e eq_refl). reflexivity. Qed.
Lemma put_other {R} (ths : threads Item Val E G L R) i j th : i <> j -> put ths i th j = ths j.
Proof. intros N. unfold put. destruct (Nat.eq_dec i j); [contradiction|reflexivity]. Qed.

Lemma tstep_trace {R} (env : environment Item Val E G L W) w (th : thread Item Val E G L R) w' th' : tstep env w th = Some (w', th') ->
  exists a, thTrace th' = thTrace th ++ [a].
Proof.
  unfold tstep. destruct (thProg th) as [r|q k|name k|name v p]; [discriminate| | |].
  - destruct (env q w (thMap th)) as [[w1 m1] a]. intros K. injection K as <- <-. eexists. reflexivity.
  - intros K. injection K as <- <-. eexists. reflexivity.
  - intros K. injection K as <- <-. eexists. reflexivity.
Qed.

(** A goroutine's own log. *)
Lemma done_app {A} i (l l' : list (nat * A)) : done_by i (l ++ l') = done_by i l ++ done_by i l'.
Proof. unfold done_by. apply flat_map_app. Qed.
Lemma own_log {R} (env : nat -> environment Item Val E G L W) w (ths : threads Item Val E G L R) w' ths' log : texec env w ths w' ths' log ->
  forall i, thTrace (ths' i) = thTrace (ths i) ++ done_by i log.
Proof.
  induction 1 as [w ths|w ths w1 ths1 log j w2 th2 a HE IH HS HT]; intros i; [cbn; rewrite app_nil_r; reflexivity|].
  rewrite done_app. cbn [done_by flat_map fst snd]. destruct (Nat.eqb_spec j i) as [->|N].
  - rewrite put_same, HT, IH, <- app_assoc. reflexivity.
  - rewrite put_other, IH by exact N. cbn. rewrite app_nil_r. reflexivity.
Qed.

(** The states to jump to do not depend on what comes after. *)
Lemma krun_step {R} (env : environment Item Val E G L W) d (p : kprog Item Val E G L R) m tr w w' th' :
  tstep env w {| thProg := p; thMap := m; thTrace := tr |} = Some (w', th') -> exists ws a,
  thTrace th' = tr ++ [a] /\ forall rest,
  krun (jumping env d) p (ws ++ rest) m = let '(w2, m2, r, tr2) := krun (jumping env d) (thProg th') rest (thMap th') in (w2, m2, r, a :: tr2).
Proof.
  unfold tstep. cbn [thProg thMap thTrace]. destruct p as [r|q k|name k|name v p]; [discriminate| | |].
  - destruct (env q w m) as [[w1 m1] a] eqn:Eq. intros K. injection K as <- <-. exists [w], (Called q a). split; [reflexivity|]. intros rest.
    cbn [app krun jumping thProg thMap]. rewrite Eq. destruct (krun _ (k a) rest m1) as [[[? ?] ?] ?]. reflexivity.
  - intros K. injection K as <- <-. exists [], (Looked name (m name)). split; [reflexivity|]. intros rest. cbn [app krun thProg thMap].
    destruct (krun _ (k (m name)) rest m) as [[[? ?] ?] ?]. reflexivity.
  - intros K. injection K as <- <-. exists [], (Raised name v). split; [reflexivity|]. intros rest. cbn [app krun thProg thMap].
    destruct (krun _ p rest _) as [[[? ?] ?] ?]. reflexivity.
Qed.

Lemma replayed {R} (env : nat -> environment Item Val E G L W) d w (ths : threads Item Val E G L R) w' ths' log : texec env w ths w' ths' log ->
  forall i, exists ws, forall rest,
  krun (jumping (env i) d) (thProg (ths i)) (ws ++ rest) (thMap (ths i)) =
  let '(w2, m2, r, tr2) := krun (jumping (env i) d) (thProg (ths' i)) rest (thMap (ths' i)) in (w2, m2, r, done_by i log ++ tr2).
Proof.
  induction 1 as [w ths|w ths w1 ths1 log j w2 th2 a HE IH HS HT]; intros i.
  - exists []. intros rest. cbn [app done_by flat_map]. destruct (krun _ _ rest _) as [[[? ?] ?] ?]. reflexivity.
  - destruct (IH i) as (ws & K). rewrite done_app. cbn [done_by flat_map fst snd]. destruct (Nat.eqb_spec j i) as [->|N].
    + rewrite put_same. destruct (ths1 i) as [p1 m1 tr1] eqn:Et. destruct (krun_step (env i) d p1 m1 tr1 w1 w2 th2 HS) as (ws' & a' & Ha & K').
      cbn [thTrace thProg thMap] in *. assert (a' = a) by (rewrite Ha in HT; apply app_inj_tail in HT; tauto). subst a'.
      exists (ws ++ ws'). intros rest. rewrite <- app_assoc, K, K'. destruct (krun _ (thProg th2) rest (thMap th2)) as [[[? ?] ?] ?].
      rewrite <- app_assoc. reflexivity.
    + rewrite put_other by exact N. exists ws. intros rest. rewrite K. cbn [app]. rewrite app_nil_r. reflexivity.
Qed.

(** A goroutine that has returned did what it does alone, with objects that jump. *)
Theorem returned {R} (env : nat -> environment Item Val E G L W) d p m w w' (ths' : threads Item Val E G L R) log :
  texec env w (start p m) w' ths' log -> forall i r, thProg (ths' i) = KRet r ->
  exists ws, krun (jumping (env i) d) (p i) ws (m i) = ([], thMap (ths' i), r, done_by i log).
Proof.
  intros HE i r Hr. destruct (replayed env d _ _ _ _ _ HE i) as (ws & K). specialize (K []). rewrite Hr in K. cbn [start thProg thMap krun] in K. exists (ws ++ []). rewrite K. rewrite app_nil_r. reflexivity.
Qed.

Lemma jumping_quiet (env : environment Item Val E G L W) d : Quiet env -> Quiet (jumping env d).
Proof.
  intros HQ q ws m. unfold jumping. destruct ws as [|w ws]; [specialize (HQ q d m); destruct (env q d m) as [[? ?] ?]|specialize (HQ q w m); destruct (env q w m) as [[? ?] ?]]; exact HQ.
Qed.
Lemma jumping_grows (env : environment Item Val E G L W) d : Grows env -> Grows (jumping env d).
Proof.
  intros HQ q ws m n. unfold jumping. destruct ws as [|w ws]; [specialize (HQ q d m n); destruct (env q d m) as [[? ?] ?]|specialize (HQ q w m n); destruct (env q w m) as [[? ?] ?]]; exact HQ.
Qed.

(** Every goroutine can go on until it has returned. *)
Lemma goes_on {R} (env : nat -> environment Item Val E G L W) w (ths : threads Item Val E G L R) i :
  (exists r, thProg (ths i) = KRet r) \/ exists w' th' a, tstep (env i) w (ths i) = Some (w', th') /\ thTrace th' = thTrace (ths i) ++ [a].
Proof.
  destruct (tstep (env i) w (ths i)) as [[w' th']|] eqn:Es.
  - right. destruct (tstep_trace _ _ _ _ _ Es) as (a & Ha). eauto 6.
  - left. unfold tstep in Es. destruct (thProg (ths i)) as [r|q k|name k|name v p]; [eauto| |discriminate|discriminate].
    destruct (env i q w (thMap (ths i))) as [[? ?] ?]. discriminate.
Qed.
Theorem can_end {R} (env : nat -> environment Item Val E G L W) w0 ths0 log0 w (ths : threads Item Val E G L R) i :
  texec env w0 ths0 w ths log0 -> exists w' ths' more r, texec env w0 ths0 w' ths' (log0 ++ more) /\ thProg (ths' i) = KRet r /\ forall j, j <> i -> ths' j = ths j.
Proof.
  enough (G1 : forall (p : kprog Item Val E G L (R i)) w ths log0, thProg (ths i) = p -> texec env w0 ths0 w ths log0 ->
    exists w' ths' more r, texec env w0 ths0 w' ths' (log0 ++ more) /\ thProg (ths' i) = KRet r /\ forall j, j <> i -> ths' j = ths j) by (intros HE; exact (G1 _ w ths log0 eq_refl HE)).
  clear. induction p as [r|q k IH|name k IH|name v p IH]; intros w ths log0 Ep HE.
  - exists w, ths, [], r. rewrite app_nil_r. auto.
  - destruct (env i q w (thMap (ths i))) as [[w1 m1] a] eqn:Eq.
    assert (HS : tstep (env i) w (ths i) = Some (w1, {| thProg := k a; thMap := m1; thTrace := thTrace (ths i) ++ [Called q a] |})) by (unfold tstep; rewrite Ep, Eq; reflexivity).
    destruct (IH a w1 (put ths i {| thProg := k a; thMap := m1; thTrace := thTrace (ths i) ++ [Called q a] |}) (log0 ++ [(i, Called q a)])) as (w' & ths' & more & r & H1 & H2 & H3).
    + rewrite put_same. reflexivity.
    + eapply te_step; [exact HE|exact HS|reflexivity].
    + exists w', ths', ((i, Called q a) :: more), r. split; [rewrite <- app_assoc in H1; exact H1|]. split; [exact H2|]. intros j Hj. rewrite H3, put_other by auto. reflexivity.
  - destruct (IH (thMap (ths i) name) w (put ths i {| thProg := k (thMap (ths i) name); thMap := thMap (ths i); thTrace := thTrace (ths i) ++ [Looked name (thMap (ths i) name)] |}) (log0 ++ [(i, Looked name (thMap (ths i) name))])) as (w' & ths' & more & r & H1 & H2 & H3).
    + rewrite put_same. reflexivity.
    + eapply te_step; [exact HE|unfold tstep; rewrite Ep; reflexivity|reflexivity].
    + exists w', ths', ((i, Looked name (thMap (ths i) name)) :: more), r. split; [rewrite <- app_assoc in H1; exact H1|]. split; [exact H2|]. intros j Hj. rewrite H3, put_other by auto. reflexivity.
  - destruct (IH w (put ths i {| thProg := p; thMap := (if v >? thMap (ths i) name then wset (thMap (ths i)) name v else thMap (ths i)); thTrace := thTrace (ths i) ++ [Raised name v] |}) (log0 ++ [(i, Raised name v)])) as (w' & ths' & more & r & H1 & H2 & H3).
    + rewrite put_same. reflexivity.
    + eapply te_step; [exact HE|unfold tstep; rewrite Ep; reflexivity|reflexivity].
    + exists w', ths', ((i, Raised name v) :: more), r. split; [rewrite <- app_assoc in H1; exact H1|]. split; [exact H2|]. intros j Hj. rewrite H3, put_other by auto. reflexivity.
Qed.
End Types.

(** ** One writer *)
Section Writer.
Context {Item Val E W : Type}.
Notation act := (act Item Val E (Getter Item Val E) (str -> Z -> str)).
Definition answers (tr : list act) : list bool :=
  flat_map (fun a => match a with
    | Called q a => match q return answer q -> list bool with CWrite s => fun a => match a with Ok _ => [true] | _ => [false] end | _ => fun _ => [] end a
    | _ => [] end) tr.

Lemma writer_alone {R} lists wr (e : E) i (d : W) (p : kprog Item Val E (Getter Item Val E) (str -> Z -> str) R) : forall ws m w' m' r tr pre ok,
  krun (jumping (one_writer lists wr e i) d) p ws m = (w', m', r, tr) ->
  (forall k b, nth_error (pre ++ answers tr) k = Some b -> ok k = b) ->
  krun (steady (fst (lists i)) (snd (lists i)) ok e) p (length pre) m = ((length pre + length (answers tr))%nat, m', r, tr).
Proof.
  induction p as [r0|q k IH|name k IH|name v p IH]; intros ws m w' m' r tr pre ok HR Hok.
  - cbn in HR. injection HR as <- <- <- <-. cbn. rewrite Nat.add_0_r. reflexivity.
  - cbn [krun] in HR |- *.
    destruct (jumping (one_writer lists wr e i) d q ws m) as [[ws1 m1] a] eqn:Ej.
    destruct (krun _ (k a) ws1 m1) as [[[w2 m2] r2] tr2] eqn:Ek. injection HR as <- <- <- <-.
    assert (Other : (forall l, nth_error (pre ++ answers tr2) l = nth_error (pre ++ answers (Called q a :: tr2)) l) -> length (answers (Called q a :: tr2)) = length (answers tr2) ->
      steady (fst (lists i)) (snd (lists i)) ok e q (length pre) m = (length pre, m1, a) ->
      (let '(w1, m3, a0) := steady (fst (lists i)) (snd (lists i)) ok e q (length pre) m in
       let '(w3, m4, r, tr) := krun (steady (fst (lists i)) (snd (lists i)) ok e) (k a0) w1 m3 in (w3, m4, r, Called q a0 :: tr))
      = ((length pre + length (answers (Called q a :: tr2)))%nat, m2, r2, Called q a :: tr2)).
    { intros K1 K2 K3. rewrite K3. rewrite (IH a ws1 m1 w2 m2 r2 tr2 pre ok Ek); [rewrite K2; reflexivity|]. intros l b Hl. apply Hok. rewrite <- K1. exact Hl. }
    destruct q as [g item|g item v|g name item|al s wd| |j|s].
    1-6: apply Other; [intros l; reflexivity|reflexivity|]; unfold jumping, one_writer in Ej; destruct ws; injection Ej as <- <- <-; reflexivity.
    clear Other.
    assert (Hb : m1 = m /\ exists b : bool, a = (if b then Ok tt else Err e)).
    { unfold jumping, one_writer in Ej. destruct ws as [|w ws].
      - destruct (wr i s d) as [w3 b]. injection Ej as <- <- <-. eauto.
      - destruct (wr i s w) as [w3 b]. injection Ej as <- <- <-. eauto. }
    destruct Hb as [-> [b ->]].
    assert (Eo : ok (length pre) = b).
    { apply Hok. rewrite nth_error_app2, Nat.sub_diag by lia. destruct b; reflexivity. }
    cbn [steady]. rewrite Eo.
    assert (Ea : answers (Called (CWrite s) (if b then Ok tt else Err e) :: tr2) = b :: answers tr2) by (destruct b; reflexivity).
    rewrite Ea in Hok |- *.
    assert (Ek2 : krun (steady (fst (lists i)) (snd (lists i)) ok e) (k (if b then Ok tt else Err e)) (S (length pre)) m = ((S (length pre) + length (answers tr2))%nat, m2, r2, tr2)).
    { assert (K : krun (steady (fst (lists i)) (snd (lists i)) ok e) (k (if b then Ok tt else Err e)) (length (pre ++ [b])) m = ((length (pre ++ [b]) + length (answers tr2))%nat, m2, r2, tr2)).
      - apply (IH (if b then Ok tt else Err e) ws1 m w2 m2 r2 tr2 (pre ++ [b]) ok Ek). intros l b' Hl. rewrite <- app_assoc in Hl. apply Hok. exact Hl.
      - rewrite app_length, Nat.add_1_r in K. exact K. }
    match goal with |- ?lhs = _ => change (lhs) with (let '(w3, m4, r, tr) := krun (steady (fst (lists i)) (snd (lists i)) ok e) (k (if b then Ok tt else Err e)) (S (length pre)) m in (w3, m4, r, Called (CWrite s) (if b then Ok tt else Err e) :: tr)) end.
    rewrite Ek2. cbn [length]. rewrite Nat.add_succ_r. reflexivity.
  - cbn [krun] in HR |- *. destruct (krun _ (k (m name)) ws m) as [[[w2 m2] r2] tr2] eqn:Ek. injection HR as <- <- <- <-.
    rewrite (IH (m name) ws m w2 m2 r2 tr2 pre ok Ek Hok). reflexivity.
  - cbn [krun] in HR |- *. destruct (krun _ p ws _) as [[[w2 m2] r2] tr2] eqn:Ek. injection HR as <- <- <- <-.
    rewrite (IH ws _ w2 m2 r2 tr2 pre ok Ek Hok). reflexivity.
Qed.

Lemma written_app (l l' : list act) : written_by (l ++ l') = written_by l ++ written_by l'.
Proof. unfold written_by. apply flat_map_app. Qed.
Lemma accepted_by i (log : list (nat * act)) : done_by i (accepted log) = written_by (done_by i log).
Proof.
  induction log as [|[j a] log IH]; [reflexivity|]. change (accepted ((j, a) :: log)) with (map (pair j) (written_by [a]) ++ accepted log).
  rewrite done_app, IH. change (done_by i ((j, a) :: log)) with ((if Nat.eqb j i then [a] else []) ++ done_by i log). rewrite written_app. f_equal.
  unfold done_by. destruct (Nat.eqb j i) eqn:Ej.
  - generalize (written_by [a]). intros l. induction l as [|s l IHl]; [reflexivity|]. cbn [map flat_map fst snd]. rewrite Ej. cbn [app]. f_equal. exact IHl.
  - generalize (written_by [a]). intros l. induction l as [|s l IHl]; [reflexivity|]. cbn [map flat_map fst snd]. rewrite Ej. exact IHl.
Qed.

(** Goroutines that merge into one writer: what it accepted from each is what that one
    writes alone, to a writer that answers as this one answered to it. *)
Theorem merging_together lists wr (e : E) (d w w' : W) (xs : nat -> merging Item Val E) (ms : nat -> wmap) (ths' : threads _ _ _ _ _ (fun _ => option (outcome Empty_set unit))) log :
  (forall i, columnWidth (mgTable (xs i)) = Some (ms i)) ->
  texec (one_writer lists wr e) w (start (fun i => program (xs i)) ms) w' ths' log ->
  forall i r, thProg (ths' i) = KRet r ->
  exists ok, alone (xs i) (fst (lists i)) (snd (lists i)) ok = {| written := done_by i (accepted log); stop := stop_of r |}
    /\ (forall k b, nth_error (answers (done_by i log)) k = Some b -> ok k = b).
Proof.
  intros Hm HE i r Hr. destruct (returned (one_writer lists wr e) d _ _ _ _ _ _ HE i r Hr) as (ws & K).
  set (ok := fun k => match nth_error (answers (done_by i log)) k with Some b => b | None => true end).
  assert (Hok : forall k b, nth_error ([] ++ answers (done_by i log)) k = Some b -> ok k = b) by (intros k b Hk; unfold ok; cbn [app] in Hk; rewrite Hk; reflexivity).
  pose proof (writer_alone lists wr e i d (program (xs i)) ws (ms i) _ _ _ _ [] ok K Hok) as K2. cbn [length] in K2.
  exists ok. split; [|exact Hok]. unfold alone, program in *. destruct (steady_merge (Hm i) _ _ _ _ _ _ _ _ _ K2) as [_ K3]. rewrite K3, accepted_by. reflexivity.
Qed.
(** And of one that has not returned, the first part. *)
Theorem merging_midway lists wr (e : E) (d w w' : W) (xs : nat -> merging Item Val E) (ms : nat -> wmap) (ths' : threads _ _ _ _ _ (fun _ => option (outcome Empty_set unit))) log :
  (forall i, columnWidth (mgTable (xs i)) = Some (ms i)) ->
  texec (one_writer lists wr e) w (start (fun i => program (xs i)) ms) w' ths' log ->
  forall i, exists ok more, written (alone (xs i) (fst (lists i)) (snd (lists i)) ok) = done_by i (accepted log) ++ more
    /\ (forall k b, nth_error (answers (done_by i log)) k = Some b -> ok k = b).
Proof.
  intros Hm HE i. destruct (can_end _ _ _ _ _ _ i HE) as (w2 & ths2 & more & r & H1 & H2 & _).
  destruct (merging_together lists wr e d w w2 xs ms ths2 _ Hm H1 i r H2) as (ok & K1 & K2). exists ok. rewrite K1. cbn [written].
  unfold accepted. rewrite flat_map_app, done_app. eexists. split; [reflexivity|]. intros k b Hk. apply K2. rewrite done_app. unfold answers.
  rewrite flat_map_app. rewrite nth_error_app1; [exact Hk|]. apply nth_error_Some. unfold answers in Hk. rewrite Hk. discriminate.
Qed.
End Writer.

(** ** Executions from schedules *)
Section Drive.
Context {Item Val E G L W : Type}.
Fixpoint drive {R} (env : nat -> environment Item Val E G L W) (sched : list nat) (w : W) (ths : threads Item Val E G L R) (log : list (nat * act Item Val E G L))
  : W * threads Item Val E G L R * list (nat * act Item Val E G L) :=
  match sched with
  | [] => (w, ths, log)
  | i :: rest =>
    match tstep (env i) w (ths i) with
    | None => drive env rest w ths log
    | Some (w', th') => match rev (thTrace th') with a :: _ => drive env rest w' (put ths i th') (log ++ [(i, a)]) | [] => (w, ths, log) end
    end
  end.
Lemma drive_ok {R} (env : nat -> environment Item Val E G L W) w0 (ths0 : threads Item Val E G L R) sched : forall w ths log,
  texec env w0 ths0 w ths log -> let '(w', ths', log') := drive env sched w ths log in texec env w0 ths0 w' ths' log'.
Proof.
  induction sched as [|i rest IH]; intros w ths log HE; [exact HE|]. cbn [drive]. destruct (tstep (env i) w (ths i)) as [[w' th']|] eqn:Es; [|apply IH, HE].
  destruct (tstep_trace _ _ _ _ _ Es) as (a & Ha). rewrite Ha, rev_app_distr. cbn [rev app]. apply IH. eapply te_step; eassumption.
Qed.
End Drive.

(** ** What C68 says of one goroutine *)
Section Each.
Context {Item Val E G L W : Type}.
Lemma each_format (env : nat -> environment Item Val E G L W) (w w' : W) c (cols : nat -> list (option (kcol G L))) (item : nat -> Item) ms
    (ths' : threads Item Val E G L (fun _ => outcome E (list str))) log :
  texec env w (start (fun i => FormatItemK c (cols i) (item i)) ms) w' ths' log -> forall i r, thProg (ths' i) = KRet r ->
  FormatActs c (item i) (cols i) (done_by i log) r
  /\ (Grows (env i) -> forall kcols texts, cols i = map Some kcols -> r = Ok texts ->
      length texts = length kcols /\ forall j col s, nth_error kcols j = Some col -> nth_error texts j = Some s -> vwidth c s <= thMap (ths' i) (kName col)).
Proof.
  intros HE i r Hr. destruct (returned env w _ _ _ _ _ _ HE i _ Hr) as (ws & K). cbv beta in K. split; [exact (format_run _ _ _ _ _ _ _ _ _ _ K)|].
  intros HG kcols texts Ec ->. rewrite Ec in K. destruct (format_widths _ _ _ _ _ _ _ _ _ _ (jumping_grows _ w HG) K) as (K1 & _ & K2). split; [exact K1|exact K2].
Qed.

Lemma each_merge (env : nat -> environment Item Val E G L W) (w w' : W) (m : nat -> mode) (fuel : nat -> nat) c (cols : nat -> list (kcol G L)) (maxWidth : nat -> Z) (sep : nat -> str) (compact : nat -> bool) ms
    (ths' : threads Item Val E G L (fun _ => option (outcome Empty_set unit))) log :
  texec env w (start (fun i => mergeK (m i) (fuel i) c (map Some (cols i)) (maxWidth i) (sep i) (compact i)) ms) w' ths' log ->
  forall i r, thProg (ths' i) = KRet r ->
  AsksWithin None (done_by i log) /\ (forall name v, ~ In (Raised name v) (done_by i log))
  /\ (Counts (done_by i log) ->
      (forall p, r = Some (Panic p) -> kreckoned (ms i) (cols i) (sep i) mod 65536 <> 0 -> Blame (length (cols i)) (done_by i log) p)
      /\ (compact i = false -> r = Some (Ok tt) ->
          exists g rest lines, Z.of_nat g = kestimate (ms i) (cols i) (sep i) (maxWidth i)
            /\ done_by i log = looks (ms i) (cols i) ++ rest /\ Prints c (cols i) (sep i) (m i) g true lines rest)
      /\ (compact i = true -> r = Some (Ok tt) ->
          exists g0 g Wd search print lines, Z.of_nat g0 = kestimate (ms i) (cols i) (sep i) (maxWidth i)
            /\ done_by i log = looks (ms i) (cols i) ++ search ++ print /\
            Searches c (m i) (cols i) (sep i) (maxWidth i) g0 None search g Wd /\
            match Wd with None => Prints c (cols i) (sep i) (m i) g true lines print
            | Some Wg => Prints c (cols i) (sep i) (m i) g false lines print /\ UsesWidths Wg lines end)).
Proof.
  intros HE i r Hr. destruct (returned env w _ _ _ _ _ _ HE i _ Hr) as (ws & K). cbv beta in K.
  destruct (merge_asks _ _ _ _ _ _ _ _ _ _ _ _ _ _ K) as [A1 A2]. split; [exact A1|]. split; [exact A2|]. intros HC.
  split; [intros p -> HZ; exact (merge_blame _ _ _ _ _ _ _ _ _ _ _ _ _ _ K HC HZ)|].
  split; intros Ec ->; rewrite Ec in K; [exact (plain_finished _ _ _ _ _ _ _ _ _ _ _ _ K HC)|exact (compact_finished _ _ _ _ _ _ _ _ _ _ _ _ K HC)].
Qed.
End Each.
