(** * SwapProofs: a table whose parts are replaced while its functions run. *)
From Coq Require Import ZifyBool ZifyNat.
From Verif Require Import GoBase Runewidth Width CacheProofs Table Merge TableContract MergeSpec Calls CallsSpec Live LiveSpec LiveProofs Swap SwapSpec.
Local Open Scope Z_scope.

Section Basics.
Context {Item Val E G L : Type}.
Notation smem := (smem G L).
Notation lmem := (lmem G L).
Notation sevent := (sevent Item Val E G L).
Notation objects := (objects Item Val E G L).
Notation sprog := (sprog Item Val E G L).
Notation lprog := (lprog Item Val E G L).
Notation res := (outcome Empty_set).

Lemma srun_bind {W A B} (env : objects W) (p : sprog A) (f : A -> sprog B) : forall w m,
  srun env (sbind p f) w m = let '(w1, m1, a, t1) := srun env p w m in let '(w2, m2, r, t2) := srun env (f a) w1 m1 in (w2, m2, r, t1 ++ t2).
Proof.
  induction p as [x|q k IH|k IH|name k IH|cw name v p IH1 b IH2|a i s p IH]; intros w m; cbn [srun sbind].
  - destruct (srun env (f x) w m) as [[[w2 m2] r2] t2]. reflexivity.
  - destruct (env q w m) as [[w1 m1] a]. rewrite IH. destruct (srun env (k a) w1 m1) as [[[w2 m2] r2] t2].
    destruct (srun env (f r2) w2 m2) as [[[w3 m3] r3] t3]. reflexivity.
  - apply IH.
  - cbv zeta. rewrite IH. destruct (srun env (k _) w m) as [[[w2 m2] r2] t2]. destruct (srun env (f r2) w2 m2) as [[[w3 m3] r3] t3]. reflexivity.
  - destruct (v >? width_in m cw name).
    + destruct cw as [a|]; [|apply IH2].
      cbv zeta. rewrite IH1. destruct (srun env p w _) as [[[w2 m2] r2] t2]. destruct (srun env (f r2) w2 m2) as [[[w3 m3] r3] t3]. reflexivity.
    + rewrite IH1. destruct (srun env p w _) as [[[w2 m2] r2] t2]. destruct (srun env (f r2) w2 m2) as [[[w3 m3] r3] t3]. reflexivity.
  - cbv zeta. rewrite IH. destruct (srun env p w _) as [[[w2 m2] r2] t2]. destruct (srun env (f r2) w2 m2) as [[[w3 m3] r3] t3]. reflexivity.
Qed.
Lemma srun_bind_inv {W A B} (env : objects W) (p : sprog A) (f : A -> sprog B) w m w' m' r tr :
  srun env (sbind p f) w m = (w', m', r, tr) -> exists w1 m1 a t1 t2, srun env p w m = (w1, m1, a, t1) /\ srun env (f a) w1 m1 = (w', m', r, t2) /\ tr = t1 ++ t2.
Proof.
  rewrite srun_bind. destruct (srun env p w m) as [[[w1 m1] a] t1]. destruct (srun env (f a) w1 m1) as [[[w2 m2] b] t2] eqn:K. intros e. injection e as <- <- <- <-.
  do 5 eexists. split; [reflexivity|]. split; [exact K|reflexivity].
Qed.
Lemma srun_obind_ok {W X A B} (env : objects W) (p : sprog (outcome X A)) (f : A -> sprog (outcome X B)) w m w' m' b tr :
  srun env (sobind p f) w m = (w', m', Ok b, tr) -> exists w1 m1 a t1 t2, srun env p w m = (w1, m1, Ok a, t1) /\ srun env (f a) w1 m1 = (w', m', Ok b, t2) /\ tr = t1 ++ t2.
Proof.
  unfold sobind. intros K. apply srun_bind_inv in K. destruct K as (w1 & m1 & [a|e|p0] & t1 & t2 & K1 & K2 & ->); cbn [srun] in K2; try discriminate.
  do 5 eexists. split; [exact K1|]. split; [exact K2|reflexivity].
Qed.
Lemma srun_obind {W X A B} (env : objects W) (p : sprog (outcome X A)) (f : A -> sprog (outcome X B)) w m w' m' r tr :
  srun env (sobind p f) w m = (w', m', r, tr) ->
  (exists w1 m1 a t1 t2, srun env p w m = (w1, m1, Ok a, t1) /\ srun env (f a) w1 m1 = (w', m', r, t2) /\ tr = t1 ++ t2)
  \/ (exists o, srun env p w m = (w', m', o, tr) /\ match o with Ok _ => False | Err e => r = Err e | Panic q => r = Panic q end).
Proof.
  unfold sobind. intros K. apply srun_bind_inv in K. destruct K as (w1 & m1 & [a|e|p0] & t1 & t2 & K1 & K2 & ->).
  - left. do 5 eexists. split; [exact K1|]. split; [exact K2|reflexivity].
  - right. cbn [srun] in K2. injection K2 as <- <- <- <-. rewrite app_nil_r. exists (Err e). auto.
  - right. cbn [srun] in K2. injection K2 as <- <- <- <-. rewrite app_nil_r. exists (Panic p0). auto.
Qed.
Lemma srun_ask {W R} (env : objects W) q (k : lanswer q -> sprog R) w m w' m' r tr :
  srun env (SAsk q k) w m = (w', m', r, tr) -> exists w1 m1 a t, env q w m = (w1, m1, a) /\ srun env (k a) w1 m1 = (w', m', r, t) /\
    tr = {| sBefore := m; sAct := SCalled q a; sAfter := m1 |} :: t.
Proof.
  cbn [srun]. destruct (env q w m) as [[w1 m1] a]. destruct (srun env (k a) w1 m1) as [[[w2 m2] b] t2] eqn:K. intros e. injection e as <- <- <- <-.
  do 4 eexists. split; [reflexivity|]. split; [exact K|reflexivity].
Qed.
Ltac asked e := unfold sask in e; apply srun_ask in e; let w1 := fresh "w" in let m1 := fresh "m" in let b := fresh "b" in let t := fresh "t" in
  let e1 := fresh "e" in let e2 := fresh "e" in destruct e as (w1 & m1 & b & t & e1 & e2 & ->); cbn [srun] in e2; injection e2; intros; subst; clear e2; rename e1 into e.

(** ** FormatItem *)
Lemma srun_raise {W R} (env : objects W) cw name v (p bad : sprog R) w m w' m' r tr : srun env (SRaise cw name v p bad) w m = (w', m', r, tr) ->
  (exists m1 t, srun env p w m1 = (w', m', r, t) /\ tr = {| sBefore := m; sAct := SRaised cw name v; sAfter := m1 |} :: t /\
     (m1 = m /\ v <= width_in m cw name \/ exists a, cw = Some a /\ m1 = sraise m a name v /\ v > width_in m cw name))
  \/ cw = None /\ v > 0 /\ srun env bad w m = (w', m', r, tr).
Proof.
  cbn [srun]. destruct (Z.gtb_spec v (width_in m cw name)) as [K|K].
  - destruct cw as [a|]; [|right; cbn in K; auto with zarith].
    cbv zeta. destruct (srun env p w _) as [[[w2 m2] b] t2] eqn:K2. intros e. injection e as <- <- <- <-. left.
    do 2 eexists. split; [exact K2|]. split; [reflexivity|]. right. exists a. repeat split. lia.
  - destruct (srun env p w _) as [[[w2 m2] b] t2] eqn:K2. intros e. injection e as <- <- <- <-. left.
    do 2 eexists. split; [exact K2|]. split; [reflexivity|]. left. auto.
Qed.

Lemma getter_ok {W X B} (env : objects W) p (f : G -> kcol G L -> sprog (outcome X B)) w m w' m' b tr : srun env (sgetter p f) w m = (w', m', Ok b, tr) ->
  exists k g, sderef m p = Some k /\ kGetter k = Some g /\ srun env (f g k) w m = (w', m', Ok b, tr).
Proof.
  unfold sgetter, sfield. cbn [srun]. destruct (sderef m p) as [k|]; [|cbn; discriminate]. destruct (kGetter k) as [g|] eqn:K; [|cbn; discriminate].
  intros e. eauto.
Qed.
Lemma field_ok {W X B} (env : objects W) p (f : kcol G L -> sprog (outcome X B)) w m w' m' b tr : srun env (sfield p f) w m = (w', m', Ok b, tr) ->
  exists k, sderef m p = Some k /\ srun env (f k) w m = (w', m', Ok b, tr).
Proof. unfold sfield. cbn [srun]. destruct (sderef m p) as [k|]; [|cbn; discriminate]. intros e. eauto. Qed.

Lemma format_cells {W} (env : objects W) c cw h item : forall n j done w m w' m' texts tr,
  srun env (formatS c cw h (seq j n) item done) w m = (w', m', Ok texts, tr) ->
  exists cells, length cells = n /\ texts = done ++ map scText cells /\ tr = flat_map swap_events cells /\
    (forall i x, nth_error cells i = Some x -> SwapCell c item cw h (j + i) x).
Proof.
  induction n as [|n IH]; intros j done w m w' m' texts tr e.
  - cbn in e. injection e as <- <- <- <-. exists []. rewrite app_nil_r. repeat split; auto. intros [|i] x K; discriminate K.
  - cbn [seq formatS srun] in e. apply getter_ok in e. destruct e as (k1 & g1 & D1 & G1 & e).
    apply srun_obind_ok in e. destruct e as (w1 & m1 & v & t1 & t2 & e1 & e & ->). asked e1.
    apply getter_ok in e. destruct e as (k2 & g2 & D2 & G2 & e).
    apply srun_obind_ok in e. destruct e as (w2 & m2 & s & t3 & t4 & e2 & e & ->). asked e2.
    apply field_ok in e. destruct e as (k3 & D3 & e). apply srun_raise in e. destruct e as [(m3 & t & e & -> & Hm)|(_ & _ & e)]; [|cbn in e; discriminate].
    apply IH in e. destruct e as (cells & E1 & E2 & E3 & E4).
    eexists ({| scText := s; scValue := _; scFormat := _; scRaise := _ |} :: cells). cbn [length map flat_map swap_events scText scValue scFormat scRaise].
    split; [lia|]. split; [rewrite E2, <- app_assoc; reflexivity|]. split; [rewrite E3; reflexivity|].
    intros [|i] x K; [|rewrite Nat.add_succ_r; exact (E4 i x K)]. cbn in K. injection K as <-. rewrite Nat.add_0_r.
    exists (sptr m h j), k1, k2, k3, g1, g2, v. cbn.
    repeat (split; [first [reflexivity|assumption]|]). destruct Hm as [[-> _]|(a & -> & -> & _)]; split; reflexivity.
Qed.

Lemma format_swap {W} (env : objects W) c item w0 m0 w' m' texts tr : srun env (FormatItemS c item) w0 m0 = (w', m', Ok texts, tr) ->
  exists h cells, slice m0 = Some h /\ length cells = hLen h /\ texts = map scText cells /\ tr = flat_map swap_events cells /\
    (forall j x, nth_error cells j = Some x -> SwapCell c item (sMap m0) h j x).
Proof.
  unfold FormatItemS, scolumns. cbn [srun]. destruct (slice m0) as [h|] eqn:K; [|cbn; discriminate]. intros e. apply format_cells in e.
  destruct e as (cells & E1 & E2 & E3 & E4). exists h, cells. auto.
Qed.

(** ** The recorded widths *)
Lemma raises_refl (m : smem) : Raises m m.
Proof. split; [lia|]. intros. lia. Qed.
Lemma raises_trans (m1 m2 m3 : smem) : Raises m1 m2 -> Raises m2 m3 -> Raises m1 m3.
Proof. intros [A B] [C D]. split; [lia|]. intros a name Ha. specialize (B a name Ha). specialize (D a name ltac:(lia)). lia. Qed.
Lemma replace_length {A} (l : list A) i x : length (replace l i x) = length l.
Proof. revert i. induction l as [|y l IH]; intros [|i]; cbn; auto. Qed.
Lemma replace_nth {A} (l : list A) i x d : (i < length l)%nat -> nth i (replace l i x) d = x.
Proof. revert i. induction l as [|y l IH]; intros [|i] Hi; cbn in *; try lia; auto. apply IH. lia. Qed.
Lemma replace_other {A} (l : list A) i j x d : i <> j -> nth j (replace l i x) d = nth j l d.
Proof. revert i j. induction l as [|y l IH]; intros [|i] [|j] Hi; cbn; try reflexivity; try congruence. apply IH. congruence. Qed.
Lemma replace_same {A} (l : list A) i d : replace l i (nth i l d) = l.
Proof. revert i. induction l as [|y l IH]; intros [|i]; cbn; auto. f_equal. apply IH. Qed.
Lemma str_eqb_true a b : str_eqb a b = true -> a = b.
Proof. destruct (str_eqb_spec a b); [auto|discriminate]. Qed.
Lemma raises_raise (m : smem) a name v : v > width_in m (Some a) name -> Raises m (sraise m a name v).
Proof.
  intros Hv. unfold sraise, sset_maps. split; cbn [sMaps]; [rewrite replace_length; lia|]. intros b x Hb.
  destruct (Nat.eq_dec a b) as [->|D]; [|rewrite replace_other by exact D; lia]. rewrite replace_nth by exact Hb.
  unfold wset. destruct (str_eqb x name) eqn:K; [|lia]. apply str_eqb_true in K. subst x. cbn in Hv. lia.
Qed.

Lemma format_records {W} (env : objects W) c a h item : (forall q w m, Raises m (snd (fst (env q w m)))) -> forall n j done w m w' m' texts tr,
  (a < length (sMaps m))%nat -> srun env (formatS c (Some a) h (seq j n) item done) w m = (w', m', Ok texts, tr) ->
  Raises m m' /\ forall name v, In (SRaised (Some a) name v) (acts_of tr) -> v <= nth a (sMaps m') wempty name.
Proof.
  intros HR. induction n as [|n IH]; intros j done w m w' m' texts tr Ha e.
  - cbn in e. injection e as <- <- <- <-. split; [apply raises_refl|]. intros name v [].
  - cbn [seq formatS srun] in e. apply getter_ok in e. destruct e as (k1 & g1 & D1 & G1 & e).
    apply srun_obind_ok in e. destruct e as (w1 & m1 & v & t1 & t2 & e1 & e & ->). asked e1.
    apply getter_ok in e. destruct e as (k2 & g2 & D2 & G2 & e).
    apply srun_obind_ok in e. destruct e as (w2 & m2 & s & t3 & t4 & e2 & e & ->). asked e2.
    apply field_ok in e. destruct e as (k3 & D3 & e). apply srun_raise in e. destruct e as [(m3 & t & e & -> & Hm)|(K & _)]; [|discriminate].
    pose proof (HR (CValue g1 item) w m) as R1. rewrite e1 in R1. cbn [fst snd] in R1.
    match type of e2 with env (CFormat _ _ _) ?u ?n = _ => pose proof (HR (CFormat g2 item v) u n) as R2 end. rewrite e2 in R2. cbn [fst snd] in R2.
    assert (R3 : Raises m2 m3) by (destruct Hm as [[-> _]|(b & Eb & -> & Hv)]; [apply raises_refl|apply raises_raise; congruence]).
    assert (R : Raises m m3) by (eapply raises_trans; [exact R1|eapply raises_trans; eauto]).
    assert (A2 : (a < length (sMaps m2))%nat) by (destruct R1, R2; lia).
    assert (A3 : (a < length (sMaps m3))%nat) by (destruct R3; lia).
    apply IH in e; [|exact A3]. destruct e as [R4 Hin].
    split; [eapply raises_trans; eauto|]. intros name v' Hv'. cbn [acts_of app map sAct] in Hv'.
    destruct Hv' as [K|[K|[K|K]]]; [discriminate|discriminate| |apply Hin; exact K]. injection K as <- <-.
    apply Z.le_trans with (nth a (sMaps m3) wempty (kName k3)); [|apply R4; exact A3].
    destruct Hm as [[-> Hw]|(b & Eb & -> & Hv)]; [exact Hw|]. injection Eb as <-.
    unfold sraise, sset_maps. cbn [sMaps]. rewrite replace_nth by exact A2. unfold wset. rewrite str_eqb_refl. lia.
Qed.
Lemma format_widths {W} (env : objects W) c item w0 m0 w' m' texts tr a : (forall q w m, Raises m (snd (fst (env q w m)))) ->
  sMap m0 = Some a -> (a < length (sMaps m0))%nat -> srun env (FormatItemS c item) w0 m0 = (w', m', Ok texts, tr) ->
  forall name v, In (SRaised (Some a) name v) (acts_of tr) -> v <= nth a (sMaps m') wempty name.
Proof.
  intros HR Hm Ha. unfold FormatItemS, scolumns. cbn [srun]. destruct (slice m0) as [h|] eqn:K; [|cbn; discriminate]. rewrite Hm. intros e.
  apply format_records in e; auto. apply e.
Qed.

(** ** What does not matter *)
Inductive Blind {A} (R : smem -> smem -> Prop) : sprog A -> Prop :=
| b_ret a : Blind R (SRet a)
| b_ask q k : (forall a, Blind R (k a)) -> Blind R (SAsk q k)
| b_see k : (forall m1 m2, R m1 m2 -> k m1 = k m2) -> (forall m, Blind R (k m)) -> Blind R (SSee k)
| b_look name k : (forall m1 m2, R m1 m2 -> sMap m1 = sMap m2 /\ sMaps m1 = sMaps m2) -> (forall v, Blind R (k v)) -> Blind R (SLook name k)
| b_raise cw name v p bad : Blind R p -> Blind R bad -> Blind R (SRaise cw name v p bad)
| b_store a i s p : Blind R p -> Blind R (SStore a i s p).

Lemma blind_run {W A} (R : smem -> smem -> Prop) (env1 env2 : objects W) (p : sprog A) :
  (forall m1 m2, R m1 m2 -> SameButTable m1 m2) -> (forall m1 m2 l, R m1 m2 -> R (sset_maps m1 l) (sset_maps m2 l)) ->
  (forall m1 m2 l, R m1 m2 -> R (sset_rows m1 l) (sset_rows m2 l)) -> DoSame R env1 env2 -> Blind R p ->
  forall w m1 m2 w1 n1 r1 t1 w2 n2 r2 t2, R m1 m2 -> srun env1 p w m1 = (w1, n1, r1, t1) -> srun env2 p w m2 = (w2, n2, r2, t2) ->
  w1 = w2 /\ r1 = r2 /\ R n1 n2 /\ acts_of t1 = acts_of t2.
Proof.
  intros RT RM RR DS. induction 1 as [a|q k HB IH|k Hk HB IH|name k Hk HB IH|cw name v p bad HB1 IH1 HB2 IH2|a i s p HB IH];
    intros w m1 m2 w1 n1 r1 t1 w2 n2 r2 t2 HR e1 e2.
  - cbn in e1, e2. injection e1 as <- <- <- <-. injection e2 as <- <- <- <-. auto.
  - apply srun_ask in e1. destruct e1 as (u1 & o1 & b1 & s1 & c1 & e1 & ->). apply srun_ask in e2. destruct e2 as (u2 & o2 & b2 & s2 & c2 & e2 & ->).
    specialize (DS q w m1 m2 HR). rewrite c1, c2 in DS. destruct DS as (-> & -> & HO).
    destruct (IH _ _ _ _ _ _ _ _ _ _ _ _ HO e1 e2) as (-> & -> & HN & HT). repeat split; auto. cbn. f_equal. exact HT.
  - cbn [srun] in e1, e2. rewrite <- (Hk m1 m2 HR) in e2. exact (IH _ _ _ _ _ _ _ _ _ _ _ _ HR e1 e2).
  - cbn [srun] in e1, e2. cbv zeta in e1, e2. destruct (Hk m1 m2 HR) as [K1 K2].
    assert (K : width_in m2 (sMap m2) name = width_in m1 (sMap m1) name) by (unfold width_in; rewrite K1, K2; reflexivity). rewrite K in e2.
    destruct (srun env1 (k _) w m1) as [[[u1 o1] b1] s1] eqn:c1. destruct (srun env2 (k _) w m2) as [[[u2 o2] b2] s2] eqn:c2.
    injection e1 as <- <- <- <-. injection e2 as <- <- <- <-. destruct (IH _ _ _ _ _ _ _ _ _ _ _ _ HR c1 c2) as (-> & -> & HN & HT). repeat split; auto. cbn. f_equal. exact HT.
  - cbn [srun] in e1, e2. destruct (RT m1 m2 HR) as (_ & K2 & _).
    assert (K : width_in m2 cw name = width_in m1 cw name) by (unfold width_in; rewrite K2; reflexivity). rewrite K in e2.
    destruct (v >? width_in m1 cw name).
    + destruct cw as [a|]; [|exact (IH2 _ _ _ _ _ _ _ _ _ _ _ HR e1 e2)]. cbv zeta in e1, e2. unfold sraise in e1, e2. rewrite <- K2 in e2.
      destruct (srun env1 p w _) as [[[u1 o1] b1] s1] eqn:c1. destruct (srun env2 p w _) as [[[u2 o2] b2] s2] eqn:c2.
      injection e1 as <- <- <- <-. injection e2 as <- <- <- <-. destruct (IH1 _ _ _ _ _ _ _ _ _ _ _ (RM _ _ _ HR) c1 c2) as (-> & -> & HN & HT). repeat split; auto. cbn. f_equal. exact HT.
    + destruct (srun env1 p w _) as [[[u1 o1] b1] s1] eqn:c1. destruct (srun env2 p w _) as [[[u2 o2] b2] s2] eqn:c2.
      injection e1 as <- <- <- <-. injection e2 as <- <- <- <-. destruct (IH1 _ _ _ _ _ _ _ _ _ _ _ HR c1 c2) as (-> & -> & HN & HT). repeat split; auto. cbn. f_equal. exact HT.
  - cbn [srun] in e1, e2. cbv zeta in e1, e2. destruct (RT m1 m2 HR) as (_ & _ & _ & _ & K2). unfold sset_row in e1, e2. rewrite <- K2 in e2.
    destruct (srun env1 p w _) as [[[u1 o1] b1] s1] eqn:c1. destruct (srun env2 p w _) as [[[u2 o2] b2] s2] eqn:c2.
    injection e1 as <- <- <- <-. injection e2 as <- <- <- <-. destruct (IH _ _ _ _ _ _ _ _ _ _ _ (RR _ _ _ HR) c1 c2) as (-> & -> & HN & HT). repeat split; auto. cbn. f_equal. exact HT.
Qed.

Lemma blind_bind {A B} R (p : sprog A) (f : A -> sprog B) : Blind R p -> (forall a, Blind R (f a)) -> Blind R (sbind p f).
Proof.
  intros HP HF. induction HP as [a|q k HB IH|k Hk HB IH|name k Hk HB IH|cw name v p bad HB1 IH1 HB2 IH2|a i s p HB IH]; cbn [sbind]; auto; constructor; auto.
  intros m1 m2 HR. rewrite (Hk m1 m2 HR). reflexivity.
Qed.
Lemma blind_obind {X A B} R (p : sprog (outcome X A)) (f : A -> sprog (outcome X B)) : Blind R p -> (forall a, Blind R (f a)) -> Blind R (sobind p f).
Proof. intros HP HF. apply blind_bind; [exact HP|]. intros [a|e|q]; auto; constructor. Qed.
Lemma blind_sask R q : Blind R (sask q).
Proof. constructor. intros a. constructor. Qed.

Section Tables.
Variable R : smem -> smem -> Prop.
Hypothesis RT : forall m1 m2, R m1 m2 -> SameButTable m1 m2.
Lemma blind_field {X A} p (f : kcol G L -> sprog (outcome X A)) : (forall k, Blind R (f k)) -> Blind R (sfield p f).
Proof.
  intros HF. constructor.
  - intros m1 m2 HR. destruct (RT _ _ HR) as (_ & _ & K & _). unfold sderef. rewrite K. reflexivity.
  - intros m. destruct (sderef m p); [apply HF|constructor].
Qed.
Lemma blind_getter {X A} p (f : G -> kcol G L -> sprog (outcome X A)) : (forall g k, Blind R (f g k)) -> Blind R (sgetter p f).
Proof. intros HF. apply blind_field. intros k. destruct (kGetter k); [apply HF|constructor]. Qed.
Lemma sptr_same m1 m2 h j : R m1 m2 -> sptr m1 h j = sptr m2 h j.
Proof. intros HR. destruct (RT _ _ HR) as (_ & _ & _ & K & _). unfold sptr. rewrite K. reflexivity. Qed.
Lemma format_blind c cw h item js : forall done, Blind R (formatS c cw h js item done).
Proof.
  induction js as [|j js IH]; intros done; cbn [formatS]; [constructor|]. constructor.
  - intros m1 m2 HR. cbv zeta. rewrite (sptr_same m1 m2 h j HR). reflexivity.
  - intros m. cbv zeta. apply blind_getter. intros g _. apply blind_obind; [unfold sask; constructor; intros; constructor|]. intros v. apply blind_getter. intros g' _.
    apply blind_obind; [unfold sask; constructor; intros; constructor|]. intros s. apply blind_field. intros col. constructor; [apply IH|constructor].
Qed.
Lemma basic_blind h item sep js : forall acc, Blind R (basicS h js item sep acc).
Proof.
  induction js as [|j js IH]; intros acc; cbn [basicS]; [constructor|]. constructor.
  - intros m1 m2 HR. rewrite (sptr_same m1 m2 h j HR). reflexivity.
  - intros m. apply blind_getter. intros g col. apply blind_obind; [unfold sask; constructor; intros; constructor|]. intros s. apply IH.
Qed.
Hypothesis RM : forall m1 m2, R m1 m2 -> sMap m1 = sMap m2.
Lemma align_blind h f js : Blind R (alignS h js f).
Proof.
  induction js as [|j js IH]; cbn [alignS]; [constructor|]. constructor.
  - intros m1 m2 HR. rewrite (sptr_same m1 m2 h j HR). destruct (RT _ _ HR) as (_ & _ & _ & _ & K). rewrite K. reflexivity.
  - intros m. apply blind_field. intros col. destruct (kAlign col) as [al|]; [|exact IH].
    destruct (negb _); [constructor|]. constructor.
    + intros m1 m2 HR. split; [apply RM, HR|]. apply RT, HR.
    + intros v. constructor. intros [s|[]|q]; [constructor; exact IH|constructor].
Qed.
End Tables.

Lemma same_table_maps (m1 m2 : smem) l : SameButTable m1 m2 -> SameButTable (sset_maps m1 l) (sset_maps m2 l).
Proof. unfold SameButTable, sset_maps. cbn. tauto. Qed.
Lemma same_table_rows (m1 m2 : smem) l : SameButTable m1 m2 -> SameButTable (sset_rows m1 l) (sset_rows m2 l).
Proof. unfold SameButTable, sset_rows. cbn. tauto. Qed.

Lemma slice_same (m1 m2 : smem) : SameButTable m1 m2 -> sSpec m1 = sSpec m2 -> slice m1 = slice m2.
Proof. intros (K & _) E1. unfold slice. rewrite E1, K. reflexivity. Qed.

Lemma format_any_table {W} (env1 env2 : objects W) c item w m1 m2 w1 n1 r1 t1 w2 n2 r2 t2 : DoSame SameButTable env1 env2 ->
  SameButTable m1 m2 -> sSpec m1 = sSpec m2 -> sMap m1 = sMap m2 ->
  srun env1 (FormatItemS c item) w m1 = (w1, n1, r1, t1) -> srun env2 (FormatItemS c item) w m2 = (w2, n2, r2, t2) ->
  w1 = w2 /\ r1 = r2 /\ SameButTable n1 n2 /\ acts_of t1 = acts_of t2.
Proof.
  intros DS HR Es Em. unfold FormatItemS, scolumns. cbn [srun]. rewrite <- (slice_same m1 m2 HR Es), <- Em.
  apply (blind_run SameButTable env1 env2); auto using same_table_maps, same_table_rows.
  destruct (slice m1); [apply format_blind; auto|constructor].
Qed.
Lemma basic_any_table {W} (env1 env2 : objects W) item sep w m1 m2 w1 n1 r1 t1 w2 n2 r2 t2 : DoSame SameButTable env1 env2 ->
  SameButTable m1 m2 -> sSpec m1 = sSpec m2 ->
  srun env1 (FormatItemBasicS item sep) w m1 = (w1, n1, r1, t1) -> srun env2 (FormatItemBasicS item sep) w m2 = (w2, n2, r2, t2) ->
  w1 = w2 /\ r1 = r2 /\ SameButTable n1 n2 /\ acts_of t1 = acts_of t2.
Proof.
  intros DS HR Es. unfold FormatItemBasicS, scolumns. cbn [srun]. rewrite <- (slice_same m1 m2 HR Es).
  apply (blind_run SameButTable env1 env2); auto using same_table_maps, same_table_rows.
  destruct (slice m1); [apply basic_blind; auto|constructor].
Qed.
Lemma align_any_spec {W} (env1 env2 : objects W) f w m1 m2 w1 n1 r1 t1 w2 n2 r2 t2 : DoSame SameButSpec env1 env2 ->
  SameButSpec m1 m2 -> sSpec m1 = sSpec m2 ->
  srun env1 (AlignFormattedItemS f) w m1 = (w1, n1, r1, t1) -> srun env2 (AlignFormattedItemS f) w m2 = (w2, n2, r2, t2) ->
  w1 = w2 /\ r1 = r2 /\ SameButSpec n1 n2 /\ acts_of t1 = acts_of t2.
Proof.
  intros DS HR Es. unfold AlignFormattedItemS, scolumns. cbn [srun]. rewrite <- (slice_same m1 m2 (proj1 HR) Es).
  apply (blind_run SameButSpec env1 env2); auto.
  - intros ? ? [K _]. exact K.
  - intros ? ? l [K1 K2]. split; [apply same_table_maps, K1|exact K2].
  - intros ? ? l [K1 K2]. split; [apply same_table_rows, K1|exact K2].
  - destruct (slice m1); [|constructor]. destruct (negb _); [constructor|]. apply align_blind; [intros ? ? [K _]; exact K|intros ? ? [_ K]; exact K].
Qed.
End Basics.

Ltac asked e := unfold sask in e; apply srun_ask in e; let w1 := fresh "w" in let m1 := fresh "m" in let b := fresh "b" in let t := fresh "t" in
  let e1 := fresh "e" in let e2 := fresh "e" in destruct e as (w1 & m1 & b & t & e1 & e2 & ->); cbn [srun] in e2; injection e2; intros; subst; clear e2; rename e1 into e.
