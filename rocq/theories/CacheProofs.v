(** * CacheProofs: the width cache is transparent. *)
From Coq Require Import Strings.String.
From Verif Require Import GoBase Utf8Proofs Runewidth ConditionSpec Width WidthTheory Concurrent CacheSpec.
From Coq Require Import ZifyBool ZifyNat.
Local Open Scope Z_scope.

Lemma str_eqb_spec a b : Bool.reflect (a = b) (str_eqb a b).
Proof. unfold str_eqb. destruct (str_eq_dec a b); constructor; auto. Qed.

Lemma str_eqb_refl a : str_eqb a a = true.
Proof. destruct (str_eqb_spec a a); congruence. Qed.

(** Every entry satisfies [P]. *)
Definition all_entries (P : str -> Z -> Prop) (m : cache) : Prop :=
  Forall (fun e => P (fst e) (snd e)) m.

Lemma entries_get P m k v : all_entries P m -> cache_get m k = Some v -> P k v.
Proof.
  induction m as [|[k' v'] m IH]; intros H; cbn [cache_get]; [discriminate|].
  inversion H; subst. destruct (str_eqb_spec k k'); [|auto]. intros E. injection E as <-. subst. auto.
Qed.

Lemma Forall_filter {A} (P : A -> Prop) f l : Forall P l -> Forall P (filter f l).
Proof.
  induction 1 as [|x l Hx Hl IH]; cbn [filter]; [constructor|]. destruct (f x); auto.
Qed.

Lemma entries_evict P keep m : all_entries P m -> all_entries P (cache_evict keep m).
Proof. apply Forall_filter. Qed.

Lemma entries_set P m k v : all_entries P m -> P k v -> all_entries P (cache_set m k v).
Proof. intros H Hk. constructor; auto. apply Forall_filter. exact H. Qed.

(** ** Sequential histories *)
Lemma visualWidth_ok (P : str -> Z -> Prop) c keep m s : (forall s, P s (vwidth c s)) -> all_entries P m ->
  P s (fst (visualWidth c keep m s)) /\ all_entries P (snd (visualWidth c keep m s)).
Proof.
  intros Hc Hm. unfold visualWidth.
  destruct (cache_get m s) as [v|] eqn:E; [destruct (Z.gtb_spec v 0)|change (0 >? 0) with false]; cbn iota; cbn [fst snd].
  - split; [eapply entries_get; eauto|auto].
  - split; auto. apply entries_evict, entries_set; auto.
  - split; auto. apply entries_evict, entries_set; auto.
Qed.

Definition sets_condition (o : cache_op) : bool :=
  match o with SetCondition _ => true | _ => false end.

Lemma cache_transparent c ops : Forall (fun o => sets_condition o = false) ops ->
  Forall (fun e => snd (fst e) = vwidth c (fst (fst e)) /\ snd e = c) (run_ops c [] ops).
Proof.
  intros H.
  assert (K : forall m, all_entries (fun s w => w = vwidth c s) m ->
    Forall (fun e => snd (fst e) = vwidth c (fst (fst e)) /\ snd e = c) (run_ops c m ops)).
  { induction H as [|o ops Ho Hops IH]; intros m Hm; [constructor|].
    destruct o as [keep s|keep|c']; cbn [run_ops]; [| |discriminate].
    - destruct (visualWidth_ok (fun s w => w = vwidth c s) c keep m s (fun _ => eq_refl) Hm). constructor; auto.
    - apply IH. apply entries_evict; auto. }
  apply K. constructor.
Qed.

(** With changes of condition: a measurement may be stale, but it is always
    the width under the present or an earlier condition. *)
Definition conditions (c : Condition) (ops : list cache_op) : list Condition :=
  c :: flat_map (fun o => match o with SetCondition c' => [c'] | _ => [] end) ops.

Lemma cache_stale c ops pre o post : ops = pre ++ o :: post ->
  forall keep s, o = Measure keep s ->
  forall before e after, run_ops c [] ops = before ++ e :: after ->
  length before = length (filter (fun o => match o with Measure _ _ => true | _ => false end) pre) ->
  fst (fst e) = s /\ exists c', In c' (conditions c pre) /\ snd (fst e) = vwidth c' s.
Proof.
  assert (K : forall pre c m (seen : list Condition), In c seen ->
    all_entries (fun s w => exists c', In c' seen /\ w = vwidth c' s) m ->
    forall keep s post before e after, run_ops c m (pre ++ Measure keep s :: post) = before ++ e :: after ->
    length before = length (filter (fun o => match o with Measure _ _ => true | _ => false end) pre) ->
    fst (fst e) = s /\ exists c', In c' (seen ++ conditions c pre) /\ snd (fst e) = vwidth c' s).
  { clear. induction pre as [|o pre IH]; intros c m seen Hc Hm keep s post before e after E L.
    - cbn [filter length] in L. destruct before; [|discriminate]. cbn [app run_ops] in E.
      injection E as <- _. cbn [fst snd]. split; auto.
      destruct (visualWidth_ok (fun s w => exists c', In c' seen /\ w = vwidth c' s) c keep m s) as [(c' & H1 & H2) _].
      + intros s0. exists c. auto.
      + exact Hm.
      + exists c'. split; auto. apply in_or_app. auto.
    - destruct o as [keep' s'|keep'|c'].
      + cbn [filter length] in L. destruct before as [|e0 before]; [discriminate|].
        cbn [app run_ops] in E. injection E as _ E.
        destruct (visualWidth_ok (fun s w => exists c', In c' seen /\ w = vwidth c' s) c keep' m s') as [_ Hm'].
        { intros s0. exists c. auto. }
        { exact Hm. }
        eapply IH in E; eauto.
      + cbn [filter] in L. cbn [app run_ops] in E. eapply IH in E; eauto. apply entries_evict; auto.
      + cbn [filter] in L. cbn [app run_ops] in E.
        apply (IH c' m (seen ++ [c']) ltac:(apply in_or_app; right; left; auto)) in E; auto.
        * destruct E as (H1 & c0 & H2 & H3). split; auto. exists c0. split; auto.
          unfold conditions in *. cbn [flat_map].
          rewrite <- app_assoc in H2. apply in_app_or in H2. apply in_or_app.
          destruct H2 as [H2|H2]; [auto|right]. cbn [app In] in *. tauto.
        * eapply Forall_impl; [|exact Hm]. intros x (c0 & H1 & H2). exists c0. split; auto.
          apply in_or_app. auto. }
  intros -> keep s -> before e after E L.
  destruct (K pre c [] [c] ltac:(left; auto) ltac:(constructor) keep s post before e after E L) as (H1 & c' & H2 & H3).
  split; auto. exists c'. split; auto. unfold conditions in *. cbn [app In] in *. tauto.
Qed.

Lemma cache_stale_refuted : exists c c' s,
  run_ops c [] [Measure (fun _ => true) s; SetCondition c'; Measure (fun _ => true) s]
    = [(s, 1, c); (s, 1, c')] /\ vwidth c' s = 2.
Proof.
  exists (plainCondition false true), (plainCondition true true), [xc2; xa1].
  split; vm_compute; reflexivity.
Qed.

(** ** Concurrent executions *)
Definition pending (t : thread) : list str :=
  match at_ t with Ready => [] | Got s _ => [s] | Stored s _ => [s] end.

Definition thread_ok (c : Condition) (work : list str) (t : thread) : Prop :=
  map fst (results t) ++ pending t ++ todo t = work
  /\ Forall (fun e => snd e = vwidth c (fst e)) (results t)
  /\ match at_ t with
     | Ready => True
     | Got s w => w = 0 \/ w = vwidth c s
     | Stored s w => w = vwidth c s
     end.

Definition config_ok (c : Condition) (work : list (list str)) (g : config) : Prop :=
  all_entries (fun s w => w = vwidth c s) (shared g) /\ Forall2 (thread_ok c) work (threads g).

Lemma tstep_ok c work m t m' t' : tstep c (m, t) (m', t') ->
  all_entries (fun s w => w = vwidth c s) m -> thread_ok c work t ->
  all_entries (fun s w => w = vwidth c s) m' /\ thread_ok c work t'.
Proof.
  intros H Hm (Hw & Hr & Hp). inversion H; subst; cbn [todo at_ results pending] in *;
    unfold thread_ok, pending; cbn [todo at_ results].
  - split; auto. split; [cbn; auto|]. split; auto.
    destruct (cache_get m' s) eqn:E; [right|left; auto]. exact (entries_get (fun s w => w = vwidth c s) _ _ _ Hm E).
  - split; auto. split; [rewrite map_app, <- app_assoc; reflexivity|]. split; auto.
    apply Forall_app. split; auto. constructor; [|constructor]. cbn [fst snd]. lia.
  - split; [apply entries_set; auto|]. auto.
  - split; auto. split; [rewrite map_app, <- app_assoc; reflexivity|]. split; auto.
    apply Forall_app. split; auto.
Qed.

Lemma execution_ok c work n g : execution c (start work) n g -> config_ok c work g.
Proof.
  intros H. remember (start work) as g0 eqn:E0. induction H as [g|g n g' g'' H IH Hs|g n m keep ts H IH]; subst.
  - split; [constructor|]. cbn [start threads]. induction work as [|l work IHw]; cbn [map]; constructor; auto.
    split; [reflexivity|]. split; [constructor|exact I].
  - destruct (IH eq_refl) as [Hm Ht]. inversion Hs; subst. cbn [shared threads] in *.
    apply Forall2_app_inv_r in Ht. destruct Ht as (w1 & w2 & H1 & H2 & ->).
    inversion H2 as [|l t0 w2' ? Hl Hrest]; subst.
    destruct (tstep_ok c l m t m' t' H0 Hm Hl) as [Hm' Ht'].
    split; auto. cbn [threads]. apply Forall2_app; auto.
  - destruct (IH eq_refl) as [Hm Ht]. split; auto. cbn [shared]. apply entries_evict. exact Hm.
Qed.

Lemma Forall2_nth {A B} (R : A -> B -> Prop) l1 l2 : Forall2 R l1 l2 -> forall i b,
  nth_error l2 i = Some b -> exists a, nth_error l1 i = Some a /\ R a b.
Proof.
  induction 1 as [|x y l1 l2 Hxy H IH]; intros [|i] b E; cbn in *; try discriminate; eauto.
  injection E as <-. eauto.
Qed.

Lemma Forall2_len {A B} (R : A -> B -> Prop) l1 l2 : Forall2 R l1 l2 -> length l1 = length l2.
Proof. induction 1; cbn; congruence. Qed.

(** Every result of every thread is the uncached width of the corresponding text. *)
Lemma concurrent_results c work n g i t : execution c (start work) n g ->
  nth_error (threads g) i = Some t ->
  exists texts rest, nth_error work i = Some (texts ++ rest)
    /\ results t = map (fun s => (s, vwidth c s)) texts
    /\ (finished t -> rest = []).
Proof.
  intros H Ht. destruct (execution_ok c work n g H) as [_ HF].
  destruct (Forall2_nth _ _ _ HF i t Ht) as (l & Hl & (Hw & Hr & _)).
  exists (map fst (results t)), (pending t ++ todo t). rewrite Hw. split; auto. split.
  - clear -Hr. induction Hr as [|e l He Hl IH]; [reflexivity|]. cbn [map]. rewrite <- IH.
    f_equal. destruct e. cbn in *. congruence.
  - intros [Hd Ha]. unfold pending. rewrite Ha, Hd. reflexivity.
Qed.

(** Progress: an unfinished thread can always move. *)
Lemma concurrent_progress c m t : ~ finished t -> exists m' t', tstep c (m, t) (m', t').
Proof.
  intros H. destruct t as [[|s rest] [|s' w|s' w] res].
  - exfalso. apply H. split; reflexivity.
  - destruct (Z_gt_dec w 0); eauto using tstep.
  - eauto using tstep.
  - eauto using tstep.
  - destruct (Z_gt_dec w 0); eauto using tstep.
  - eauto using tstep.
Qed.

Definition fuel_of (t : thread) : nat :=
  3 * length (todo t) + match at_ t with Ready => 0 | Got _ _ => 2 | Stored _ _ => 1 end.
Definition total_fuel (ts : list thread) : nat := list_sum (map fuel_of ts).

Lemma tstep_fuel c m t m' t' : tstep c (m, t) (m', t') -> (fuel_of t' < fuel_of t)%nat.
Proof. intros H. inversion H; subst; unfold fuel_of; cbn [todo at_ length]; lia. Qed.

Lemma execution_fuel c g n g' : execution c g n g' ->
  (n + total_fuel (threads g') <= total_fuel (threads g))%nat.
Proof.
  induction 1 as [g|g n g' g'' H IH Hs|g n m keep ts H IH]; [lia| |exact IH].
  inversion Hs; subst. apply tstep_fuel in H0. cbn [threads] in *. unfold total_fuel in *.
  rewrite !map_app, !list_sum_app in *. cbn [map] in *.
  change (list_sum (fuel_of t' :: map fuel_of after)) with (fuel_of t' + list_sum (map fuel_of after))%nat.
  change (list_sum (fuel_of t :: map fuel_of after)) with (fuel_of t + list_sum (map fuel_of after))%nat in IH.
  lia.
Qed.

Lemma concurrent_bounded c work n g : execution c (start work) n g ->
  (n <= 3 * length (concat work))%nat.
Proof.
  intros H. apply execution_fuel in H. cbn [start threads] in H.
  assert (E : total_fuel (map (fun l => {| todo := l; at_ := Ready; results := [] |}) work)
    = (3 * length (concat work))%nat); [|lia].
  clear. unfold total_fuel. induction work as [|l work IH]; [reflexivity|]. cbn [map concat].
  change (list_sum (?a :: ?b)) with (a + list_sum b)%nat. rewrite IH, app_length.
  unfold fuel_of. cbn [todo at_]. lia.
Qed.

(** Two threads measuring the same text, interleaved so that both miss. *)
Lemma concurrent_example : exists g n,
  execution (plainCondition false true) (start [[lit "ab"%string]; [lit "ab"%string]]) n g
  /\ map results (threads g) = [[(lit "ab"%string, 2)]; [(lit "ab"%string, 2)]]
  /\ Forall finished (threads g).
Proof.
  set (c := plainCondition false true). set (s := lit "ab"%string).
  assert (W : vwidth c s = 2) by (vm_compute; reflexivity).
  eexists _, 6%nat. split; [|split].
  - unfold start. cbn [map].
    eapply e_step; [eapply e_step; [eapply e_step; [eapply e_step; [eapply e_step; [eapply e_step; [apply e_refl|]|]|]|]|]|].
    + eapply (c_thread c _ _ []). apply t_get.
    + cbn [app]. eapply (c_thread c _ _ [_]). apply t_get.
    + cbn [app]. eapply (c_thread c _ _ []). apply t_set. cbn. lia.
    + cbn [app]. eapply (c_thread c _ _ [_]). apply t_set. cbn. lia.
    + cbn [app]. eapply (c_thread c _ _ []). apply t_ret.
    + cbn [app]. eapply (c_thread c _ _ [_]). apply t_ret.
  - cbn [threads app map results]. rewrite W. reflexivity.
  - cbn [threads app]. repeat constructor.
Qed.

(** One call run without interruption is [visualWidth]. *)
Inductive tsteps (c : Condition) : cache * thread -> cache * thread -> Prop :=
| ts_refl x : tsteps c x x
| ts_step x y z : tstep c x y -> tsteps c y z -> tsteps c x z.

Lemma evict_all m : cache_evict (fun _ => true) m = m.
Proof. unfold cache_evict. induction m as [|e m IH]; cbn [filter]; congruence. Qed.

Lemma one_call c m s rest res :
  tsteps c (m, {| todo := s :: rest; at_ := Ready; results := res |})
    (snd (visualWidth c (fun _ => true) m s),
     {| todo := rest; at_ := Ready; results := res ++ [(s, fst (visualWidth c (fun _ => true) m s))] |}).
Proof.
  unfold visualWidth. eapply ts_step; [apply t_get|].
  destruct (Z.gtb_spec (match cache_get m s with Some v => v | None => 0 end) 0) as [H|H]; cbn [fst snd].
  - eapply ts_step; [apply t_hit; lia|]. apply ts_refl.
  - eapply ts_step; [apply t_set; lia|]. eapply ts_step; [apply t_ret|].
    rewrite evict_all. apply ts_refl.
Qed.

Lemma tstep_deterministic c x y z : tstep c x y -> tstep c x z -> y = z.
Proof. intros H1 H2. inversion H1; subst; inversion H2; subst; try reflexivity; try lia; try contradiction. Qed.
