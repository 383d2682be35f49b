(** * PropCache: properties of the width cache (C06, C07). *)
From Coq Require Import Strings.String.
From Verif Require Import GoBase Runewidth ConditionSpec Width Concurrent CacheSpec CacheProofs.
Local Open Scope Z_scope.

(** C06. *)
Theorem C06_cache_transparent : forall c ops,
  Forall (fun o => match o with SetCondition _ => true | _ => false end = false) ops ->
  Forall (fun e => snd (fst e) = vwidth c (fst (fst e)) /\ snd e = c) (run_ops c [] ops).
Proof. exact cache_transparent. Qed.
Print Assumptions C06_cache_transparent.

Example C06_example : run_ops (plainCondition false true) []
   [Measure (fun _ => true) (lit "abc"%string); Measure (fun _ => true) [];
    Measure (fun _ => false) (lit "abc"%string); Measure (fun _ => true) []]
  = let c := plainCondition false true in
    [(lit "abc"%string, 3, c); ([], 0, c); (lit "abc"%string, 3, c); ([], 0, c)].
Proof. vm_compute. reflexivity. Qed.

(** When the condition changes, the n-th measurement is the width under some
    condition in force up to then, not necessarily the present one. *)
Theorem C06_stale_but_earlier : forall c ops pre o post, ops = pre ++ o :: post ->
  forall keep s, o = Measure keep s ->
  forall before e after, run_ops c [] ops = before ++ e :: after ->
  length before = length (filter (fun o => match o with Measure _ _ => true | _ => false end) pre) ->
  fst (fst e) = s /\ exists c',
    In c' (c :: flat_map (fun o => match o with SetCondition c' => [c'] | _ => [] end) pre)
    /\ snd (fst e) = vwidth c' s.
Proof. exact cache_stale. Qed.
Print Assumptions C06_stale_but_earlier.

Theorem C06_condition_change_refuted : exists c c' s,
  run_ops c [] [Measure (fun _ => true) s; SetCondition c'; Measure (fun _ => true) s]
    = [(s, 1, c); (s, 1, c')] /\ vwidth c' s = 2.
Proof. exact cache_stale_refuted. Qed.
Print Assumptions C06_condition_change_refuted.

(** C07. *)
Theorem C07_concurrent_results : forall c work n g i t, execution c (start work) n g ->
  nth_error (threads g) i = Some t ->
  exists texts rest, nth_error work i = Some (texts ++ rest)
    /\ results t = map (fun s => (s, vwidth c s)) texts
    /\ (finished t -> rest = []).
Proof. exact concurrent_results. Qed.
Print Assumptions C07_concurrent_results.

Theorem C07_progress : forall c m t, ~ finished t -> exists m' t', tstep c (m, t) (m', t').
Proof. exact concurrent_progress. Qed.
Print Assumptions C07_progress.

Theorem C07_bounded : forall c work n g, execution c (start work) n g ->
  (n <= 3 * length (concat work))%nat.
Proof. exact concurrent_bounded. Qed.
Print Assumptions C07_bounded.

(** The step machine is [visualWidth] when nothing interferes. *)
Theorem C07_machine_is_visualWidth : forall c m s rest res,
  tsteps c (m, {| todo := s :: rest; at_ := Ready; results := res |})
    (snd (visualWidth c (fun _ => true) m s),
     {| todo := rest; at_ := Ready; results := res ++ [(s, fst (visualWidth c (fun _ => true) m s))] |}).
Proof. exact one_call. Qed.
Print Assumptions C07_machine_is_visualWidth.

Theorem C07_machine_deterministic : forall c x y z, tstep c x y -> tstep c x z -> y = z.
Proof. exact tstep_deterministic. Qed.
Print Assumptions C07_machine_deterministic.

Example C07_example : exists g n,
  execution (plainCondition false true) (start [[lit "ab"%string]; [lit "ab"%string]]) n g
  /\ map results (threads g) = [[(lit "ab"%string, 2)]; [(lit "ab"%string, 2)]]
  /\ Forall finished (threads g).
Proof. exact concurrent_example. Qed.
