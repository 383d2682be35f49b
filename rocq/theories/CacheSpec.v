(** * CacheSpec: sequential and concurrent uses of the width cache. *)
From Verif Require Import GoBase Runewidth Width Concurrent.
Local Open Scope Z_scope.

(** ** Sequential histories *)

(** What may happen between two looks at the cache: a measurement (after
    which the LRU may drop any entries), an eviction, or an assignment to the
    process-wide display condition. *)
Inductive cache_op :=
| Measure (keep : str -> bool) (s : str)
| Evict (keep : str -> bool)
| SetCondition (c : Condition).

(** Runs a history; each measurement adds (argument, result, condition in
    force at the time) to the log. *)
Fixpoint run_ops (c : Condition) (m : cache) (ops : list cache_op)
  : list (str * Z * Condition) :=
  match ops with
  | [] => []
  | Measure keep s :: rest =>
    (s, fst (visualWidth c keep m s), c) :: run_ops c (snd (visualWidth c keep m s)) rest
  | Evict keep :: rest => run_ops c (cache_evict keep m) rest
  | SetCondition c' :: rest => run_ops c' m rest
  end.

(** ** Concurrent executions *)

(** Threads about to start, on an empty cache. *)
Definition start (work : list (list str)) : config :=
  {| shared := []; threads := map (fun l => {| todo := l; at_ := Ready; results := [] |}) work |}.

Definition finished (t : thread) : Prop := todo t = [] /\ at_ t = Ready.
