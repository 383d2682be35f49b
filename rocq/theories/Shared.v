(** * Shared: several goroutines that call the same getters, alignments, lists
    and writers.

    Each goroutine runs one of the programs of Calls.v (table.go:77-167,
    horizontal.go, vertical.go) on a Table of its own; the objects called are
    shared, so that a call by one goroutine may change what the next call by
    another is answered.  One step is one call (taken to be atomic: an object
    shared by goroutines has to see to that), one look at a width, or one
    recording of a width.  Not modelled here: one Table used by several goroutines
    (TableRace.v, MergeRace.v, MapRace.v). *)
From Verif Require Import GoBase Runewidth Width Table Merge MergeSpec Calls.
From Coq Require Import Eqdep_dec.
Local Open Scope Z_scope.

Section Shared.
Context {Item Val E G L : Type}.

(** A goroutine: what it still has to do, the widths of its table, what it has
    done. *)
Record thread (R : Type) := { thProg : kprog Item Val E G L R; thMap : wmap; thTrace : list (act Item Val E G L) }.
Arguments thProg {R} _.
Arguments thMap {R} _.
Arguments thTrace {R} _.

(** The next step of a goroutine whose calls are answered by [env]. *)
Definition tstep {W R} (env : environment Item Val E G L W) (w : W) (th : thread R) : option (W * thread R) :=
  match thProg th with
  | KRet _ => None
  | KAsk q k =>
    let '(w', m', a) := env q w (thMap th) in
    Some (w', {| thProg := k a; thMap := m'; thTrace := thTrace th ++ [Called q a] |})
  | KLook name k =>
    Some (w, {| thProg := k (thMap th name); thMap := thMap th; thTrace := thTrace th ++ [Looked name (thMap th name)] |})
  | KRaise name v p =>
    Some (w, {| thProg := p; thMap := (if v >? thMap th name then wset (thMap th) name v else thMap th);
                thTrace := thTrace th ++ [Raised name v] |})
  end.

(** Goroutine [i] returns a value of type [R i]. *)
Definition threads (R : nat -> Type) : Type := forall i, thread (R i).
Definition put {R} (ths : threads R) (i : nat) (th : thread (R i)) : threads R :=
  fun j => match Nat.eq_dec i j with left e => eq_rect i (fun i => thread (R i)) th j e | right _ => ths j end.

(** Executions: any goroutine goes next.  The log says who did what. *)
Inductive texec {W R} (env : nat -> environment Item Val E G L W)
  : W -> threads R -> W -> threads R -> list (nat * act Item Val E G L) -> Prop :=
| te_refl w ths : texec env w ths w ths []
| te_step w ths w1 ths1 log i w2 th2 a : texec env w ths w1 ths1 log -> tstep (env i) w1 (ths1 i) = Some (w2, th2) ->
    thTrace th2 = thTrace (ths1 i) ++ [a] ->
    texec env w ths w2 (put ths1 i th2) (log ++ [(i, a)]).

(** Goroutines about to begin. *)
Definition start {R} (p : forall i, kprog Item Val E G L (R i)) (m : nat -> wmap) : threads R :=
  fun i => {| thProg := p i; thMap := m i; thTrace := [] |}.
End Shared.
Arguments thread : clear implicits.
Arguments threads : clear implicits.
Arguments thProg {Item Val E G L R} _.
Arguments thMap {Item Val E G L R} _.
Arguments thTrace {Item Val E G L R} _.
