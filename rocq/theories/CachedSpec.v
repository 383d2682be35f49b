(** * CachedSpec: what programs that measure and write should do. *)
From Verif Require Import GoBase Runewidth Width Table Merge Cached.
Local Open Scope Z_scope.

(** The value of a program when visualWidth is the function [w]. *)
Fixpoint value {A} (w : str -> Z) (p : prog A) : A :=
  match p with
  | Ret a => a
  | Call s k => value w (k (w s))
  end.

(** The same for one that writes: what it writes, and its result.  The n-th
    Write succeeds if [ok n]. *)
Fixpoint effect {A} (w : str -> Z) (ok : nat -> bool) (n : nat) (p : wprog A) : list str * A :=
  match p with
  | WRet a => ([], a)
  | WCall s k => effect w ok n (k (w s))
  | Write txt k =>
    let '(out, a) := effect w ok (S n) (k (ok n)) in
    (if ok n then txt :: out else out, a)
  end.

(** Calls and writes it makes. *)
Fixpoint length_of {A} (w : str -> Z) (ok : nat -> bool) (n : nat) (p : wprog A) : nat :=
  match p with
  | WRet _ => 0
  | WCall s k => 3 + length_of w ok n (k (w s))
  | Write txt k => 1 + length_of w ok (S n) (k (ok n))
  end.

(** ** The client's functions when visualWidth is [w] *)
Section Types.
Context {Item Val E : Type}.
Variable w : str -> Z.

Definition plainGetter (g : PGetter Item Val E) : Getter Item Val E :=
  {| getValue := fun i => value w (pgValue g i);
     getValueString := fun n i => value w (pgValueString g n i);
     getFormat := fun i v => value w (pgFormat g i v) |}.
Definition plainColumn (col : PColumn Item Val E) : Column Item Val E :=
  {| colGetter := option_map plainGetter (pcGetter col);
     colAlignment := option_map (fun al s n => value w (al s n)) (pcAlignment col);
     colName := pcName col; colTitle := pcTitle col; colShortTitle := pcShortTitle col |}.
(** The table, with a spec whose other fields are any. *)
Definition IsPlain (t : PTable Item Val E) (t' : Table Item Val E) : Prop :=
  Columns (tSpec t') = map (option_map plainColumn) (ptColumns t) /\ columnWidth t' = ptWidth t.
Definition plainItems (l : PItems E) : FormattedItemList E :=
  {| fiLen := piLen l; fiGet := fun i => value w (piGet l i) |}.
End Types.

(** ** One goroutine alone, calling the cached visualWidth *)
Inductive cached {A} (c : Condition) (ok : nat -> bool) : cache -> nat -> wprog A -> cache -> list str -> A -> Prop :=
| k_ret m n a : cached c ok m n (WRet a) m [] a
| k_call m n s k keep m' out a :
    cached c ok (snd (visualWidth c keep m s)) n (k (fst (visualWidth c keep m s))) m' out a ->
    cached c ok m n (WCall s k) m' out a
| k_write m n txt k m' out a : cached c ok m (S n) (k (ok n)) m' out a ->
    cached c ok m n (Write txt k) m' (if ok n then txt :: out else out) a
| k_evict m n p keep m' out a : cached c ok (cache_evict keep m) n p m' out a ->
    cached c ok m n p m' out a.

(** ** Goroutines about to start, on an empty cache: programs and writers *)
Definition started {A} (work : list (wprog A * (nat -> bool))) : cache * list (goroutine A) :=
  ([], map (fun '(p, ok) => gstart p ok) work).
