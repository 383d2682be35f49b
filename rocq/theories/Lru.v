(** * Lru: visualWidth on a cache that drops the text not asked for longest.

    width.go:19 makes the cache with [lru.WithCapacity(10000)].  The
    dependency go-lru is not in /repo; what is assumed of it here is what LRU
    means: [Get] and [Set] of a key make it the most recent one, and a [Set]
    that makes the entries too many drops the least recent one.  (Width.v
    assumes less: there any entries may be dropped at any time.) *)
From Verif Require Import GoBase Runewidth Width Table Merge Cached.
Local Open Scope Z_scope.

(** The entries, most recent first. *)
Definition entries := list (str * Z).

(** width.go:19. *)
Definition capacity : nat := Z.to_nat 10000.

(** The entries without that of a key. *)
Definition dropKey (k : str) (m : entries) : entries := filter (fun e => negb (str_eqb k (fst e))) m.

(** The width stored under a key, as [widthCache.Get] (width.go:30) returns it. *)
Fixpoint lookup (m : entries) (k : str) : option Z :=
  match m with
  | [] => None
  | (k', v) :: rest => if str_eqb k k' then Some v else lookup rest k
  end.

(** [Get]: a key that is found becomes the most recent one. *)
Definition lruGet (m : entries) (k : str) : option Z * entries :=
  match lookup m k with
  | Some v => (Some v, (k, v) :: dropKey k m)
  | None => (None, m)
  end.

(** [Set]: the key becomes the most recent one; beyond the capacity the least
    recent entries go. *)
Definition lruSet (cap : nat) (m : entries) (k : str) (v : Z) : entries := firstn cap ((k, v) :: dropKey k m).

(** width.go:23-38, [visualWidth]; also says whether the width was computed. *)
Definition visualWidthL (cap : nat) (c : Condition) (m : entries) (s : str) : Z * bool * entries :=
  let '(got, m1) := lruGet m s in
  let w := match got with Some v => v | None => 0 end in
  if w >? 0 then (w, false, m1)
  else let w' := vwidth c s in (w', true, lruSet cap m1 s w').

(** One call after the other: the answers, and which of them were computed. *)
Fixpoint measureAll (cap : nat) (c : Condition) (m : entries) (l : list str) : list (Z * bool) :=
  match l with
  | [] => []
  | s :: rest => let '(w, b, m') := visualWidthL cap c m s in (w, b) :: measureAll cap c m' rest
  end.

(** A program (Cached.v) on this cache: what it writes, its result, and for
    each call of visualWidth the text and whether its width was computed. *)
Fixpoint runL {A} (cap : nat) (c : Condition) (ok : nat -> bool) (n : nat) (m : entries) (p : wprog A)
  : list str * A * list (str * bool) :=
  match p with
  | WRet a => ([], a, [])
  | WCall s k =>
    let '(w, b, m') := visualWidthL cap c m s in
    let '(out, a, log) := runL cap c ok n m' (k w) in (out, a, (s, b) :: log)
  | Write txt k =>
    let '(out, a, log) := runL cap c ok (S n) m (k (ok n)) in
    (if ok n then txt :: out else out, a, log)
  end.

Section Types.
Context {Item Val E : Type}.

(** A client that formats all its items before it prints them, keeping the
    rows. *)
Fixpoint formatAllP (t : PTable Item Val E) (items : list Item) (done : list (list str))
  : prog (PTable Item Val E * outcome E (list (list str))) :=
  match items with
  | [] => Ret (t, Ok done)
  | item :: rest =>
    bind (formatItemP t item) (fun '(t', r) =>
    match r with
    | Ok row => formatAllP t' rest (done ++ [row])
    | Err e => Ret (t', Err e)
    | Panic p => Ret (t', Panic p)
    end)
  end.

(** Its rows as a FormattedItemList. *)
Definition listP (rows : list (list str)) : PItems E :=
  {| piLen := slen rows;
     piGet := fun i => Ret (match at_index rows i with Some row => Ok row | None => Panic IndexOutOfRange end) |}.

(** Format everything, then print it with MergeRowsHorizontal. *)
Definition formatAndPrintP (t : PTable Item Val E) (items : list Item) (maxWidth : Z) (sep : str) : wprog (status E) :=
  first (formatAllP t items []) (fun '(t', r) =>
  match r with
  | Ok rows => mergeHP 1 t' (listP rows) maxWidth sep false
  | Err e => WRet (Failed e)
  | Panic p => WRet (Panicked p)
  end).
End Types.
