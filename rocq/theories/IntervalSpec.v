(** * IntervalSpec: what the Unicode tables mean, independently of how they
    are searched. *)
From Verif Require Import GoBase.
Local Open Scope Z_scope.

(** [r] lies in one of the closed intervals of [t]. *)
Definition Member (r : Z) (t : list (Z * Z)) : Prop :=
  exists first last, In (first, last) t /\ first <= r <= last.

(** The intervals are non-empty, in increasing order, and separated by at
    least one code point ("compact": no two could be merged). *)
Fixpoint Compact (t : list (Z * Z)) : Prop :=
  match t with
  | [] => True
  | (a, b) :: rest =>
    a <= b /\
    match rest with [] => True | (a', _) :: _ => b + 1 < a' end /\
    Compact rest
  end.

(** The intervals are non-empty, in increasing order and disjoint. *)
Fixpoint Sorted (t : list (Z * Z)) : Prop :=
  match t with
  | [] => True
  | (a, b) :: rest =>
    a <= b /\
    match rest with [] => True | (a', _) :: _ => b < a' end /\
    Sorted rest
  end.

(** Same for property tables (first, last, property). *)
Definition spans (d : list (Z * Z * Z)) : list (Z * Z) := map fst d.

(** [p] is the property the dictionary [d] assigns to [r]: the property of an
    entry containing [r], or 0 when no entry contains it. *)
Definition HasProperty (d : list (Z * Z * Z)) (r p : Z) : Prop :=
  (exists first last, In (first, last, p) d /\ first <= r <= last)
  \/ (p = 0 /\ forall first last q, In (first, last, q) d -> ~ (first <= r <= last)).

(** The same as a function: the property of the first entry containing [r]. *)
Fixpoint lookup (d : list (Z * Z * Z)) (r : Z) : Z :=
  match d with
  | [] => 0
  | (a, b, p) :: rest => if (a <=? r) && (r <=? b) then p else lookup rest r
  end.
