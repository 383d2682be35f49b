(** * GenerateSpec: what generated tables should contain. *)
From Coq Require Import Permutation.
From Verif Require Import GoBase IntervalSpec Generate.
Local Open Scope Z_scope.

(** Line [l] is about code point [r]. *)
Definition Covers (l : ea_line) (r : Z) : Prop :=
  match eaHi l with Some h => eaLo l <= r <= h | None => r = eaLo l end.
(** Ranges are not empty. *)
Definition ProperLine (l : ea_line) : Prop := match eaHi l with Some h => eaLo l <= h | None => True end.
(** Lines in increasing order, without overlap. *)
Fixpoint Ascending (lines : list ea_line) : Prop :=
  match lines with
  | [] => True
  | l :: rest => (forall r l' r', Covers l r -> In l' rest -> Covers l' r' -> r < r') /\ Ascending rest
  end.

(** A line of a property file is about [r]. *)
Definition Speaks (l : Z * option Z * Z) (r p : Z) : Prop :=
  let '(from, to_, q) := l in q = p /\ match to_ with Some t => from <= r <= t | None => r = from end.
(** What sorting by the first code point may give (gen_properties.go:183-188;
    sort.Slice is not stable). *)
Inductive Increasing : list (Z * Z * Z) -> Prop :=
| inc_nil : Increasing []
| inc_one e : Increasing [e]
| inc_cons a b rest : fst (fst a) <= fst (fst b) -> Increasing (b :: rest) -> Increasing (a :: b :: rest).
Definition SortedEntries (lines : list (Z * option Z * Z)) (d : list (Z * Z * Z)) : Prop :=
  Permutation (map prop_entry lines) d /\ Increasing d.
