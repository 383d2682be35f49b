(** * BasicSpec: cutting a text at a separator, as strings.Split does. *)
From Verif Require Import GoBase.
Local Open Scope Z_scope.

(** [sep] stands in [s] behind [a]. *)
Definition Stands (sep s a : str) : Prop := exists b, s = a ++ sep ++ b.

(** The pieces between the occurrences of [sep], found from the left. *)
Inductive Splits (sep : str) : str -> list str -> Prop :=
| splits_end s : (forall a, ~ Stands sep s a) -> Splits sep s [s]
| splits_cut a b ps : (forall a', Stands sep (a ++ sep ++ b) a' -> (length a <= length a')%nat) ->
    Splits sep b ps -> Splits sep (a ++ sep ++ b) (a :: ps).

(** [sep] behind the value is the first there is. *)
Definition Ends (sep v : str) : Prop := forall a, Stands sep (v ++ sep) a -> a = v.

(** The separator can be found again between the values: it does not stand in
    the last one, and behind each of the others it does not begin earlier. *)
Inductive Apart (sep : str) : list str -> Prop :=
| apart_last v : (forall a, ~ Stands sep v a) -> Apart sep [v]
| apart_more v w vs : Ends sep v -> Apart sep (w :: vs) -> Apart sep (v :: w :: vs).

Fixpoint occurrences (x : byte) (s : str) : Z :=
  match s with [] => 0 | b :: s => (if Byte.eqb b x then 1 else 0) + occurrences x s end.
