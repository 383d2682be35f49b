(** * AlignedSpec: rows aligned before they are merged. *)
From Verif Require Import GoBase Runewidth Width TextSpec AlignSpec Table Merge TableContract MergeSpec.
Local Open Scope Z_scope.

Section Types.
Context {Item Val E : Type}.

(** The cells of a column with one of the alignments of alignment.go can be padded by it. *)
Definition PaddableCells c (cols : list (Column Item Val E)) (rows : list (list str)) : Prop :=
  forall row i s col a, In row rows -> nth_error row i = Some s -> nth_error cols i = Some col ->
  colAlignment col = Some (align a c) -> Paddable a s.

(** Every printed cell is as wide as recorded. *)
Definition Exact c (t : Table Item Val E) (cols : list (Column Item Val E)) (rows : list (list str)) : Prop :=
  forall row i s col, In row rows -> nth_error row i = Some s -> nth_error cols i = Some col ->
  vwidth c s = Width t (colName col).
End Types.
