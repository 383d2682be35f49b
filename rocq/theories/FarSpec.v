(** * FarSpec: rows that get narrower down the list. *)
From Verif Require Import GoBase Runewidth Width Table MergeSpec.
Local Open Scope Z_scope.

(** In no column is a cell wider than one above it. *)
Definition Narrowing {Item Val E} c (cols : list (Column Item Val E)) (rows : list (list str)) : Prop :=
  forall i j r r' k s s', (i <= j)%nat -> nth_error rows i = Some r -> nth_error rows j = Some r' -> (k < length cols)%nat ->
  nth_error r k = Some s -> nth_error r' k = Some s' -> vwidth c s' <= vwidth c s.

(** The layout with [g] groups fits: the widths of its groups, the spaces between cells and
    the separators take at most [w]. *)
Definition FitsIn {Item Val E} c (cols : list (Column Item Val E)) sep (w : Z) m rows g : Prop :=
  exists x, CompactTotal c cols sep m rows g x /\ x <= w.
