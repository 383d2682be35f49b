(** * GrowSpec: longer lists of wider items. *)
From Verif Require Import GoBase Runewidth Width Table Merge TableContract MergeSpec.
Local Open Scope Z_scope.

Section Types.
Context {Item Val E : Type}.

(** At least as many items, and the printed cells of each at least as wide as those of the
    item in its place. *)
Definition Wider c (cols : list (Column Item Val E)) (rows rows' : list (list str)) : Prop :=
  (length rows <= length rows')%nat
  /\ forall j i s s', (i < length cols)%nat -> get2 rows j i = Some s -> get2 rows' j i = Some s' -> vwidth c s <= vwidth c s'.

(** Horizontally items may also have been put in front; vertically there must be as many. *)
Definition Larger c (cols : list (Column Item Val E)) (m : mode) (rows rows' : list (list str)) : Prop :=
  match m with
  | H => exists front mid, rows' = front ++ mid /\ Wider c cols rows mid
  | V => length rows = length rows' /\ Wider c cols rows rows'
  end.

(** No layout with at most one group for each item is too wide for a uint16. *)
Definition Narrow c (cols : list (Column Item Val E)) (sep : str) (m : mode) (rows : list (list str)) : Prop :=
  forall g w, (1 <= g <= length rows)%nat -> CompactTotal c cols sep m rows g w -> w < 65536.
End Types.
