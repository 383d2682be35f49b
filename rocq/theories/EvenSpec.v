(** * EvenSpec: rows whose cells have the same widths in every row. *)
From Verif Require Import GoBase Runewidth Width Table MergeSpec TableContract.
Local Open Scope Z_scope.

Definition Even {Item Val E} c (cols : list (Column Item Val E)) (ws : list Z) (rows : list (list str)) : Prop :=
  length ws = length cols
  /\ forall row i s, In row rows -> nth_error row i = Some s -> (i < length cols)%nat -> nth_error ws i = Some (vwidth c s).

(** What an item takes in a line with a separator: its cells, a space between them. *)
Definition room {Item Val E} (cols : list (Column Item Val E)) (ws : list Z) (sep : str) : Z :=
  zsum ws + (slen cols - 1) + slen sep.

(** How many fit: [g] items and [g - 1] separators. *)
Definition fitting {Item Val E} (cols : list (Column Item Val E)) (ws : list Z) (sep : str) (maxWidth : Z) : Z :=
  (maxWidth + slen sep) / room cols ws sep.
