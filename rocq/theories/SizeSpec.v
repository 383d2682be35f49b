(** * SizeSpec: how many bytes merged rows take. *)
From Verif Require Import GoBase Runewidth Width TextSpec AlignSpec Table MergeSpec.
Local Open Scope Z_scope.

(** The bytes of an item printed in columns of widths [ws]: those of its cells,
    the spaces a cell is short of its column, one space between two columns. *)
Definition row_bytes (c : Condition) (ws : list Z) (row : list str) : Z :=
  zsum (map (fun p => slen (snd p) + Z.max 0 (fst p - vwidth c (snd p))) (combine ws row)) + (slen ws - 1).
(** Those no layout can do without. *)
Definition bare_bytes (columns : Z) (row : list str) : Z :=
  zsum (map slen (firstn (Z.to_nat columns) row)) + (columns - 1).

(** The lines taken by [n] items, [g] to a line. *)
Definition lines_of (n g : Z) : Z := (n + g - 1) / g.
(** The lines with fewer than [g] items: the last at most if items go line by
    line; if they go column by column, as many as places are left in the last
    column, all of them if it is empty. *)
Definition short_of (m : mode) (n g : Z) : Z :=
  Z.min (match m with H => 1 | V => lines_of n g end) (g * lines_of n g - n).
(** The separators: between two items of a line, and after the last item of a
    line with fewer than [g]. *)
Definition separators (m : mode) (n g : Z) : Z := n - lines_of n g + short_of m n g.
(** Everything: the items, the separators, a newline for each line. *)
Definition size_of (sep : str) (m : mode) (n g content : Z) : Z :=
  content + slen sep * separators m n g + lines_of n g.

Definition size (out : list str) : Z := slen (concat out).
