(** * ElsewhereSpec: text measured for one terminal and shown on another.

    The terminals differ in the number of cells they give to a rune. *)
From Verif Require Import GoBase Utf8 Runewidth TerminalSpec StringWidthSpec.
Local Open Scope Z_scope.

(** How many cells further the cursor goes on terminal [d] than on terminal [c]. *)
Definition excess (c d : Condition) (s : str) : Z := tCol (show d home s) - tCol (show c home s).
Definition excesses (c d : Condition) (l : list str) : Z := zsum (map (excess c d) l).

(** The cells of a line before cell [i] of its item [k], of items of [n] cells. *)
Definition cells_before (n : nat) (line : list (list str)) (k i : nat) : list str :=
  concat (map (firstn n) (firstn k line)) ++ match nth_error line k with Some row => firstn i row | None => [] end.

(** Whether terminals [c] and [d] give a rune different numbers of cells. *)
Definition differs (c d : Condition) (r : Z) : bool := negb (RuneWidth c r =? RuneWidth d r).
