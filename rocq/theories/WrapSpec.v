(** * WrapSpec: a screen with rows, and an edge at which text goes on in the next row.

    Independent of the code, on top of the terminal of TerminalSpec: that one
    has a single endless line, this one has rows, so many columns, and keeps
    what was drawn where.  Only [RuneWidth c] is shared with the code. *)
From Verif Require Import GoBase Utf8 Runewidth TerminalSpec.
Local Open Scope Z_scope.

(** The number of columns ([None]: endless), and whether the cursor leaves a
    row as soon as its last column is filled ([eager]) or only when one more
    rune comes, as nearly all terminals have it. *)
Record edge := mkEdge { columns : option Z; eager : bool }.
Definition endless : edge := mkEdge None false.

(** Row, column, attribute changes, and what was drawn: row, column, rune,
    latest first. *)
Record screen := mkS { sMode : tmode; sRow : Z; sCol : Z; sStyle : list (list Z); sInk : list (Z * Z * Z) }.
Definition top : screen := mkS Ground 0 0 [] [].

Definition beyond (e : edge) (x : Z) : bool :=
  match columns e with Some w => w <? x | None => false end.
Definition filled (e : edge) (x : Z) : bool :=
  match columns e with Some w => eager e && (w <=? x) | None => false end.

(** Leaving the row if it is full. *)
Definition leave (e : edge) (s : screen) : screen :=
  if filled e (sCol s) then mkS (sMode s) (sRow s + 1) 0 (sStyle s) (sInk s) else s.

(** A rune of [n] cells: in this row, or in the next if it would not fit. *)
Definition draw (e : edge) (r n : Z) (s : screen) : screen :=
  if n =? 0 then s
  else if beyond e (sCol s + n)
  then leave e (mkS Ground (sRow s + 1) n (sStyle s) ((sRow s + 1, 0, r) :: sInk s))
  else leave e (mkS Ground (sRow s) (sCol s + n) (sStyle s) ((sRow s, sCol s, r) :: sInk s)).

(** Runes that are drawn: no controls. *)
Definition drawn (r : Z) : bool := negb ((r <? 0x20) || ((0x7F <=? r) && (r <? 0xA0))).

(** Everything else is obeyed as by the terminal; a cursor that is moved
    stops at the edge. *)
Definition held (e : edge) (x x' : Z) : Z :=
  match columns e with Some w => if x' =? x then x else Z.min x' (w - 1) | None => x' end.
Definition obey (e : edge) (c : Condition) (s : screen) (r : Z) : screen :=
  let t := step c (mkT (sMode s) (sCol s) (sStyle s)) r in
  mkS (tMode t) (sRow s) (held e (sCol s) (tCol t)) (tStyle t) (sInk s).

Definition sstep (e : edge) (c : Condition) (s : screen) (r : Z) : screen :=
  match sMode s with
  | Ground =>
    if r =? 0x0A then mkS Ground (sRow s + 1) 0 (sStyle s) (sInk s)
    else if drawn r then draw e r (RuneWidth c r) s
    else obey e c s r
  | _ => obey e c s r
  end.

(** Printing a text. *)
Definition display (e : edge) (c : Condition) (s : screen) (text : str) : screen :=
  fold_left (sstep e c) (runes text) s.

(** A screen with room for lines of [n] cells. *)
Definition Holds (e : edge) (n : Z) : Prop :=
  match columns e with Some w => n <= w /\ (eager e = true -> n < w) | None => True end.
