(** * EndlessSpec: when the compact search of MergeRowsHorizontal has no end. *)
From Verif Require Import GoBase Runewidth Width Table.
Local Open Scope Z_scope.

Section Types.
Context {Item Val E : Type}.

(** The widths of all printed cells together. *)
Definition cells_width (c : Condition) (cols : list (Column Item Val E)) (rows : list (list str)) : Z :=
  zsum (map (fun row => zsum (map (vwidth c) (firstn (length cols) row))) rows).

(** What one more group without items adds. *)
Definition stride (cols : list (Column Item Val E)) (sep : str) : Z := slen sep + slen cols - 1.

(** The greatest power of 2, up to 65536, that divides it. *)
Definition grain (cols : list (Column Item Val E)) (sep : str) : Z := Z.gcd (stride cols sep) 65536.

(** The greatest total the layouts with a group for every item can have, modulo
    65536. *)
Definition summit c (cols : list (Column Item Val E)) (sep : str) (rows : list (list str)) : Z :=
  65536 - grain cols sep + (cells_width c cols rows - slen sep) mod grain cols sep.
End Types.
