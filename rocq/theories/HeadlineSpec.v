(** * HeadlineSpec: a header for lines of several items. *)
From Verif Require Import GoBase Table TableContract.
Local Open Scope Z_scope.

(** The title a column of [w] cells has room for, in bytes. *)
Definition title_for {Item Val E : Type} (col : Column Item Val E) (w : Z) : str :=
  if slen (colTitle col) <=? w then colTitle col
  else if slen (colShortTitle col) <=? w then colShortTitle col else [].

(** The header of one item, once for each of [g] items, with the separator
    between them that is to stand between the items. *)
Definition headline (sep header : str) (g : nat) : str := TableContract.join sep (repeat header g).
