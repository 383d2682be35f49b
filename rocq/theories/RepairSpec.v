(** * RepairSpec: text with the bytes that belong to no character replaced. *)
From Verif Require Import GoBase Utf8Spec Runewidth Table Merge.
Local Open Scope Z_scope.

(** U+FFFD, the replacement character. *)
Definition replacement : str := [xef; xbf; xbd].

(** From left to right, a character is kept; a byte where none begins is
    replaced. *)
Inductive Repaired : str -> str -> Prop :=
| rp_end : Repaired [] []
| rp_kept r e s s' : Encodes r e -> Repaired s s' -> Repaired (e ++ s) (e ++ s')
| rp_replaced b s s' : (forall r e rest, b :: s = e ++ rest -> ~ Encodes r e) -> Repaired s s' -> Repaired (b :: s) (replacement ++ s').

(** Two lists whose cells differ in that only. *)
Definition RepairedItems {E} (items items' : FormattedItemList E) : Prop :=
  fiLen items' = fiLen items /\
  forall i, match fiGet items i, fiGet items' i with
            | Ok row, Ok row' => Forall2 Repaired row row'
            | Err e, Err e' => e' = e
            | Panic p, Panic p' => p' = p
            | _, _ => False
            end.
