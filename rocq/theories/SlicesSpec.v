(** * SlicesSpec: the slices merging makes. *)
From Verif Require Import GoBase Slices.
Local Open Scope Z_scope.

(** Nothing is moved, and no room is negative. *)
Definition OnlyMade (evs : list event) : Prop := Forall (fun ev => exists n, 0 <= n /\ ev = Made n) evs.

(** For a line of at most [g] items: room for [g], and for the cells of each
    item. *)
Definition line_slots {A} (g columns : Z) (line : list A) : list Z := g :: repeat columns (length line).
Definition lines_slots {A} (g columns : Z) (lines : list (list A)) : list Z := flat_map (line_slots g columns) lines.
(** For [tries] numbers of groups, from [g0 + 1] on: room for a width for each
    column of each group. *)
Definition tries_slots (g0 tries : nat) (columns : Z) : list Z := map (fun g => Z.of_nat g * columns) (seq (S g0) tries).
