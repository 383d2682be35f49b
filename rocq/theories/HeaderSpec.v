(** * HeaderSpec: what a table's header shows. *)
From Verif Require Import GoBase.
Local Open Scope Z_scope.

(** A text without spaces at its ends. *)
Definition Trimmed (s : str) : Prop := (forall u, s <> space :: u) /\ (forall u, s <> u ++ [space]).
(** What is left of a cell without the spaces at its ends. *)
Definition Shows (cell s : str) : Prop := Trimmed s /\ exists l r, cell = repeat space l ++ s ++ repeat space r.

(** Which of a column's two titles, or none, is shown after widths [seen] were
    recorded for it. *)
Record Heading (seen : Z -> Prop) (title short s : str) : Prop := {
  hd_unused : (forall w, seen w -> w = 0) -> s = title;
  hd_title : forall w, seen w -> slen title <= w -> s = title;
  hd_short : forall w, seen w -> 0 < w -> slen short <= w -> (forall v, seen v -> v < slen title) -> s = short;
  hd_blank : forall w, seen w -> 0 < w -> (forall v, seen v -> v < slen title /\ v < slen short) -> s = [] }.

(** The better of two texts, the first to take no more than [w] of what
    [size] counts. *)
Definition first_fitting (size : str -> Z) (w : Z) (title short : str) : str :=
  if size title <=? w then title else if size short <=? w then short else [].
