(** * EditSpec: changes of a text, character by character. *)
From Verif Require Import GoBase.

(** One character put in, taken out or exchanged for another, or two neighbours
    exchanged for one another. *)
Inductive Edit : list Z -> list Z -> Prop :=
| ed_insert a r b : Edit (a ++ b) (a ++ r :: b)
| ed_delete a r b : Edit (a ++ r :: b) (a ++ b)
| ed_replace a r r' b : Edit (a ++ r :: b) (a ++ r' :: b)
| ed_swap a r r' b : Edit (a ++ r :: r' :: b) (a ++ r' :: r :: b).

(** [k] such changes, one after the other. *)
Inductive Edits : nat -> list Z -> list Z -> Prop :=
| eds_none rs : Edits O rs rs
| eds_more k rs rs' rs'' : Edit rs rs' -> Edits k rs' rs'' -> Edits (S k) rs rs''.
