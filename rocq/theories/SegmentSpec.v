(** * SegmentSpec: how a client may drive the segmentation functions. *)
From Verif Require Import GoBase Uniseg.
Local Open Scope Z_scope.

(** The client loop [for g.Next() { visit }]: the iterator states visited. *)
Inductive Visits : Graphemes -> list Graphemes -> Prop :=
| v_done g g' : Next g = Some (g', false) -> Visits g []
| v_more g g' gs : Next g = Some (g', true) -> Visits g' gs -> Visits g (g' :: gs).

(** States a client may hold for a text: a negative number to start, then
    whatever the preceding call returned for the rest. *)
Inductive StateFor : str -> Z -> Prop :=
| sf_start s st : st < 0 -> StateFor s st
| sf_next s st cluster rest boundaries st' :
    StateFor s st -> StepString s st = Some (cluster, rest, boundaries, st') ->
    StateFor rest st'.

(** The result of the last of [n] consecutive calls to [Next]. *)
Fixpoint next_n (n : nat) (g : Graphemes) : option (Graphemes * bool) :=
  match n with
  | O => Some (g, false)
  | S n' => match next_n n' g with Some (g', _) => Next g' | None => None end
  end.
