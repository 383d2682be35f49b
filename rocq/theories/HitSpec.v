(** * HitSpec: from a place on the screen to an item and a field. *)
From Verif Require Import GoBase MergeSpec.
Local Open Scope Z_scope.

(** The field at [x] of an item with fields of widths [ws], a space between
    each two; none at a space or beyond the last. *)
Fixpoint field_at (ws : list Z) (x : Z) : option nat :=
  match ws with
  | [] => None
  | w :: ws => if x <? w then Some 0%nat else if x =? w then None else option_map S (field_at ws (x - w - 1))
  end.

(** From one item of a line to the next, the separator showing [sepw]. *)
Definition pitch (ws : list Z) (sepw : Z) : Z := zsum ws + (slen ws - 1) + sepw.

(** The item in the line, and its field, at column [x] of the screen. *)
Definition hit (ws : list Z) (sepw : Z) (x : Z) : option (nat * nat) :=
  option_map (pair (Z.to_nat (x / pitch ws sepw))) (field_at ws (x mod pitch ws sepw)).

(** The number in the list of the [k]th item of line [l] of [L], with [g] to a line. *)
Definition number (m : mode) (g L l k : nat) : nat :=
  match m with H => l * g + k | V => k * L + l end%nat.
