(** * AlignSpec: what the built-in alignments should do. *)
From Verif Require Import GoBase Runewidth TextSpec Table.
Local Open Scope Z_scope.

Inductive alignment := ALeft | ARight | ACenter.

(** The built-in function of that name. *)
Definition align (a : alignment) (c : Condition) (s : str) (w : Z) : str :=
  match a with
  | ALeft => AlignmentLeft c s w
  | ARight => AlignmentRight c s w
  | ACenter => AlignmentCenter c s w
  end.

(** The texts that can be padded: a space put on the side(s) the alignment
    pads does not join the text. *)
Definition Paddable (a : alignment) (s : str) : Prop :=
  match a with
  | ALeft => ~ JoinsNext s
  | ARight => ~ JoinsPrevious s
  | ACenter => ~ JoinsPrevious s /\ ~ JoinsNext s
  end.

(** Where the spaces go, [l] before and [r] after, [total] in all. *)
Definition Placement (a : alignment) (total l r : Z) : Prop :=
  0 <= l /\ 0 <= r /\ l + r = total /\
  match a with
  | ALeft => l = 0
  | ARight => r = 0
  | ACenter => 0 <= l - r <= 1
  end.
