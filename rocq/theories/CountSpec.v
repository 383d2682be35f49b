(** * CountSpec: the number of characters of a text. *)
From Verif Require Import GoBase Uniseg SegmentSpec.
Local Open Scope Z_scope.

(** The iterator visits [n] clusters in [s]. *)
Definition Count (s : str) (n : Z) : Prop := exists gs, Visits (NewGraphemes s) gs /\ Z.of_nat (length gs) = n.
