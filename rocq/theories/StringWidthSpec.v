(** * StringWidthSpec: the width of a text, from the widths of its runes and
    its division into clusters. *)
From Verif Require Import GoBase GraphemeSpec.
Local Open Scope Z_scope.

(** The width of a cluster is the width of its first visible rune; 0 if it
    has none. *)
Inductive ClusterWidth (width : Z -> Z) : list Z -> Z -> Prop :=
| cw_invisible rs : Forall (fun r => width r = 0) rs -> ClusterWidth width rs 0
| cw_visible before r after :
    Forall (fun r => width r = 0) before -> 0 < width r ->
    ClusterWidth width (before ++ r :: after) (width r).

(** [w] is the width of the runes [rs]: the sum over the clusters of UAX #29. *)
Definition TextWidth (width : Z -> Z) (rs : list Z) (w : Z) : Prop :=
  exists cl ws, IsSegmentation rs cl /\ Forall2 (ClusterWidth width) cl ws /\ w = zsum ws.
