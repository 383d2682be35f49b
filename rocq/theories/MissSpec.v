(** * MissSpec: what padding costs a text whose edges join spaces.

    Stated on runes and the clusters of UAX #29; nothing here mentions the
    alignments. *)
From Verif Require Import GoBase GraphemeSpec StringWidthSpec.
Local Open Scope Z_scope.

(** The text ends in Prepend runes one of which is visible: the cluster they
    make takes in a space that follows, and already has its width. *)
Definition Absorbs (width : Z -> Z) (rs : list Z) : Prop :=
  exists before tail, rs = before ++ tail /\ Forall (fun r => class r = Prepend) tail
    /\ Exists (fun r => 0 < width r) tail.

(** Cells lost where spaces follow the text. *)
Inductive LostAfter (width : Z -> Z) (rs : list Z) : Z -> Prop :=
| after_one : Absorbs width rs -> LostAfter width rs 1
| after_none : ~ Absorbs width rs -> LostAfter width rs 0.

Definition Attaches (r : Z) : Prop := class r = Extend \/ class r = ZWJ \/ class r = SpacingMark.

(** Cells lost where spaces precede the text: all of its first cluster's, if
    this cluster attaches to what comes before. *)
Inductive LostBefore (width : Z -> Z) (rs : list Z) : Z -> Prop :=
| before_first r more first rest d : rs = r :: more -> Attaches r ->
    IsSegmentation rs (first :: rest) -> ClusterWidth width first d -> LostBefore width rs d
| before_none : (forall r more, rs = r :: more -> ~ Attaches r) -> LostBefore width rs 0.
