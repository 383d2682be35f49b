(** * PartsSpec: segmenting a text that arrives in parts. *)
From Verif Require Import GoBase Utf8 Uniseg GraphemeSpec SegmentSpec.
Local Open Scope Z_scope.

(** The clusters the iterator visits in [s]. *)
Definition Clusters (s : str) (cl : list str) : Prop := exists gs, Visits (NewGraphemes s) gs /\ map g_cluster gs = cl.

(** Text that is followed by [tail], and whose runes stay as they are whatever
    comes next. *)
Definition Stays (w tail : str) : Prop := forall b, decode (w ++ tail ++ b) = decode w ++ decode (tail ++ b).

(** A client that is given the parts one after the other.  It holds [p]; of that
    and the next part it may segment some text whose runes stay, give out all
    clusters of it but the last, and hold the last one and the other bytes; or it waits.  At
    the end it gives out the clusters of what it holds. *)
Inductive Feeds : str -> list str -> list str -> Prop :=
| fd_end p cl : Clusters p cl -> Feeds p [] cl
| fd_part p a parts w tail cl keep out : p ++ a = w ++ tail -> Stays w tail -> Clusters w (cl ++ [keep]) ->
    Feeds (keep ++ tail) parts out -> Feeds p (a :: parts) (cl ++ out)
| fd_wait p a parts out : Feeds (p ++ a) parts out -> Feeds p (a :: parts) out.

(** The last rune of a text. *)
Definition EndsIn (s : str) (P : gcb -> Prop) : Prop := exists pre r, runes s = pre ++ [r] /\ P (class r).
