(** * VisualLawsSpec: texts that end inside an escape sequence. *)
From Verif Require Import GoBase Utf8 TextSpec.
Local Open Scope Z_scope.

(** The text ends inside what may become an escape sequence. *)
Definition Unfinished (s : str) : Prop :=
  exists pre i post, runes s = pre ++ i :: post /\ Introducer i /\ Forall SequenceRune post.
