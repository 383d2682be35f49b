(** * FewestSpec: texts broken into lines. *)
From Verif Require Import GoBase Runewidth PartsSpec.
Local Open Scope Z_scope.

(** [ps] is [s] broken between characters, anywhere, into lines no wider than [w]. *)
Definition Broken (c : Condition) (w : Z) (s : str) (ps : list str) : Prop :=
  exists css, Clusters s (concat css) /\ ps = map (@concat byte) css /\ Forall (fun p => StringWidth c p <= w) ps.
