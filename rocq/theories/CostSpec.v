(** * CostSpec: how much of a text a search for escape sequences must look at. *)
From Verif Require Import GoBase Utf8 Regex Width.
Local Open Scope Z_scope.

(** The bytes of a text and its end. *)
Definition marked (s : str) : list (option byte) := map Some s ++ [None].

(** Whoever has seen the first [n] of these knows where the first escape
    sequence is: all texts that begin in the same way have the same answer. *)
Definition Settled (s : str) (n : Z) : Prop := forall t,
  firstn (Z.to_nat n) (marked t) = firstn (Z.to_nat n) (marked s) -> FindStringIndex ansiEscapeRE t = FindStringIndex ansiEscapeRE s.
