(** * CondHeapSpec: what a client sees of Conditions in memory. *)
From Verif Require Import GoBase Runewidth CondHeap.
Local Open Scope Z_scope.

(** Condition [i] as a value. *)
Definition seen (h : heap) (i : nat) : option Condition :=
  option_map (value_of h) (nth_error (conds h) i).

(** Conditions [i] and [j] have the same table. *)
Definition Shares (h : heap) (i j : nat) : Prop :=
  exists a b, nth_error (conds h) i = Some a /\ nth_error (conds h) j = Some b
    /\ sLen (hLut a) <> 0%nat /\ sLen (hLut b) <> 0%nat /\ sArr (hLut a) = sArr (hLut b).

(** Operations that copy a Condition. *)
Definition copies (o : hop) : bool := match o with HCopy _ | HAssign _ _ => true | _ => false end.

(** The condition an operation is applied to. *)
Definition target (o : hop) : option nat :=
  match o with HFlags i _ _ | HLUT i | HEnv i _ _ | HAssign i _ => Some i | _ => None end.

(** An operation on a Condition as a value. *)
Definition value_step (c : Condition) (o : hop) : Condition :=
  match o with
  | HFlags _ ea st => {| combinedLut := combinedLut c; EastAsianWidth := ea; StrictEmojiNeutral := st |}
  | HLUT _ => CreateLUT c
  | HEnv _ env loc => DefaultCondition (handleEnv env loc
      {| gEastAsianWidth := EastAsianWidth c; gStrictEmojiNeutral := StrictEmojiNeutral c; DefaultCondition := c |})
  | _ => c
  end.
Definition aimed_at (i : nat) (o : hop) : bool :=
  match target o with Some j => Nat.eqb i j | None => false end.
