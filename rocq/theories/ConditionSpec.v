(** * ConditionSpec: the conditions and package states a client can reach. *)
From Verif Require Import GoBase Runewidth.
Local Open Scope Z_scope.

(** A condition without lookup table. *)
Definition plainCondition (eastAsian strict : bool) : Condition :=
  {| combinedLut := []; EastAsianWidth := eastAsian; StrictEmojiNeutral := strict |}.

(** Conditions a client can build: fresh ones (with any flags), calling
    [CreateLUT], and assigning the exported flags. *)
Inductive Reachable : Condition -> Prop :=
| r_fresh ea st : Reachable {| combinedLut := []; EastAsianWidth := ea; StrictEmojiNeutral := st |}
| r_lut c : Reachable c -> Reachable (CreateLUT c)
| r_flags c ea st : Reachable c ->
    Reachable {| combinedLut := combinedLut c; EastAsianWidth := ea; StrictEmojiNeutral := st |}.

(** ** Histories of handleEnv / CreateLUT *)

Inductive env_op :=
| OpEnv (env : str) (localeIsEastAsian : bool)   (* handleEnv *)
| OpLUT.                                         (* package-level CreateLUT *)

Definition env_step (g : Globals) (o : env_op) : Globals :=
  match o with
  | OpEnv env loc => handleEnv env loc g
  | OpLUT => CreateLUT_default g
  end.

(** What an environment evaluation asks for: the variable when it is set
    (on exactly for "1"), the locale otherwise. *)
Definition env_choice (env : str) (loc : bool) : bool :=
  match env with [] => loc | _ => str_eqb env [x31] end.

(** What the last environment evaluation of a history asked for. *)
Fixpoint last_choice_from (b : bool) (ops : list env_op) : bool :=
  match ops with
  | [] => b
  | OpEnv e l :: rest => last_choice_from (env_choice e l) rest
  | OpLUT :: rest => last_choice_from b rest
  end.
Definition last_choice (ops : list env_op) : bool := last_choice_from false ops.
