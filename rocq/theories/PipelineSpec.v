(** * PipelineSpec: notions for whole tables. *)
From Verif Require Import GoBase Utf8 Runewidth ConditionSpec TextSpec AlignSpec Table MergeSpec.
Local Open Scope Z_scope.

(** What precedes cell [i] in a line of cells with [sep] after each. *)
Definition before (sep : str) (cells : list str) (i : nat) : str :=
  concat (map (fun x => x ++ sep) (firstn i cells)).

Section Types.
Context {Item Val E : Type}.

(** Every column is aligned by a function of alignment.go. *)
Definition AllBuiltIn c (cols : list (Column Item Val E)) : Prop :=
  Forall (fun col => exists a, colAlignment col = Some (align a c)) cols.

(** Titles that measure on their own. *)
Definition PlainTitles c (cols : list (Column Item Val E)) : Prop :=
  forall col s, In col cols -> s = colTitle col \/ s = colShortTitle col ->
  ~ In 0x9B (runes s) /\ Isolated s /\ ((exists st, Behaves c false st) \/ ValidUTF8 s).

End Types.
