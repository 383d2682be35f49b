(** * StreamSpec: printing rows while others are still to be formatted. *)
From Verif Require Import GoBase Runewidth Width AlignSpec Table TableContract.
Local Open Scope Z_scope.

Section Types.
Context {Item Val E : Type}.

(** Each item formatted, aligned and printed before the next is looked at. *)
Inductive Streams (c : Condition) : Table Item Val E -> list Item -> Table Item Val E -> list (list str) -> Prop :=
| s_nil t : Streams c t [] t []
| s_cons t item rest t1 row line t2 lines : FormatItem c t item = (t1, Ok row) ->
    snd (AlignFormattedItem t1 row) = Ok line -> Streams c t1 rest t2 lines ->
    Streams c t (item :: rest) t2 (line :: lines).

(** Rows aligned with one table. *)
Definition Aligned (t : Table Item Val E) (rows lines : list (list str)) : Prop :=
  Forall2 (fun row line => snd (AlignFormattedItem t row) = Ok line) rows lines.

(** Every alignment is one of the three of alignment.go, or nil. *)
Definition BuiltInAll (c : Condition) (cols : list (option (Column Item Val E))) : Prop :=
  forall col al, In (Some col) cols -> colAlignment col = Some al -> exists a, al = align a c.

(** A width no greater than one known, under that name, once the row of
    index [i] is formatted. *)
Definition KnownBy (c : Condition) (t : Table Item Val E) (cols : list (option (Column Item Val E)))
    (rows : list (list str)) (i : nat) (name : str) (w : Z) : Prop :=
  w <= Width t name
  \/ exists j row w', (j <= i)%nat /\ nth_error rows j = Some row /\ SeenIn c cols row name w' /\ w <= w'.

End Types.
