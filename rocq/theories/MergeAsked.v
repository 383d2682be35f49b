(** * MergeAsked: which items merging asks for, when and how often. *)
From Verif Require Import GoBase Runewidth Width Table Merge TableContract MergeSpec TableRace MergeRace MergeRaceSpec.
Local Open Scope Z_scope.

Section Types.
Context {Item Val E : Type}.
Notation Column := (Column Item Val E).

(** A list (table_iface.go:3-6) whose [Get] notes its argument before it
    answers: it compares it with the entry [tag] of the table, so the calls are
    seen in the list of comparisons. *)
Definition noting (tag : str) (plain : FormattedItemList E) : SItemList E :=
  {| siLen := fiLen plain; siGet := fun i => SCheck tag i (SRet (fiGet plain i)) |}.
Definition asked (tag : str) (is : list nat) : list (str * Z) := map (fun i => (tag, Z.of_nat i)) is.

(** Group [k] of a layout, from the first line to the last. *)
Definition group {A} (lines : list (list A)) (k : nat) : list A :=
  flat_map (fun line => match nth_error line k with Some x => [x] | None => [] end) lines.
(** One try of the compact search: every group, once for each column. *)
Definition pass (ncols g : nat) (lines : list (list nat)) : list nat :=
  flat_map (fun k => concat (repeat (group lines k) ncols)) (seq 0 g).

(** The indices of the items asked for by the search that starts from [g]
    groups and ends with [g']; a number of groups is tried unless vertically its
    last group would be empty. *)
Inductive Tries c (cols : list Column) (sep : str) (maxWidth : Z) m (rows : list (list str)) : nat -> list nat -> nat -> Prop :=
| tr_useless g : ~ Worth m rows (S g) -> Tries c cols sep maxWidth m rows g [] g
| tr_last g lines : Worth m rows (S g) -> ~ Acceptable c cols sep maxWidth m rows (S g) ->
    Layout m (S g) (seq 0 (length rows)) lines -> Tries c cols sep maxWidth m rows g (pass (length cols) (S g) lines) g
| tr_next g lines more g' : Acceptable c cols sep maxWidth m rows (S g) -> Layout m (S g) (seq 0 (length rows)) lines ->
    Tries c cols sep maxWidth m rows (S g) more g' ->
    Tries c cols sep maxWidth m rows g (pass (length cols) (S g) lines ++ more) g'.
End Types.

(** ** Items that cannot be had *)
Section Failing.
Context {E : Type}.
(** Item [i] is answered with at least [ncols] cells. *)
Definition Had (plain : FormattedItemList E) (ncols i : nat) : Prop :=
  exists row, fiGet plain (Z.of_nat i) = Ok row /\ (ncols <= length row)%nat.
(** [j] is the first of the items in this order for which Get panics. *)
Definition FirstPanic (plain : FormattedItemList E) (ncols : nat) (order : list nat) (pre : list nat) (j : nat) (e : panic_reason) : Prop :=
  exists post, order = pre ++ j :: post /\ Forall (Had plain ncols) pre /\ fiGet plain (Z.of_nat j) = Panic e.
End Failing.
