(** * PickSpec: tables whose columns are put in another order, renamed or left out. *)
From Verif Require Import GoBase Runewidth Width Table TableContract Merge MergeSpec.
Local Open Scope Z_scope.

(** The elements at the places [p]. *)
Definition pick {A} (p : list nat) (l : list A) : list A :=
  flat_map (fun i => match nth_error l i with Some a => [a] | None => [] end) p.

Section Types.
Context {Item Val E : Type}.

(** The columns [cols'] of [t'] are those of [t] at the places [p], none taken
    twice: alignments and recorded widths are the same, names may be others. *)
Record Picked (p : list nat) (t : Table Item Val E) (cols : list (Column Item Val E))
    (t' : Table Item Val E) (cols' : list (Column Item Val E)) : Prop := {
  pk_once : NoDup p;
  pk_columns : Forall2 (fun i col' => exists col, nth_error cols i = Some col
    /\ colAlignment col' = colAlignment col /\ Width t' (colName col') = Width t (colName col)) p cols'
}.

(** They also get the same values, and no two have the same name. *)
Definition SameGetters (p : list nat) (cols cols' : list (Column Item Val E)) : Prop :=
  NoDup (map colName cols) /\ NoDup (map colName cols')
  /\ Forall2 (fun i col' => exists col, nth_error cols i = Some col /\ colGetter col' = colGetter col) p cols'.
End Types.
