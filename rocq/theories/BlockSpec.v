(** * BlockSpec: merged output in terms of AlignFormattedItem. *)
From Verif Require Import GoBase Runewidth Width Table TableContract Merge MergeSpec.
Local Open Scope Z_scope.

Section Types.
Context {Item Val E : Type}.
Notation Table := (Table Item Val E).
Notation Column := (Column Item Val E).

(** What AlignFormattedItem returns for a row, joined by spaces. *)
Definition aligned_text (t : Table) (row : list str) : str :=
  match snd (AlignFormattedItem t row) with Ok cells => TableContract.join [space] cells | _ => [] end.

(** A line of items, the [k]-th aligned by table [ts k]; a line of fewer than
    [g] items ends in a separator. *)
Fixpoint texts_from (ts : nat -> Table) (k : nat) (line : list (list str)) : list str :=
  match line with
  | [] => []
  | row :: line => aligned_text (ts k) row :: texts_from ts (S k) line
  end.
Definition aligned_line (ts : nat -> Table) (sep : str) (g : nat) (line : list (list str)) : str :=
  TableContract.join sep (texts_from ts 0 line ++ if (length line <? g)%nat then [[]] else []) ++ [x0a].

(** A new table with the same columns, given the widths [ws]. *)
Definition with_widths (t : Table) (cols : list Column) (ws : list Z) : Table :=
  fst (UpdateWidth (E := E) (NewTable (Some (tSpec t))) (combine (map colName cols) ws)).

(** A string for every column in every item, no more; an alignment for every
    column. *)
Definition ExactRows (cols : list Column) (rows : list (list str)) : Prop :=
  Forall (fun row => length row = length cols) rows.
Definition AllAligned (cols : list Column) : Prop := forall col, In col cols -> colAlignment col <> None.
End Types.
