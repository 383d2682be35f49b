(** * TemplateSpec: output as a form that is filled in with the cells. *)
From Verif Require Import GoBase Runewidth Width Table Merge MergeSpec.
Local Open Scope Z_scope.

(** A piece of a form: text, or the place of cell [j] of item [i]. *)
Inductive piece := Text (s : str) | Cell (i : Z) (j : nat).

Section Spec.
Context {Item Val E : Type}.

Definition filled (items : FormattedItemList E) (p : piece) : str :=
  match p with
  | Text s => s
  | Cell i j => match fiGet items i with Ok row => nth j row [] | _ => [] end
  end.
Definition fill (items : FormattedItemList E) (form : list piece) : str := concat (map (filled items) form).

(** Two lists that differ in the text of their cells only: as many items, and
    each gives the same error or panic, or cells of the same widths. *)
Definition SameWidths (c : Condition) (items items' : FormattedItemList E) : Prop :=
  fiLen items' = fiLen items /\
  forall i, match fiGet items i, fiGet items' i with
            | Ok row, Ok row' => map (vwidth c) row' = map (vwidth c) row
            | Err e, Err e' => e' = e
            | Panic p, Panic p' => p' = p
            | _, _ => False
            end.

(** An alignment that only puts text around a cell, chosen by its width; the
    text satisfies [Q]. *)
Definition Pads (Q : str -> Prop) (c : Condition) (f : str -> Z -> str) : Prop :=
  exists l r : Z -> Z -> str, (forall x w, Q (l x w) /\ Q (r x w)) /\ forall s w, f s w = l (vwidth c s) w ++ s ++ r (vwidth c s) w.
Definition PadsColumns (Q : str -> Prop) (c : Condition) (t : Table Item Val E) : Prop :=
  Forall (fun mc => match mc with Some col => Pads Q c (alignment_of c col) | None => True end) (Columns (tSpec t)).
(** The same for the columns of a row that are aligned at all. *)
Definition PadsAligned (Q : str -> Prop) (c : Condition) (cols : list (option (Column Item Val E))) : Prop :=
  Forall (fun mc => match mc with Some col => match colAlignment col with Some al => Pads Q c al | None => True end | None => True end) cols.
(** A row with text put around its cells. *)
Fixpoint around (pads : list (str * str)) (row : list str) : list str :=
  match pads, row with
  | (l, r) :: pads, s :: row => (l ++ s ++ r) :: around pads row
  | _, row => row
  end.
Definition Blank (s : str) : Prop := exists k, s = repeat space k.

(** What a form may contain: padding, separators, line feeds, and cells there
    are. *)
Definition Proper (Q : str -> Prop) (sep : str) (items : FormattedItemList E) (p : piece) : Prop :=
  match p with
  | Text s => Q s \/ s = [space] \/ s = sep \/ s = [x0a]
  | Cell i j => 0 <= i < fiLen items /\ exists row, fiGet items i = Ok row /\ (j < length row)%nat
  end.
End Spec.
