(** * AlikeSpec: tables that cannot be told apart. *)
From Verif Require Import GoBase Runewidth Width Table Merge TableContract MergeSpec.
Local Open Scope Z_scope.

Section Types.
Context {Item Val E : Type}.

(** Calls of the methods of a table; AddColumn is not among them. *)
Inductive call :=
| CUpdate (widths : list (str * Z))
| CWidth (name : str)
| CFormat (c : Condition) (item : Item)
| CBasic (item : Item) (sep : str)
| CAlign (formatted : list str)
| CHeader (c : Condition) (sep : str)
| CTotal (margin : Z)
| CMerge (m : mode) (fuel : nat) (c : Condition) (writeOK : nat -> bool) (items : FormattedItemList E)
    (maxWidth : Z) (sep : str) (compact : bool).

(** What the caller gets. *)
Inductive answer :=
| ANothing (r : outcome E unit)
| ANumber (r : outcome E Z)
| AText (r : outcome E str)
| ARow (r : outcome E (list str))
| AAligned (slice : list str) (r : outcome (Z * Z) (list str))
| APrinted (r : run E).

Definition perform (t : Table Item Val E) (x : call) : Table Item Val E * answer :=
  match x with
  | CUpdate l => let (t', r) := UpdateWidth t l in (t', ANothing r)
  | CWidth name => (t, ANumber (Ok (Width t name)))
  | CFormat c item => let (t', r) := FormatItem c t item in (t', ARow r)
  | CBasic item sep => (t, AText (FormatItemBasic t item sep))
  | CAlign formatted => let (slice, r) := AlignFormattedItem t formatted in (t, AAligned slice r)
  | CHeader c sep => (t, AText (FormatHeader c t sep))
  | CTotal margin => (t, ANumber (TableWidth t margin))
  | CMerge m fuel c writeOK items maxWidth sep compact =>
    (t, APrinted (merge m fuel c t writeOK items maxWidth sep compact))
  end.
Fixpoint answers (t : Table Item Val E) (xs : list call) : list answer :=
  match xs with
  | [] => []
  | x :: xs => let (t', a) := perform t x in a :: answers t' xs
  end.

(** Widths are only asked for by the names of columns. *)
Definition AsksColumns (cols : list (option (Column Item Val E))) (x : call) : Prop :=
  match x with CWidth name => exists col, In (Some col) cols /\ colName col = name | _ => True end.

(** The same widths for all columns, and a map in both or none. *)
Definition Alike (t t' : Table Item Val E) : Prop :=
  (columnWidth t = None <-> columnWidth t' = None)
  /\ forall col, In (Some col) (Columns (tSpec t)) -> Width t (colName col) = Width t' (colName col).

(** The widths of a table as an argument for UpdateWidth: an entry for each column. *)
Definition widths_of (t : Table Item Val E) : list (str * Z) :=
  flat_map (fun o => match o with Some col => [(colName col, Width t (colName col))] | None => [] end)
    (Columns (tSpec t)).

(** The widths of several tables brought together in one. *)
Definition gather (t : Table Item Val E) (ts : list (Table Item Val E)) : Table Item Val E :=
  fold_left (fun t t' => fst (UpdateWidth (E := E) t (widths_of t'))) ts t.

Definition no_add (o : table_op Item Val E) : Prop := match o with OpAdd _ => False | _ => True end.
End Types.
Arguments call : clear implicits.
Arguments answer : clear implicits.
