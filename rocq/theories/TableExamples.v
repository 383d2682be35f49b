(** * TableExamples: a concrete table for the examples. *)
From Coq Require Import Strings.String.
From Verif Require Import GoBase Runewidth ConditionSpec Width AlignSpec Table TableContract.
Local Open Scope Z_scope.

(** Items are lists of fields; a getter reads one field. *)
Definition field (i : nat) : Getter (list str) str str :=
  {| getValue := fun item => match nth_error item i with Some s => Ok s | None => Err (lit "missing"%string) end;
     getValueString := fun name item => match nth_error item i with Some s => Ok s | None => Err name end;
     getFormat := fun _ v => Ok v |}.

Definition exC : Condition := plainCondition false true.

Definition exColumn (i : nat) (a : alignment) (name title short : string) : Column (list str) str str :=
  {| colGetter := Some (field i); colAlignment := Some (align a exC);
     colName := lit name; colTitle := lit title; colShortTitle := lit short |}.

Definition exName := exColumn 0 ALeft "name" "Name" "N".
Definition exSize := exColumn 1 ARight "size" "Size" "S".
Definition exCols : list (option (Column (list str) str str)) := [Some exName; Some exSize].
Definition exSpec : TableSpec (list str) str str := add_all NewTableSpec exCols.
Definition exTable : Table (list str) str str := NewTable (Some exSpec).

Definition exItem1 : list str := [lit "go.mod"%string; lit "12"%string].
Definition exItem2 : list str := [lit "x"%string; lit "65536"%string].
Definition exBad : list str := [lit "a very long name"%string].
