(** * EndsSpec: how calls of a table's methods can end. *)
From Verif Require Import GoBase Runewidth Width Table Merge TableContract MergeSpec AlikeSpec.
Local Open Scope Z_scope.

Section Types.
Context {Item Val E : Type}.

Definition of_outcome {E A} (o : outcome E A) : option panic_reason := match o with Panic p => Some p | _ => None end.
(** The panic a call ended in, if any. *)
Definition panicked (a : answer E) : option panic_reason :=
  match a with
  | ANothing r => of_outcome r
  | ANumber r => of_outcome r
  | AText r => of_outcome r
  | ARow r => of_outcome r
  | AAligned _ r => of_outcome r
  | APrinted r => match stop r with Panicked p => Some p | _ => None end
  end.

(** The same table with an empty map of widths. *)
Definition with_map (t : Table Item Val E) : Table Item Val E := {| tSpec := tSpec t; columnWidth := Some wempty |}.

(** Why a merge may panic: one item is reckoned to take no width, a write fails,
    the list panics, or it hands out too few strings. *)
Definition MergeFault (t : Table Item Val E) cols (writeOK : nat -> bool) (items : FormattedItemList E) (sep : str) (p : panic_reason) : Prop :=
  (p = DivideByZero /\ reckoned t cols sep mod 65536 = 0)
  \/ (p = WriteFailed /\ exists k, writeOK k = false)
  \/ (exists i, 0 <= i < fiLen items /\ fiGet items i = Panic p)
  \/ (p = IndexOutOfRange /\ exists i row, 0 <= i < fiLen items /\ fiGet items i = Ok row /\ (length row < length cols)%nat).

(** Why a call may panic: it met a nil column, or a getter of the table
    panicked or was nil, or a merge fault. *)
Definition CallFault (t : Table Item Val E) (x : call Item E) (p : panic_reason) : Prop :=
  match x with
  | CUpdate _ | CWidth _ | CAlign _ | CHeader _ _ | CTotal _ => False
  | CFormat _ item => exists col, In (Some col) (Columns (tSpec t)) /\ cell item (Some col) = Panic p
  | CBasic item _ => exists col, In (Some col) (Columns (tSpec t)) /\ basic_cell item (Some col) = Panic p
  | CMerge _ _ _ ok items _ sep _ => exists cols, Columns (tSpec t) = map Some cols /\ MergeFault t cols ok items sep p
  end.
(** A list that gives a length and hands out rows or panics. *)
Definition ProperCall (x : call Item E) : Prop :=
  match x with CMerge _ _ _ _ items _ _ _ => 0 <= fiLen items /\ forall i e, fiGet items i <> Err e | _ => True end.
End Types.
