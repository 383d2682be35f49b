(** * TableContract: what the table operations should do. *)
From Coq Require Import Permutation.
From Verif Require Import GoBase Runewidth Width AlignSpec Table.
Local Open Scope Z_scope.

(** [m] is the greatest element of the set. *)
Definition IsMax (S : Z -> Prop) (m : Z) : Prop := S m /\ forall x, S x -> x <= m.

(** Calls made one after the other. *)
Definition AllOk {E A B} (f : A -> outcome E B) (l : list A) (vs : list B) : Prop :=
  Forall2 (fun a v => f a = Ok v) l vs.

(** [f] succeeds on [pre] (with values [vs]) and is the first to fail on the
    element after it; the failure of the whole is that failure. *)
Definition FirstFailure {E A B C} (f : A -> outcome E B) (l pre : list A) (vs : list B)
    (r : outcome E C) : Prop :=
  exists a post, l = pre ++ a :: post /\ AllOk f pre vs
    /\ ((exists e, f a = Err e /\ r = Err e) \/ (exists p, f a = Panic p /\ r = Panic p)).

(** Texts with [sep] between them. *)
Fixpoint join (sep : str) (l : list str) : str :=
  match l with
  | [] => []
  | [x] => x
  | x :: rest => x ++ sep ++ join sep rest
  end.

Section Types.
Context {Item Val E : Type}.

(** The text of one column of an item: the getter's value, formatted by the
    getter.  A nil column or getter is a nil dereference. *)
Definition cell (item : Item) (col : option (Column Item Val E)) : outcome E str :=
  match col with
  | Some cl =>
    match colGetter cl with
    | Some g =>
      match getValue g item with
      | Ok v => getFormat g item v
      | Err e => Err e
      | Panic p => Panic p
      end
    | None => Panic NilDereference
    end
  | None => Panic NilDereference
  end.

(** The same for FormatItemBasic. *)
Definition basic_cell (item : Item) (col : option (Column Item Val E)) : outcome E str :=
  match col with
  | Some cl =>
    match colGetter cl with
    | Some g => getValueString g (colName cl) item
    | None => Panic NilDereference
    end
  | None => Panic NilDereference
  end.

(** Widths seen for a name in a list of formatted columns. *)
Definition SeenIn (c : Condition) (cols : list (option (Column Item Val E))) (vs : list str)
    (name : str) (w : Z) : Prop :=
  exists i col v, nth_error cols i = Some (Some col) /\ nth_error vs i = Some v
    /\ colName col = name /\ w = vwidth c v.

(** ** Histories of a table *)
Inductive table_op :=
| OpUpdate (widths : list (str * Z))        (* UpdateWidth *)
| OpFormat (c : Condition) (item : Item)    (* FormatItem, whatever its outcome *)
| OpAdd (col : option (Column Item Val E)). (* AddColumn, whatever its outcome *)

Definition table_step (t : Table Item Val E) (o : table_op) : Table Item Val E :=
  match o with
  | OpUpdate l => fst (UpdateWidth t l)
  | OpFormat c item => fst (FormatItem c t item)
  | OpAdd col => {| tSpec := fst (AddColumn (tSpec t) col); columnWidth := columnWidth t |}
  end.
Definition table_run (t : Table Item Val E) (ops : list table_op) : Table Item Val E :=
  fold_left table_step ops t.

(** The columns added by a history. *)
Definition added (ops : list table_op) : list (option (Column Item Val E)) :=
  flat_map (fun o => match o with OpAdd col => [col] | _ => [] end) ops.

(** Widths a history has shown for a name: those passed to UpdateWidth, and
    those of the values FormatItem formatted before it stopped. *)
Inductive Shown (cols0 : list (option (Column Item Val E))) (ops : list table_op) (name : str) : Z -> Prop :=
| shown_zero : Shown cols0 ops name 0
| shown_update before l after w : ops = before ++ OpUpdate l :: after -> In (name, w) l ->
    Shown cols0 ops name w
| shown_format before c item after pre col post vs v :
    ops = before ++ OpFormat c item :: after ->
    cols0 ++ added before = pre ++ Some col :: post -> AllOk (cell item) pre vs ->
    cell item (Some col) = Ok v -> colName col = name -> Shown cols0 ops name (vwidth c v).

(** Widths are uint16. *)
Definition uint16_op (o : table_op) : Prop :=
  match o with OpUpdate l => Forall (fun e => 0 <= snd e < 65536) l | _ => True end.

(** ** Formatting and aligning a list of items *)
Inductive Formats (c : Condition) : Table Item Val E -> list Item -> Table Item Val E -> list (list str) -> Prop :=
| f_nil t : Formats c t [] t []
| f_cons t item rest t1 row t2 rows : FormatItem c t item = (t1, Ok row) ->
    Formats c t1 rest t2 rows -> Formats c t (item :: rest) t2 (row :: rows).

(** Columns added one after the other, whatever the outcomes. *)
Definition add_all (s : TableSpec Item Val E) (cols : list (option (Column Item Val E))) : TableSpec Item Val E :=
  fold_left (fun s col => fst (AddColumn s col)) cols s.

End Types.
Arguments table_op : clear implicits.
