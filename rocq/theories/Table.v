(** * Table: model of alignment.go, table_iface.go and table.go.

    Every function that measures text depends on the process-wide display
    condition [runewidth.DefaultCondition]; it is the parameter [c].  Width
    measurements use the uncached [vwidth]; CacheProofs shows the cached
    [visualWidth] always returns the same value. *)
From Verif Require Import GoBase Utf8 Runewidth Width.
Local Open Scope Z_scope.

(** ** alignment.go *)

(** alignment.go:9-15. *)
Definition AlignmentLeft (c : Condition) (s : str) (width : Z) : str :=
  let strWidth := vwidth c s in
  if strWidth >=? width then s
  else s ++ spaces (u16 (width - strWidth)).

(** alignment.go:17-23. *)
Definition AlignmentRight (c : Condition) (s : str) (width : Z) : str :=
  let strWidth := vwidth c s in
  if strWidth >=? width then s
  else spaces (u16 (width - strWidth)) ++ s.

(** alignment.go:25-34. *)
Definition AlignmentCenter (c : Condition) (s : str) (width : Z) : str :=
  let strWidth := vwidth c s in
  if strWidth >=? width then s
  else
    let n := u16 (width - strWidth) in
    let left := Z.quot (n - 1) 2 + 1 in
    let right := n - left in
    spaces left ++ s ++ spaces right.

(** ** Maps *)

(** [map[string]uint16] as the total function giving the value read for each
    key (0 when absent; /repo never distinguishes absent from 0).  [None] is
    the nil map, which reads as 0 and panics when written. *)
Definition wmap := str -> Z.
Definition wempty : wmap := fun _ => 0.
Definition wset (m : wmap) (k : str) (v : Z) : wmap :=
  fun x => if str_eqb x k then v else m x.
Definition wread (m : option wmap) (k : str) : Z :=
  match m with Some f => f k | None => 0 end.

Section WithTypes.
(** [Item] is the dynamic type of the [any] items, [Val] that of the values
    getters return, [E] that of the [error]s they return. *)
Context {Item Val E : Type}.

(** table_iface.go:8-12.  A getter's methods are deterministic functions
    that return, return an error, or panic. *)
Record Getter := {
  getValue : Item -> outcome E Val;
  getValueString : str -> Item -> outcome E str;
  getFormat : Item -> Val -> outcome E str
}.

(** table.go:14-22.  [None] for a nil Getter / nil Alignment.  The field
    [Type] (:15) is never read by /repo (only in the commented-out lines
    103-105) and is left out. *)
Record Column := {
  colGetter : option Getter;
  colAlignment : option (str -> Z -> str);
  colName : str;
  colTitle : str;
  colShortTitle : str
}.

(** table.go:24-28.  A [*Column] is [option Column] (nil = [None]);
    pointers are modelled in TableHeap.v.  [ColumnByName] is [None] for a nil map; entries newest first. *)
Record TableSpec := {
  ColumnByName : option (list (str * option Column));
  TimeFormat : str;
  Columns : list (option Column)
}.

(** [t.ColumnByName[name]] (table.go:31); an absent key reads as nil. *)
Fixpoint col_lookup (m : list (str * option Column)) (k : str) : option Column :=
  match m with
  | [] => None
  | (k', v) :: rest => if str_eqb k k' then v else col_lookup rest k
  end.

(** table.go:30-32. *)
Definition HasColumn (t : TableSpec) (name : str) : bool :=
  match ColumnByName t with
  | None => false
  | Some m => match col_lookup m name with Some _ => true | None => false end
  end.

(** table.go:34-37: the state after the call, and how it ended.  Line 35
    takes effect before line 36 can panic. *)
Definition AddColumn (t : TableSpec) (col : option Column) : TableSpec * outcome E unit :=
  let t1 := {| ColumnByName := ColumnByName t; TimeFormat := TimeFormat t;
               Columns := Columns t ++ [col] |} in
  match col with
  | None => (t1, Panic NilDereference)
  | Some cl =>
    match ColumnByName t with
    | None => (t1, Panic NilMapWrite)
    | Some m =>
      ({| ColumnByName := Some ((colName cl, col) :: m); TimeFormat := TimeFormat t;
          Columns := Columns t ++ [col] |}, Ok tt)
    end
  end.

(** table.go:39-41. *)
Definition ColumnCount (t : TableSpec) : Z := slen (Columns t).

(** table.go:43-47. *)
Record Table := {
  tSpec : TableSpec;
  columnWidth : option wmap
}.

(** table.go:49-54. *)
Definition NewTableSpec : TableSpec :=
  {| ColumnByName := Some []; TimeFormat := []; Columns := [] |}.

(** table.go:56-64. *)
Definition NewTable (spec : option TableSpec) : Table :=
  {| tSpec := match spec with None => NewTableSpec | Some sp => sp end;
     columnWidth := Some wempty |}.

(** A table whose width map now holds [m] (table.go:69 and :114). *)
Definition set_width (t : Table) (m : wmap) : Table :=
  {| tSpec := tSpec t; columnWidth := Some m |}.

(** [if width > m[k] { m[k] = width }], table.go:68-70 and :113-115. *)
Definition raise_width (t : Table) (k : str) (width : Z) : Table * outcome E unit :=
  if width >? wread (columnWidth t) k then
    match columnWidth t with
    | Some m => (set_width t (wset m k width), Ok tt)
    | None => (t, Panic NilMapWrite)
    end
  else (t, Ok tt).

(** table.go:66-72.  [widthByColumn] lists the entries of the argument map
    in the (unspecified) order the [range] visits them. *)
Fixpoint UpdateWidth (t : Table) (widthByColumn : list (str * Z)) : Table * outcome E unit :=
  match widthByColumn with
  | [] => (t, Ok tt)
  | (k, width) :: rest =>
    match raise_width t k width with
    | (t', Ok _) => UpdateWidth t' rest
    | r => r
    end
  end.

(** table.go:74-76. *)
Definition Width (t : Table) (name : str) : Z := wread (columnWidth t) name.

(** table.go:80-93: the loop with its variables [index] and [str]. *)
Fixpoint formatItemBasic_loop (cols : list (option Column)) (item : Item) (sep : str)
    (index : Z) (acc : str) : outcome E str :=
  match cols with
  | [] => Ok acc
  | None :: _ => Panic NilDereference
  | Some col :: rest =>
    match colGetter col with
    | None => Panic NilDereference
    | Some g =>
      obind (getValueString g (colName col) item) (fun colStr =>
        let acc1 := if index >? 0 then acc ++ sep else acc in
        formatItemBasic_loop rest item sep (index + 1) (acc1 ++ colStr))
    end
  end.
Definition FormatItemBasic (t : Table) (item : Item) (sep : str) : outcome E str :=
  formatItemBasic_loop (Columns (tSpec t)) item sep 0 [].

(** table.go:95-118: the loop over the columns not yet processed; [done] are
    the entries of [formatted] already filled in.  Returns the table (whose
    widths may have grown even when the call fails) and the result. *)
Fixpoint formatItem_loop (c : Condition) (t : Table) (cols : list (option Column))
    (item : Item) (done : list str) : Table * outcome E (list str) :=
  match cols with
  | [] => (t, Ok done)
  | None :: _ => (t, Panic NilDereference)
  | Some col :: rest =>
    match colGetter col with
    | None => (t, Panic NilDereference)
    | Some g =>
      match getValue g item with
      | Err e => (t, Err e)
      | Panic p => (t, Panic p)
      | Ok value =>
        match getFormat g item value with
        | Err e => (t, Err e)
        | Panic p => (t, Panic p)
        | Ok valueFormatted =>
          match raise_width t (colName col) (vwidth c valueFormatted) with
          | (t', Ok _) => formatItem_loop c t' rest item (done ++ [valueFormatted])
          | (t', Err e) => (t', Err e)
          | (t', Panic p) => (t', Panic p)
          end
        end
      end
    end
  end.
Definition FormatItem (c : Condition) (t : Table) (item : Item) : Table * outcome E (list str) :=
  formatItem_loop c t (Columns (tSpec t)) item [].

(** table.go:124-132: [todo] are the slice elements not yet visited, [done]
    those already overwritten.  The first component is the final content of
    the caller's slice (the call works in place). *)
Fixpoint alignFormatted_loop (t : Table) (cols : list (option Column))
    (done todo : list str) : list str * outcome (Z * Z) (list str) :=
  match cols, todo with
  | [], _ => (done ++ todo, Ok (done ++ todo))
  | None :: _, _ => (done ++ todo, Panic NilDereference)
  | Some col :: rest, s :: todo' =>
    match colAlignment col with
    | None => alignFormatted_loop t rest (done ++ [s]) todo'
    | Some al => alignFormatted_loop t rest (done ++ [al s (Width t (colName col))]) todo'
    end
  | Some _ :: _, [] => (done ++ todo, Panic IndexOutOfRange)
  end.

(** table.go:120-134; the error carries the two numbers of its message. *)
Definition AlignFormattedItem (t : Table) (formatted : list str)
  : list str * outcome (Z * Z) (list str) :=
  if negb (slen formatted =? ColumnCount (tSpec t))
  then (formatted, Err (slen formatted, ColumnCount (tSpec t)))
  else alignFormatted_loop t (Columns (tSpec t)) [] formatted.

(** table.go:136-150. *)
Definition padColumnHeader (c : Condition) (t : Table) (col : Column) : str :=
  let width := Width t (colName col) in
  let value := colTitle col in
  if width =? 0 then value
  else
    let value :=
      if slen value >? width then
        if slen (colShortTitle col) >? width then [] else colShortTitle col
      else value in
    AlignmentCenter c value width.

(** table.go:152-159 (newline is byte 0x0A). *)
Fixpoint formatHeader_loop (c : Condition) (t : Table) (cols : list (option Column))
    (sep acc : str) : outcome E str :=
  match cols with
  | [] => Ok (acc ++ [x0a])
  | None :: _ => Panic NilDereference
  | Some col :: rest =>
    formatHeader_loop c t rest sep (acc ++ padColumnHeader c t col ++ sep)
  end.
Definition FormatHeader (c : Condition) (t : Table) (sep : str) : outcome E str :=
  formatHeader_loop c t (Columns (tSpec t)) sep [].

(** table.go:161-167, all in uint16 arithmetic. *)
Fixpoint tableWidth_loop (t : Table) (cols : list (option Column)) (width : Z) : outcome E Z :=
  match cols with
  | [] => Ok width
  | None :: _ => Panic NilDereference
  | Some col :: rest => tableWidth_loop t rest (u16 (width + Width t (colName col)))
  end.
Definition TableWidth (t : Table) (margin : Z) : outcome E Z :=
  tableWidth_loop t (Columns (tSpec t))
    (u16 (u16 (u16 (ColumnCount (tSpec t)) - 1) * margin)).

End WithTypes.

Arguments Getter : clear implicits.
Arguments Column : clear implicits.
Arguments TableSpec : clear implicits.
Arguments Table : clear implicits.
