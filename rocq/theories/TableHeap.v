(** * TableHeap: Columns, TableSpecs and Tables in memory.

    Table.v treats them as values.  Here a *Column is an address, a TableSpec
    holds the header of its slice Columns and a reference to its map
    ColumnByName (table.go:24-28), and a Table holds the address of a TableSpec
    and a reference to its map columnWidth (table.go:43-47), so several tables
    can share a spec and copies share what copying a Go struct shares. *)
From Verif Require Import GoBase Runewidth Width Table CondHeap.
Local Open Scope Z_scope.

Section WithTypes.
Context {Item Val E : Type}.

(** A slice header (all slices of interest start at the beginning of their array). *)
Record cslice := { aArr : nat; aLen : nat; aCap : nat }.
Record hspec := { hsMap : option nat; hsTime : str; hsCols : cslice }.
Record htable := { htSpec : nat; htWidth : option nat }.
Record world := {
  wCols : list (Column Item Val E);              (* *Column *)
  wArrs : list (list (option nat));              (* backing arrays of []*Column *)
  wMaps : list (list (str * option nat));        (* map[string]*Column, newest first *)
  wSpecs : list hspec;                           (* *TableSpec *)
  wWidths : list wmap;                           (* map[string]uint16 *)
  wTables : list htable                          (* *Table *)
}.

(** ** Reading *)
Definition resolve (w : world) (p : option nat) : option (Column Item Val E) :=
  match p with None => None | Some i => nth_error (wCols w) i end.
Definition spec_of (w : world) (s : hspec) : TableSpec Item Val E :=
  {| ColumnByName := option_map (fun m => map (fun '(k, p) => (k, resolve w p)) (nth m (wMaps w) [])) (hsMap s);
     TimeFormat := hsTime s;
     Columns := map (resolve w) (firstn (aLen (hsCols s)) (nth (aArr (hsCols s)) (wArrs w) [])) |}.
Definition widths_of (w : world) (t : htable) : option wmap :=
  option_map (fun m => nth m (wWidths w) wempty) (htWidth t).
Definition table_of (w : world) (t : htable) : option (Table Item Val E) :=
  option_map (fun s => {| tSpec := spec_of w s; columnWidth := widths_of w t |}) (nth_error (wSpecs w) (htSpec t)).

(** ** Operations *)
Inductive wop :=
| WColumn (col : Column Item Val E)             (* &Column{...} *)
| WSetColumn (p : nat) (col : Column Item Val E)(* assigning fields of a column *)
| WSpec                                         (* NewTableSpec() *)
| WZeroSpec                                     (* &TableSpec{} *)
| WCopySpec (s : nat)                           (* s2 := *s *)
| WAdd (s : nat) (p : option nat) (spare : nat) (* s.AddColumn(p) *)
| WTable (s : option nat)                       (* NewTable(s) *)
| WCopyTable (t : nat)                          (* t2 := *t *)
| WUpdate (t : nat) (l : list (str * Z))        (* t.UpdateWidth(l) *)
| WFormat (t : nat) (c : Condition) (item : Item) (* t.FormatItem(item) *)
| WLiteral (s : nat).                           (* &Table{TableSpec: s} *)

(** table.go:49-54: a new map and an empty slice literal. *)
Definition new_spec (w : world) : world :=
  {| wCols := wCols w; wArrs := wArrs w ++ [[]]; wMaps := wMaps w ++ [[]];
     wSpecs := wSpecs w ++ [{| hsMap := Some (length (wMaps w)); hsTime := [];
                               hsCols := {| aArr := length (wArrs w); aLen := 0; aCap := 0 |} |}];
     wWidths := wWidths w; wTables := wTables w |}.

(** table.go:34-37.  append writes into the array while there is room, and
    otherwise moves to a new array, with [spare] elements of room left (the
    growth is up to the Go runtime).  Then the map entry; the append has taken
    effect also when that panics. *)
Definition append_col (w : world) (si : nat) (s : hspec) (p : option nat) (spare : nat) : world :=
  let sl := hsCols s in
  let old := nth (aArr sl) (wArrs w) [] in
  let '(arrs, sl') :=
    if (aLen sl <? aCap sl)%nat
    then (update (wArrs w) (aArr sl) (update old (aLen sl) p), {| aArr := aArr sl; aLen := S (aLen sl); aCap := aCap sl |})
    else (wArrs w ++ [firstn (aLen sl) old ++ p :: repeat None spare],
          {| aArr := length (wArrs w); aLen := S (aLen sl); aCap := S (aLen sl) + spare |}) in
  {| wCols := wCols w; wArrs := arrs; wMaps := wMaps w;
     wSpecs := update (wSpecs w) si {| hsMap := hsMap s; hsTime := hsTime s; hsCols := sl' |};
     wWidths := wWidths w; wTables := wTables w |}.
Definition store_name (w : world) (s : hspec) (p : option nat) : world :=
  match resolve w p, hsMap s with
  | Some col, Some m =>
    {| wCols := wCols w; wArrs := wArrs w; wMaps := update (wMaps w) m ((colName col, p) :: nth m (wMaps w) []);
       wSpecs := wSpecs w; wWidths := wWidths w; wTables := wTables w |}
  | _, _ => w                                    (* panics *)
  end.

(** The map of a table's widths replaced by what a method left in it. *)
Definition store_widths (w : world) (t : htable) (t' : Table Item Val E) : world :=
  match htWidth t, columnWidth t' with
  | Some m, Some f =>
    {| wCols := wCols w; wArrs := wArrs w; wMaps := wMaps w; wSpecs := wSpecs w;
       wWidths := update (wWidths w) m f; wTables := wTables w |}
  | _, _ => w
  end.

(** A pointer to a column that exists, or nil. *)
Definition valid_ptr (w : world) (p : option nat) : bool :=
  match p with None => true | Some i => (i <? length (wCols w))%nat end.

(** Operations on addresses that do not exist do nothing. *)
Definition wstep (w : world) (o : wop) : world :=
  match o with
  | WColumn col => {| wCols := wCols w ++ [col]; wArrs := wArrs w; wMaps := wMaps w; wSpecs := wSpecs w;
                      wWidths := wWidths w; wTables := wTables w |}
  | WSetColumn p col => {| wCols := update (wCols w) p col; wArrs := wArrs w; wMaps := wMaps w; wSpecs := wSpecs w;
                           wWidths := wWidths w; wTables := wTables w |}
  | WSpec => new_spec w
  | WZeroSpec => {| wCols := wCols w; wArrs := wArrs w ++ [[]]; wMaps := wMaps w;
       wSpecs := wSpecs w ++ [{| hsMap := None; hsTime := []; hsCols := {| aArr := length (wArrs w); aLen := 0; aCap := 0 |} |}];
       wWidths := wWidths w; wTables := wTables w |}
  | WCopySpec si =>
    match nth_error (wSpecs w) si with
    | Some s => {| wCols := wCols w; wArrs := wArrs w; wMaps := wMaps w; wSpecs := wSpecs w ++ [s];
                   wWidths := wWidths w; wTables := wTables w |}
    | None => w
    end
  | WAdd si p spare =>
    match nth_error (wSpecs w) si with
    | Some s => if valid_ptr w p then store_name (append_col w si s p spare) s p else w
    | None => w
    end
  | WTable s =>                                  (* table.go:56-64 *)
    let '(w1, si) := match s with None => (new_spec w, length (wSpecs w)) | Some si => (w, si) end in
    if (si <? length (wSpecs w1))%nat then
      {| wCols := wCols w1; wArrs := wArrs w1; wMaps := wMaps w1; wSpecs := wSpecs w1; wWidths := wWidths w1 ++ [wempty];
         wTables := wTables w1 ++ [{| htSpec := si; htWidth := Some (length (wWidths w1)) |}] |}
    else w
  | WCopyTable ti =>
    match nth_error (wTables w) ti with
    | Some t => {| wCols := wCols w; wArrs := wArrs w; wMaps := wMaps w; wSpecs := wSpecs w;
                   wWidths := wWidths w; wTables := wTables w ++ [t] |}
    | None => w
    end
  | WUpdate ti l =>                              (* table.go:66-72: writes only the width map *)
    match nth_error (wTables w) ti with
    | Some t => match table_of w t with Some t' => store_widths w t (fst (UpdateWidth (E := E) t' l)) | None => w end
    | None => w
    end
  | WFormat ti c item =>                         (* table.go:95-118: writes only the width map *)
    match nth_error (wTables w) ti with
    | Some t => match table_of w t with Some t' => store_widths w t (fst (FormatItem c t' item)) | None => w end
    | None => w
    end
  | WLiteral si =>                               (* table.go:43-47: columnWidth is left nil *)
    if (si <? length (wSpecs w))%nat then
      {| wCols := wCols w; wArrs := wArrs w; wMaps := wMaps w; wSpecs := wSpecs w; wWidths := wWidths w;
         wTables := wTables w ++ [{| htSpec := si; htWidth := None |}] |}
    else w
  end.
Definition world0 : world := {| wCols := []; wArrs := []; wMaps := []; wSpecs := []; wWidths := []; wTables := [] |}.
Definition wrun (ops : list wop) : world := fold_left wstep ops world0.
End WithTypes.
Arguments world : clear implicits.
Arguments wop : clear implicits.
