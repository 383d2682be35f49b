(** * PropTable: properties of tables (C23 to C31). *)
From Coq Require Import Permutation Strings.String.
From Verif Require Import GoBase Utf8 Runewidth ConditionSpec Width TextSpec AlignSpec Table
  TableContract TableOpsProofs TableExamples TableTheory RegistryProofs.
Local Open Scope Z_scope.

(** C23. *)
Theorem C23_running_maximum : forall (Item Val E : Type) (spec : option (TableSpec Item Val E)) ops,
  Forall uint16_op ops -> forall name,
  IsMax (Shown (match spec with None => [] | Some s => Columns s end) ops name)
        (Width (table_run (NewTable spec) ops) name).
Proof. exact @history_max. Qed.
Print Assumptions C23_running_maximum.

Theorem C23_never_decreases : forall (Item Val E : Type) (spec : option (TableSpec Item Val E)) ops ops' name,
  Forall uint16_op (ops ++ ops') ->
  Width (table_run (NewTable spec) ops) name <= Width (table_run (NewTable spec) (ops ++ ops')) name.
Proof. exact @history_mono. Qed.
Print Assumptions C23_never_decreases.

(** The third item fails at its second column; its first still counts. *)
Example C23_example :
  let t := table_run exTable [OpFormat exC exItem1; OpUpdate [(lit "size"%string, 3)]; OpFormat exC exBad] in
  Width t (lit "name"%string) = 16 /\ Width t (lit "size"%string) = 3.
Proof. split; vm_compute; reflexivity. Qed.

(** C24. *)
Theorem C24_order_irrelevant : forall (Item Val E : Type) (t : Table Item Val E) l l',
  columnWidth t <> None -> Permutation l l' ->
  forall name, Width (fst (UpdateWidth (E := E) t l)) name = Width (fst (UpdateWidth (E := E) t l')) name.
Proof. exact @update_order. Qed.
Print Assumptions C24_order_irrelevant.

Theorem C24_maximum : forall (Item Val E : Type) (t : Table Item Val E) l,
  columnWidth t <> None -> NoDup (map fst l) ->
  (forall k w, In (k, w) l -> Width (fst (UpdateWidth (E := E) t l)) k = Z.max (Width t k) w)
  /\ (forall k, ~ In k (map fst l) -> Width (fst (UpdateWidth (E := E) t l)) k = Width t k).
Proof. exact @update_map. Qed.
Print Assumptions C24_maximum.

(** A zero Table has a nil map: UpdateWidth panics exactly on a non-zero width. *)
Theorem C24_nil_map : forall (Item Val E : Type) (t : Table Item Val E) l, columnWidth t = None ->
  UpdateWidth t l = (t, if existsb (fun e => snd e >? 0) l then Panic NilMapWrite else Ok tt : outcome E unit).
Proof. exact @update_nil. Qed.
Print Assumptions C24_nil_map.

Example C24_example :
  let l := [(lit "a"%string, 7); (lit "name"%string, 2)] in
  NoDup (map fst l) /\ Width (fst (UpdateWidth (E := str) exTable l)) (lit "a"%string) = 7.
Proof. exact update_example. Qed.

(** C25. *)
Theorem C25_success : forall (Item Val E : Type) c (t : Table Item Val E) item vs,
  columnWidth t <> None ->
  (exists t', FormatItem c t item = (t', Ok vs)) <-> AllOk (cell item) (Columns (tSpec t)) vs.
Proof. exact @FormatItem_ok. Qed.
Print Assumptions C25_success.

Theorem C25_failure : forall (Item Val E : Type) c (t : Table Item Val E) item t' out,
  columnWidth t <> None -> FormatItem c t item = (t', out) -> (forall vs, out <> Ok vs) ->
  exists pre vs, FirstFailure (cell item) (Columns (tSpec t)) pre vs out
    /\ forall n, IsMax (fun w => w = Width t n \/ SeenIn c pre vs n w) (Width t' n).
Proof. exact @FormatItem_fails. Qed.
Print Assumptions C25_failure.

Theorem C25_widths : forall (Item Val E : Type) c (t : Table Item Val E) item t' vs,
  columnWidth t <> None -> FormatItem c t item = (t', Ok vs) ->
  forall n, IsMax (fun w => w = Width t n \/ SeenIn c (Columns (tSpec t)) vs n w) (Width t' n).
Proof. exact @FormatItem_widths. Qed.
Print Assumptions C25_widths.

Example C25_example : snd (FormatItem exC exTable exItem1) = Ok [lit "go.mod"%string; lit "12"%string]
  /\ snd (FormatItem exC exTable exBad) = Err (lit "missing"%string).
Proof. split; vm_compute; reflexivity. Qed.

(** C26. *)
Theorem C26_basic : forall (Item Val E : Type) (t : Table Item Val E) item sep,
  (exists vs, AllOk (basic_cell item) (Columns (tSpec t)) vs /\ FormatItemBasic t item sep = Ok (join sep vs))
  \/ exists pre vs, FirstFailure (basic_cell item) (Columns (tSpec t)) pre vs (FormatItemBasic t item sep).
Proof. exact @FormatItemBasic_spec. Qed.
Print Assumptions C26_basic.

Example C26_example : FormatItemBasic exTable exItem1 (lit ", "%string) = Ok (lit "go.mod, 12"%string)
  /\ FormatItemBasic exTable exBad [] = Err (lit "size"%string).
Proof. split; vm_compute; reflexivity. Qed.

(** C27. *)
Theorem C27_wrong_length : forall (Item Val E : Type) (t : Table Item Val E) formatted,
  length formatted <> length (Columns (tSpec t)) ->
  AlignFormattedItem t formatted = (formatted, Err (slen formatted, ColumnCount (tSpec t))).
Proof. exact @Align_bad_length. Qed.
Print Assumptions C27_wrong_length.

Theorem C27_error_iff : forall (Item Val E : Type) (t : Table Item Val E) formatted,
  ~ In None (Columns (tSpec t)) ->
  ((exists e, snd (AlignFormattedItem t formatted) = Err e) <-> length formatted <> length (Columns (tSpec t))).
Proof. exact @Align_error_iff. Qed.
Print Assumptions C27_error_iff.

Theorem C27_cells : forall (Item Val E : Type) (t : Table Item Val E) formatted,
  length formatted = length (Columns (tSpec t)) -> ~ In None (Columns (tSpec t)) ->
  exists cells, AlignFormattedItem t formatted = (cells, Ok cells)
    /\ length cells = length formatted
    /\ forall i col s, nth_error (Columns (tSpec t)) i = Some (Some col) -> nth_error formatted i = Some s ->
       nth_error cells i = Some (match colAlignment col with None => s | Some al => al s (Width t (colName col)) end).
Proof. exact @Align_good. Qed.
Print Assumptions C27_cells.

Example C27_example :
  let t := fst (UpdateWidth (E := str) exTable [(lit "name"%string, 5); (lit "size"%string, 4)]) in
  AlignFormattedItem t [lit "ab"%string; lit "7"%string]
  = ([lit "ab   "%string; lit "   7"%string], Ok [lit "ab   "%string; lit "   7"%string]).
Proof. vm_compute. reflexivity. Qed.

(** C28. *)
Theorem C28_rows_line_up : forall (Item Val E : Type) c (spec : option (TableSpec Item Val E)) ops items t' rows,
  Reachable c -> Forall uint16_op ops ->
  Formats c (table_run (NewTable spec) ops) items t' rows ->
  forall row, In row rows -> exists cells, AlignFormattedItem t' row = (cells, Ok cells) /\
  forall i col a s, nth_error (Columns (tSpec (table_run (NewTable spec) ops))) i = Some (Some col) ->
    nth_error row i = Some s -> colAlignment col = Some (align a c) -> Paddable a s ->
    exists cl, nth_error cells i = Some cl /\ vwidth c cl = Width t' (colName col).
Proof. exact @rows_line_up_new. Qed.
Print Assumptions C28_rows_line_up.

Example C28_example : exists t',
  Formats exC exTable [exItem1; exItem2] t' [exItem1; exItem2]
  /\ AlignFormattedItem t' exItem2 =
     ([lit "x     "%string; lit "65536"%string], Ok [lit "x     "%string; lit "65536"%string])
  /\ AlignFormattedItem t' exItem1 =
     ([lit "go.mod"%string; lit "   12"%string], Ok [lit "go.mod"%string; lit "   12"%string]).
Proof. exact rows_example. Qed.

(** C29. *)
Theorem C29_columns : forall (Item Val E : Type) (cols : list (option (Column Item Val E))),
  Columns (add_all (E := E) NewTableSpec cols) = cols
  /\ ColumnCount (add_all (E := E) NewTableSpec cols) = Z.of_nat (length cols).
Proof. exact @registry_columns. Qed.
Print Assumptions C29_columns.

Theorem C29_has_column : forall (Item Val E : Type) (cols : list (option (Column Item Val E))) name,
  HasColumn (add_all (E := E) NewTableSpec cols) name = true <->
  exists cl, In (Some cl) cols /\ colName cl = name.
Proof. exact @registry_has. Qed.
Print Assumptions C29_has_column.

(** Of several columns with one name the last is found under it. *)
Theorem C29_latest : forall (Item Val E : Type) (cols : list (option (Column Item Val E))) name cl pre post,
  cols = pre ++ Some cl :: post -> colName cl = name ->
  (forall cl', In (Some cl') post -> colName cl' <> name) ->
  exists m, ColumnByName (add_all (E := E) NewTableSpec cols) = Some m /\ col_lookup m name = Some cl.
Proof. exact @registry_latest. Qed.
Print Assumptions C29_latest.

Theorem C29_outcome : forall (Item Val E : Type) (s : TableSpec Item Val E) o,
  Columns (fst (AddColumn (E := E) s o)) = Columns s ++ [o]
  /\ snd (AddColumn (E := E) s o) =
     match o, ColumnByName s with
     | None, _ => Panic NilDereference
     | Some _, None => Panic NilMapWrite
     | Some _, Some _ => Ok tt
     end.
Proof. exact @add_outcome. Qed.
Print Assumptions C29_outcome.

(** On any spec, also one made by hand. *)
Theorem C29_any : forall (Item Val E : Type) (s : TableSpec Item Val E) cols name,
  Columns (add_all s cols) = Columns s ++ cols
  /\ TimeFormat (add_all s cols) = TimeFormat s
  /\ (ColumnByName (add_all s cols) = None <-> ColumnByName s = None)
  /\ (HasColumn (add_all s cols) name = true <->
      HasColumn s name = true \/ (ColumnByName s <> None /\ exists cl, In (Some cl) cols /\ colName cl = name)).
Proof. exact @registry_any. Qed.
Print Assumptions C29_any.

Theorem C29_without_map : forall (Item Val E : Type) (s : TableSpec Item Val E) cols name, ColumnByName s = None ->
  HasColumn (add_all s cols) name = false /\ ColumnCount (add_all s cols) = ColumnCount s + slen cols.
Proof. exact @registry_nil. Qed.
Print Assumptions C29_without_map.

Example C29_example : ColumnCount exSpec = 2 /\ HasColumn exSpec (lit "size"%string) = true
  /\ HasColumn exSpec (lit "Size"%string) = false.
Proof. repeat split; vm_compute; reflexivity. Qed.
Example C29_without_map_example :
  let s := {| ColumnByName := None; TimeFormat := []; Columns := [] |} : TableSpec (list str) str str in
  ColumnCount (add_all s exCols) = 2 /\ HasColumn (add_all s exCols) (lit "size"%string) = false.
Proof. split; vm_compute; reflexivity. Qed.

(** C30. *)
Theorem C30_header_cell : forall (Item Val E : Type) c (t : Table Item Val E) col,
  0 < Width t (colName col) ->
  padColumnHeader c t col =
  AlignmentCenter c
    (if slen (colTitle col) <=? Width t (colName col) then colTitle col
     else if slen (colShortTitle col) <=? Width t (colName col) then colShortTitle col else [])
    (Width t (colName col)).
Proof. exact @header_cell. Qed.
Print Assumptions C30_header_cell.

Theorem C30_header_unpadded : forall (Item Val E : Type) c (t : Table Item Val E) col,
  Width t (colName col) = 0 -> padColumnHeader c t col = colTitle col.
Proof. exact @header_zero. Qed.
Print Assumptions C30_header_unpadded.

Theorem C30_header_width : forall (Item Val E : Type) c (t : Table Item Val E) col, Reachable c ->
  0 < Width t (colName col) < 65536 ->
  (forall s, s = colTitle col \/ s = colShortTitle col ->
     ~ In 0x9B (runes s) /\ ~ JoinsPrevious s /\ ~ JoinsNext s
     /\ ((exists st, Behaves c false st) \/ ValidUTF8 s)) ->
  vwidth c (padColumnHeader c t col) = Width t (colName col).
Proof. exact @header_width. Qed.
Print Assumptions C30_header_width.

Theorem C30_header_line : forall (Item Val E : Type) c (t : Table Item Val E) sep cols,
  Columns (tSpec t) = map Some cols ->
  FormatHeader c t sep = Ok (concat (map (fun col => padColumnHeader c t col ++ sep) cols) ++ [x0a] : str) :> outcome E str.
Proof. exact @header_line. Qed.
Print Assumptions C30_header_line.

Example C30_example :
  let t := fst (UpdateWidth (E := str) exTable [(lit "name"%string, 7); (lit "size"%string, 3)]) in
  FormatHeader exC t (lit "|"%string) = Ok (lit "  Name | S |"%string ++ [x0a]) :> outcome str str.
Proof. vm_compute. reflexivity. Qed.

(** In East Asian mode an invalid byte is two cells wide, and the header too wide. *)
Theorem C30_east_asian_refuted : exists (t : Table (list str) str str) col,
  0 < Width t (colName col) < 65536
  /\ Width t (colName col) < vwidth (plainCondition true true) (padColumnHeader (plainCondition true true) t col).
Proof. exact header_refuted. Qed.
Print Assumptions C30_east_asian_refuted.

(** C31. *)
Theorem C31_modulo : forall (Item Val E : Type) (t : Table Item Val E) margin cols,
  Columns (tSpec t) = map Some cols ->
  TableWidth t margin = Ok ((zsum (map (fun col => Width t (colName col)) cols)
                             + (slen cols - 1) * margin) mod 65536) :> outcome E Z.
Proof. exact @TableWidth_spec. Qed.
Print Assumptions C31_modulo.

Theorem C31_exact : forall (Item Val E : Type) (t : Table Item Val E) margin cols,
  Columns (tSpec t) = map Some cols -> cols <> [] -> 0 <= margin -> (forall n, 0 <= Width t n) ->
  zsum (map (fun col => Width t (colName col)) cols) + (slen cols - 1) * margin < 65536 ->
  TableWidth t margin = Ok (zsum (map (fun col => Width t (colName col)) cols) + (slen cols - 1) * margin) :> outcome E Z.
Proof. exact @TableWidth_exact. Qed.
Print Assumptions C31_exact.

Theorem C31_no_columns : forall (Item Val E : Type) (t : Table Item Val E) margin,
  Columns (tSpec t) = [] -> TableWidth t margin = Ok ((- margin) mod 65536) :> outcome E Z.
Proof. exact @TableWidth_empty. Qed.
Print Assumptions C31_no_columns.

Example C31_example :
  let t := fst (UpdateWidth (E := str) exTable [(lit "name"%string, 7); (lit "size"%string, 3)]) in
  TableWidth t 2 = Ok 12 :> outcome str Z
  /\ TableWidth (NewTable (Some NewTableSpec) : Table (list str) str str) 1 = Ok 65535 :> outcome str Z.
Proof. split; vm_compute; reflexivity. Qed.
