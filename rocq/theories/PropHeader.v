(** * PropHeader: which title a header shows (C102). *)
From Coq Require Import Strings.String.
From Verif Require Import GoBase Utf8 Runewidth ConditionSpec Width TextSpec AlignSpec Table TableContract TableExamples ReadSpec HeaderSpec HeaderProofs HeaderCases.
Local Open Scope Z_scope.

(** ** C102: titles *)

Theorem C102_one : forall cell s s', Shows cell s -> Shows cell s' -> s = s'.
Proof. exact shows_one. Qed.
Print Assumptions C102_one.

(** The header of a table, split where its separator stands. *)
Theorem C102_header : forall (Item Val E : Type) c (spec : option (TableSpec Item Val E)) ops cols x sep line,
  Forall uint16_op ops -> let t := table_run (NewTable spec) ops in
  Columns (tSpec t) = map Some cols -> Marks x sep ->
  Forall (fun col : Column Item Val E => Trimmed (colTitle col) /\ Trimmed (colShortTitle col)
            /\ ~ In x (colTitle col) /\ ~ In x (colShortTitle col)) cols ->
  FormatHeader c t sep = Ok line :> outcome E str ->
  exists cells, split sep 0 line = cells ++ [[x0a]]
    /\ Forall2 (fun (col : Column Item Val E) cell => exists s, Shows cell s
         /\ Heading (Shown (match spec with None => [] | Some s => Columns s end) ops (colName col)) (colTitle col) (colShortTitle col) s)
         cols cells.
Proof. exact @header_reads. Qed.
Print Assumptions C102_header.

Theorem C102_ascii : forall (Item Val E : Type) c (t : Table Item Val E) col,
  Reachable c -> 0 < Width t (colName col) < 65536 ->
  Forall (fun b => 0x20 <= bv b <= 0x7E) (colTitle col) -> Forall (fun b => 0x20 <= bv b <= 0x7E) (colShortTitle col) ->
  slen (colTitle col) < 65536 -> slen (colShortTitle col) < 65536 ->
  Trimmed (colTitle col) -> Trimmed (colShortTitle col) ->
  Shows (padColumnHeader c t col) (first_fitting (vwidth c) (Width t (colName col)) (colTitle col) (colShortTitle col)).
Proof. exact @ascii_best. Qed.
Print Assumptions C102_ascii.

Theorem C102_fits : forall (Item Val E : Type) c (t : Table Item Val E) col s,
  Reachable c -> 0 < Width t (colName col) < 65536 ->
  (forall s, s = colTitle col \/ s = colShortTitle col ->
     Trimmed s /\ ~ In 0x9B (runes s) /\ ((exists st, Behaves c false st) \/ ValidUTF8 s)) ->
  Shows (padColumnHeader c t col) s ->
  vwidth c s <= Width t (colName col) /\ (s = [] \/ s = colTitle col \/ s = colShortTitle col)
  /\ (s <> colTitle col -> Width t (colName col) < slen (colTitle col)).
Proof. exact @shown_fits. Qed.
Print Assumptions C102_fits.

Theorem C102_stays : forall (Item Val E : Type) c c' (spec : option (TableSpec Item Val E)) ops ops' col,
  Forall uint16_op (ops ++ ops') -> Trimmed (colTitle col) -> Trimmed (colShortTitle col) ->
  let t := table_run (NewTable spec) ops in let t' := table_run (NewTable spec) (ops ++ ops') in
  0 < Width t (colName col) ->
  (Shows (padColumnHeader c t col) (colTitle col) -> colTitle col <> colShortTitle col -> colTitle col <> [] ->
     Shows (padColumnHeader c' t' col) (colTitle col))
  /\ (Shows (padColumnHeader c' t' col) [] -> Shows (padColumnHeader c t col) []).
Proof. exact @title_stays. Qed.
Print Assumptions C102_stays.

(** A title that its column has room for is shown: false. The column here is as
    wide as the title, having shown the same text. *)
Theorem C102_room_refuted : exists (spec : option (TableSpec (list str) str str)) ops col,
  Forall uint16_op ops /\ Columns (tSpec (table_run (NewTable spec) ops)) = map Some [col]
  /\ Trimmed (colTitle col) /\ colShortTitle col = colTitle col /\ colTitle col <> []
  /\ ops = [OpFormat exC [colTitle col]]
  /\ vwidth exC (colTitle col) = Width (table_run (NewTable spec) ops) (colName col)
  /\ Shows (padColumnHeader exC (table_run (NewTable spec) ops) col) [].
Proof. exact own_name_dropped. Qed.
Print Assumptions C102_room_refuted.

(** Once shown a title stays, also from before the first item: false. *)
Theorem C102_first_refuted : exists (spec : option (TableSpec (list str) str str)) op col,
  uint16_op op /\ Columns (tSpec (table_run (NewTable spec) [])) = map Some [col] /\ Columns (tSpec (table_run (NewTable spec) [op])) = map Some [col]
  /\ colTitle col <> [] /\ Shows (padColumnHeader exC (table_run (NewTable spec) []) col) (colTitle col)
  /\ Shows (padColumnHeader exC (table_run (NewTable spec) [op]) col) [].
Proof. exact title_vanishes. Qed.
Print Assumptions C102_first_refuted.

Example C102_example : Forall uint16_op hOps /\ Columns (tSpec hTable) = map Some [exName; exSize] /\ Marks x7c (lit "|"%string)
  /\ Forall (fun col => Trimmed (colTitle col) /\ Trimmed (colShortTitle col) /\ ~ In x7c (colTitle col) /\ ~ In x7c (colShortTitle col)) [exName; exSize]
  /\ FormatHeader exC hTable (lit "|"%string) = Ok (lit " Name | S |"%string ++ [x0a]) :> outcome str str
  /\ split (lit "|"%string) 0 (lit " Name | S |"%string ++ [x0a]) = [lit " Name "%string; lit " S "%string] ++ [[x0a]]
  /\ Shows (lit " Name "%string) (lit "Name"%string) /\ Shows (lit " S "%string) (lit "S"%string).
Proof. exact header_case. Qed.
Example C102_example_fitting : Reachable exC /\ 0 < Width hTable (colName exSize) < 65536 /\ Trimmed (colTitle exSize) /\ Trimmed (colShortTitle exSize)
  /\ Forall (fun b => 0x20 <= bv b <= 0x7E) (colTitle exSize) /\ Forall (fun b => 0x20 <= bv b <= 0x7E) (colShortTitle exSize)
  /\ first_fitting (vwidth exC) (Width hTable (colName exSize)) (colTitle exSize) (colShortTitle exSize) = lit "S"%string
  /\ first_fitting (vwidth exC) (Width hTable (colName exName)) (colTitle exName) (colShortTitle exName) = lit "Name"%string.
Proof. exact cases_met. Qed.
