(** * PropRecorded: merging and the recorded widths (C69). *)
From Coq Require Import Strings.String.
From Verif Require Import GoBase Runewidth Width Table TableContract TableExamples Merge MergeSpec MergeExamples MergeRecorded.
Local Open Scope Z_scope.

(** ** C69 *)

Theorem C69_wider_columns : forall (Item Val E : Type) c (t t' : Table Item Val E) cols items rows,
  Printable t cols items rows -> Printable t' cols items rows -> rows <> [] ->
  (forall col, In col cols -> Width t (colName col) <= Width t' (colName col)) ->
  forall m fuel fuel' sep w compact, 0 <= reckoned t cols sep -> reckoned t' cols sep < 65536 ->
  let r := merge m fuel c t (fun _ => true) items w sep compact in
  let r' := merge m fuel' c t' (fun _ => true) items w sep compact in
  stop r = Finished -> stop r' = Finished -> (List.length (written r) <= List.length (written r'))%nat.
Proof. exact @wider_columns. Qed.
Print Assumptions C69_wider_columns.

Theorem C69_later : forall (Item Val E : Type) c (spec : option (TableSpec Item Val E)) ops ops' cols items rows,
  Forall uint16_op (ops ++ ops') -> added ops' = [] ->
  let t := table_run (NewTable spec) ops in let t' := table_run (NewTable spec) (ops ++ ops') in
  Printable t cols items rows -> rows <> [] ->
  forall m fuel fuel' sep w compact, reckoned t' cols sep < 65536 ->
  let r := merge m fuel c t (fun _ => true) items w sep compact in
  let r' := merge m fuel' c t' (fun _ => true) items w sep compact in
  stop r = Finished -> stop r' = Finished -> (List.length (written r) <= List.length (written r'))%nat.
Proof. exact @later_lines. Qed.
Print Assumptions C69_later.

Theorem C69_compact_same : forall (Item Val E : Type) c (t t' : Table Item Val E) cols items rows,
  Printable t cols items rows -> Printable t' cols items rows -> rows <> [] ->
  FitsRecorded c t cols rows -> FitsRecorded c t' cols rows ->
  forall fuel fuel' sep w, 1 <= slen sep -> 0 <= w -> w + slen sep < 65536 ->
  reckoned t cols sep < 65536 -> reckoned t' cols sep < 65536 ->
  let r := MergeRowsHorizontal fuel c t (fun _ => true) items w sep true in
  let r' := MergeRowsHorizontal fuel' c t' (fun _ => true) items w sep true in
  stop r = Finished -> stop r' = Finished ->
  List.length (written r) = List.length (written r')
  /\ ((List.length (written r) < List.length (written (MergeRowsHorizontal fuel c t (fun _ => true) items w sep false)))%nat ->
      (List.length (written r) < List.length (written (MergeRowsHorizontal fuel' c t' (fun _ => true) items w sep false)))%nat ->
      written r = written r').
Proof. exact @compact_same. Qed.
Print Assumptions C69_compact_same.

Theorem C69_later_compact : forall (Item Val E : Type) c (spec : option (TableSpec Item Val E)) ops ops' cols items rows,
  Forall uint16_op (ops ++ ops') -> added ops' = [] ->
  let t := table_run (NewTable spec) ops in let t' := table_run (NewTable spec) (ops ++ ops') in
  Printable t cols items rows -> rows <> [] -> FitsRecorded c t cols rows ->
  forall fuel fuel' sep w, 1 <= slen sep -> 0 <= w -> w + slen sep < 65536 -> reckoned t' cols sep < 65536 ->
  let r := MergeRowsHorizontal fuel c t (fun _ => true) items w sep true in
  let r' := MergeRowsHorizontal fuel' c t' (fun _ => true) items w sep true in
  stop r = Finished -> stop r' = Finished ->
  List.length (written r) = List.length (written r')
  /\ ((List.length (written r) < List.length (written (MergeRowsHorizontal fuel c t (fun _ => true) items w sep false)))%nat ->
      written r = written r').
Proof. exact @later_compact. Qed.
Print Assumptions C69_later_compact.

(** Vertically the recorded widths can change the number of lines. *)
Theorem C69_vertical_refuted : exists (t t' : Table (list str) str str) cols rows sep w,
  Printable t cols (listOf rows) rows /\ Printable t' cols (listOf rows) rows
  /\ FitsRecorded exC t cols rows /\ FitsRecorded exC t' cols rows /\ 1 <= slen sep
  /\ map (fun t => let r := MergeRowsVertical 9 exC t (fun _ => true) (listOf rows) w sep true in (List.length (written r), stop r)) [t; t']
     = [(1%nat, Finished); (2%nat, Finished)].
Proof. exact vertical_recorded. Qed.
Print Assumptions C69_vertical_refuted.

(** So they can horizontally if the separator is empty. *)
Theorem C69_empty_separator_refuted : exists (t t' : Table (list str) str str) cols rows w,
  Printable t cols (listOf rows) rows /\ Printable t' cols (listOf rows) rows
  /\ FitsRecorded exC t cols rows /\ FitsRecorded exC t' cols rows
  /\ map (fun t => let r := MergeRowsHorizontal 9 exC t (fun _ => true) (listOf rows) w [] true in (List.length (written r), stop r)) [t; t']
     = [(2%nat, Finished); (3%nat, Finished)].
Proof. exact empty_separator_recorded. Qed.
Print Assumptions C69_empty_separator_refuted.

(** Past 16 bits a column recorded wider gives fewer lines. *)
Theorem C69_wraps_refuted : exists (t t' : Table (list str) str str) cols rows w sep,
  Printable t cols (listOf rows) rows /\ Printable t' cols (listOf rows) rows
  /\ (forall col, In col cols -> 0 <= Width t (colName col) <= Width t' (colName col) /\ Width t' (colName col) < 65536)
  /\ map (fun t => let r := MergeRowsHorizontal 1 exC t (fun _ => true) (listOf rows) w sep false in (List.length (written r), stop r)) [t; t']
     = [(4%nat, Finished); (1%nat, Finished)].
Proof. exact recorded_wraps. Qed.
Print Assumptions C69_wraps_refuted.

(** One more long item formatted before merging: more lines without
    compaction, the same text with it. *)
Example C69_example :
  let ops := [OpUpdate [(lit "name"%string, 6); (lit "size"%string, 2)]] in
  let ops' := [OpFormat exC [lit "a name to widen"%string; lit "1"%string]] in
  let t := table_run exTable ops in let t' := table_run exTable (ops ++ ops') in
  let run b t := MergeRowsHorizontal 20 exC t (fun _ => true) (listOf mRows) 30 mSep b in
  Forall uint16_op (ops ++ ops') /\ added ops' = [] /\ Printable t mCols (listOf mRows) mRows /\ FitsRecorded exC t mCols mRows
  /\ map (fun u => (List.length (written (run false u)), stop (run false u))) [t; t'] = [(3%nat, Finished); (5%nat, Finished)]
  /\ map (fun u => (List.length (written (run true u)), stop (run true u))) [t; t'] = [(2%nat, Finished); (2%nat, Finished)]
  /\ written (run true t) = written (run true t').
Proof. exact recorded_example. Qed.
