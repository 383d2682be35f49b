(** * PropBlock: merged lines and aligned rows (C100). *)
From Coq Require Import Strings.String.
From Verif Require Import GoBase Runewidth ConditionSpec Width TextSpec AlignSpec Table TableContract TableExamples TableTheory
  Merge MergeSpec MergeExamples PipelineSpec PipelineExamples BlockSpec BlockProofs BlockCases.
Local Open Scope Z_scope.

(** C100. Plain: every item is printed as AlignFormattedItem returns it. *)
Theorem C100_plain : forall (Item Val E : Type) c (t : Table Item Val E) cols items rows,
  Printable t cols items rows -> AllAligned cols -> ExactRows cols rows ->
  forall m fuel sep maxWidth, reckoned t cols sep mod 65536 <> 0 ->
  (forall row, In row rows -> exists cells, AlignFormattedItem t row = (cells, Ok cells))
  /\ exists g lines, Z.of_nat g = estimate t cols sep maxWidth /\ Layout m g rows lines
     /\ written (merge m fuel c t (fun _ => true) items maxWidth sep false) = map (aligned_line (fun _ => t) sep g) lines.
Proof. exact @plain_aligned. Qed.
Print Assumptions C100_plain.

(** One item to a line: the aligned rows, line by line. *)
Theorem C100_one : forall (Item Val E : Type) c (t : Table Item Val E) cols items rows,
  Printable t cols items rows -> AllAligned cols -> ExactRows cols rows ->
  forall m fuel sep maxWidth, reckoned t cols sep mod 65536 <> 0 -> estimate t cols sep maxWidth = 1 ->
  written (merge m fuel c t (fun _ => true) items maxWidth sep false) = map (fun row => aligned_text t row ++ [x0a]) rows.
Proof. exact @one_aligned. Qed.
Print Assumptions C100_one.

Theorem C100_when : forall (Item Val E : Type) (t : Table Item Val E) cols sep maxWidth, 0 < reckoned t cols sep < 65536 ->
  effective maxWidth + slen sep < 65536 ->
  (estimate t cols sep maxWidth = 1 <-> effective maxWidth + slen sep < 2 * reckoned t cols sep).
Proof. exact one_group. Qed.
Print Assumptions C100_when.

(** Compact: each group as a new table with the widths of the group aligns it. *)
Theorem C100_compact : forall (Item Val E : Type) c (t : Table Item Val E) cols items rows,
  Printable t cols items rows -> AllAligned cols -> ExactRows cols rows ->
  forall m fuel sep maxWidth, reckoned t cols sep mod 65536 <> 0 -> NoDup (map colName cols) -> (forall name, 0 <= Width t name) ->
  let r := merge m fuel c t (fun _ => true) items maxWidth sep true in stop r = Finished ->
  exists g0 g lines W, Z.of_nat g0 = estimate t cols sep maxWidth /\ (g0 <= g)%nat /\ Layout m g rows lines
    /\ Chosen c t cols g0 g lines W
    /\ (forall k row, (k < g)%nat -> In row rows -> exists cells, AlignFormattedItem (with_widths t cols (W k)) row = (cells, Ok cells))
    /\ written r = map (aligned_line (fun k => with_widths t cols (W k)) sep g) lines.
Proof. exact @compact_aligned. Qed.
Print Assumptions C100_compact.

(** The header stands above merged lines of one item each. *)
Theorem C100_header : forall (Item Val E : Type) c (spec : option (TableSpec Item Val E)) ops its t' rows cols items, Reachable c -> Forall uint16_op ops ->
  Formats c (table_run (NewTable spec) ops) its t' rows -> Columns (tSpec t') = map Some cols ->
  AllBuiltIn c cols -> IsolatedCells cols rows -> PlainTitles c cols -> (forall col, In col cols -> 0 < Width t' (colName col)) ->
  Serves items rows -> forall m fuel sep maxWidth, reckoned t' cols sep mod 65536 <> 0 -> estimate t' cols sep maxWidth = 1 ->
  exists heads, FormatHeader c t' [space] = Ok (before [space] heads (List.length cols) ++ [x0a]) :> outcome E str /\ List.length heads = List.length cols
    /\ List.length (written (merge m fuel c t' (fun _ => true) items maxWidth sep false)) = List.length rows
    /\ forall txt, In txt (written (merge m fuel c t' (fun _ => true) items maxWidth sep false)) ->
       exists cells, txt = TableContract.join [space] cells ++ [x0a] /\ List.length cells = List.length cols
         /\ forall i, (i <= List.length cols)%nat -> vwidth c (before [space] heads i) = vwidth c (before [space] cells i).
Proof. exact @header_merged. Qed.
Print Assumptions C100_header.

(** Without an alignment the two differ: merging pads. *)
Theorem C100_unaligned_refuted : exists (t : Table (list str) str str) cols rows sep w,
  Printable t cols (listOf rows) rows /\ ExactRows cols rows /\ reckoned t cols sep mod 65536 <> 0 /\ estimate t cols sep w = 1
  /\ (forall row, In row rows -> exists cells, AlignFormattedItem t row = (cells, Ok cells))
  /\ forall m, written (merge m 1 exC t (fun _ => true) (listOf rows) w sep false) <> map (fun row => aligned_text t row ++ [x0a]) rows.
Proof. exact unaligned. Qed.
Print Assumptions C100_unaligned_refuted.

(** Cells too many are left out by merging, and an error to AlignFormattedItem. *)
Theorem C100_longer_refuted : exists (t : Table (list str) str str) cols rows sep w,
  Printable t cols (listOf rows) rows /\ AllAligned cols /\ reckoned t cols sep mod 65536 <> 0
  /\ (forall m, stop (merge m 1 exC t (fun _ => true) (listOf rows) w sep false) = Finished
        /\ written (merge m 1 exC t (fun _ => true) (listOf rows) w sep false) <> [])
  /\ forall row, In row rows -> snd (AlignFormattedItem t row) = Err (2, 1).
Proof. exact too_long. Qed.
Print Assumptions C100_longer_refuted.

(** The further hypotheses are those of C34_example and C44_example. *)
Example C100_example : AllAligned mCols /\ ExactRows mCols mRows /\ NoDup (map colName mCols) /\ estimate mTable mCols mSep 20 = 1
  /\ map (aligned_text mTable) mRows = [lit "go.mod 12"%string; lit "x       3"%string; [xe6; x97; xa5] ++ lit "      5"%string; lit "ab      7"%string; lit "c       9"%string]
  /\ written (merge V 1 exC mTable (fun _ => true) (listOf mRows) 20 mSep false) = map (fun row => aligned_text mTable row ++ [x0a]) mRows
  /\ aligned_text (with_widths mTable mCols [2; 1]) [lit "x"%string; lit "3"%string] = lit "x  3"%string
  /\ FormatHeader exC pTable [space] = Ok (lit " Name   Size "%string ++ [x0a]) :> outcome str str
  /\ estimate pTable mCols mSep 20 = 1
  /\ written (merge H 1 exC pTable (fun _ => true) (listOf pRows) 20 mSep false) = map (fun row => aligned_text pTable row ++ [x0a]) pRows.
Proof. exact block_example. Qed.
