(** * PropPipeline: properties of whole tables (C43 to C45). *)
From Coq Require Import Strings.String.
From Verif Require Import GoBase Utf8 Runewidth ConditionSpec Width TextSpec AlignSpec Table AlignCompose AlignTwice TableContract TableExamples
  Merge MergeSpec MergeExamples PipelineSpec PipelineProofs PipelineExamples.
Local Open Scope Z_scope.

(** C43. *)
Theorem C43_left_twice : forall c s w1 w2, Reachable c -> 0 <= w1 < 65536 -> 0 <= w2 < 65536 -> ~ JoinsNext s ->
  AlignmentLeft c (AlignmentLeft c s w1) w2 = AlignmentLeft c s (Z.max w1 w2).
Proof. exact align_left_compose. Qed.
Print Assumptions C43_left_twice.

Theorem C43_right_twice : forall c s w1 w2, Reachable c -> 0 <= w1 < 65536 -> 0 <= w2 < 65536 -> ~ JoinsPrevious s ->
  AlignmentRight c (AlignmentRight c s w1) w2 = AlignmentRight c s (Z.max w1 w2).
Proof. exact align_right_compose. Qed.
Print Assumptions C43_right_twice.

Theorem C43_center_twice : forall c s w1 w2, Reachable c -> 0 <= w1 < 65536 -> 0 <= w2 < 65536 ->
  ~ JoinsPrevious s -> ~ JoinsNext s -> Z.even (Z.max 0 (w1 - vwidth c s)) = true ->
  AlignmentCenter c (AlignmentCenter c s w1) w2 = AlignmentCenter c s (Z.max w1 w2).
Proof. exact align_center_compose. Qed.
Print Assumptions C43_center_twice.

(** Exactly when one of the paddings is even, or the text is nothing but spaces. *)
Theorem C43_center_iff : forall c s w1 w2, Reachable c -> 0 <= w1 < 65536 -> 0 <= w2 < 65536 ->
  ~ JoinsPrevious s -> ~ JoinsNext s ->
  (AlignmentCenter c (AlignmentCenter c s w1) w2 = AlignmentCenter c s (Z.max w1 w2)
   <-> Z.even (Z.max 0 (w1 - vwidth c s)) = true \/ Z.even (Z.max 0 (w2 - Z.max w1 (vwidth c s))) = true \/ Forall (eq space) s).
Proof. exact center_compose_iff. Qed.
Print Assumptions C43_center_iff.

Example C43_iff_example : Z.even (Z.max 0 (3 - vwidth exC (lit "ab"%string))) = false
  /\ Z.even (Z.max 0 (5 - Z.max 3 (vwidth exC (lit "ab"%string)))) = true
  /\ AlignmentCenter exC (AlignmentCenter exC (lit "ab"%string) 3) 5 = lit "  ab "%string
  /\ AlignmentCenter exC (AlignmentCenter exC (lit "ab"%string) 3) 4 = lit "  ab"%string
  /\ AlignmentCenter exC (lit "ab"%string) 4 = lit " ab "%string.
Proof. repeat split; vm_compute; reflexivity. Qed.

(** Two odd paddings both put their odd space to the left. *)
Theorem C43_center_refuted : exists c s w1 w2, Reachable c /\ 0 <= w1 < 65536 /\ 0 <= w2 < 65536
  /\ ~ JoinsPrevious s /\ ~ JoinsNext s
  /\ AlignmentCenter c (AlignmentCenter c s w1) w2 <> AlignmentCenter c s (Z.max w1 w2).
Proof. exact center_twice_refuted. Qed.
Print Assumptions C43_center_refuted.

Example C43_example : Isolated (lit "ab"%string)
  /\ AlignmentLeft exC (AlignmentLeft exC (lit "ab"%string) 5) 3 = lit "ab   "%string
  /\ AlignmentCenter exC (AlignmentCenter exC (lit "ab"%string) 4) 7 = lit "   ab  "%string
  /\ Z.even (Z.max 0 (4 - vwidth exC (lit "ab"%string))) = true.
Proof. split; [apply isolated_b_ok; vm_compute; reflexivity|]. repeat split; vm_compute; reflexivity. Qed.

(** C44. *)
Theorem C44_table_width : forall (Item Val E : Type) c (spec : option (TableSpec Item Val E)) ops items t' rows cols sep,
  Reachable c -> Forall uint16_op ops ->
  Formats c (table_run (NewTable spec) ops) items t' rows -> Columns (tSpec t') = map Some cols -> cols <> [] ->
  AllBuiltIn c cols -> IsolatedCells cols rows -> Separates sep ->
  forall row, In row rows -> exists cells, AlignFormattedItem t' row = (cells, Ok cells)
    /\ TableWidth t' (vwidth c sep) = Ok (vwidth c (join sep cells)) :> outcome E Z.
Proof. exact @table_width_row. Qed.
Print Assumptions C44_table_width.

Theorem C44_header_above : forall (Item Val E : Type) c (spec : option (TableSpec Item Val E)) ops items t' rows cols sep,
  Reachable c -> Forall uint16_op ops ->
  Formats c (table_run (NewTable spec) ops) items t' rows -> Columns (tSpec t') = map Some cols ->
  AllBuiltIn c cols -> IsolatedCells cols rows -> Separates sep ->
  PlainTitles c cols -> (forall col, In col cols -> 0 < Width t' (colName col)) ->
  exists heads, FormatHeader c t' sep = Ok (before sep heads (List.length cols) ++ [x0a]) :> outcome E str
    /\ List.length heads = List.length cols
    /\ forall row, In row rows -> exists cells, AlignFormattedItem t' row = (cells, Ok cells)
       /\ forall i, (i <= List.length cols)%nat -> vwidth c (before sep heads i) = vwidth c (before sep cells i).
Proof. exact @header_above. Qed.
Print Assumptions C44_header_above.

Example C44_example : Formats exC (table_run (NewTable (Some exSpec)) []) [exItem1; exItem2] pTable pRows
  /\ Columns (tSpec pTable) = map Some mCols /\ AllBuiltIn exC mCols /\ IsolatedCells mCols pRows /\ Separates mSep
  /\ PlainTitles exC mCols /\ (forall col, In col mCols -> 0 < Width pTable (colName col))
  /\ 0 < reckoned pTable mCols mSep < 65536.
Proof. exact pipeline_example. Qed.
Example C44_example_width : vwidth exC mSep = 2 /\ TableWidth pTable 2 = Ok 13 :> outcome str Z
  /\ join mSep (fst (AlignFormattedItem pTable exItem2)) = lit "x      |65536"%string
  /\ FormatHeader exC pTable mSep = Ok (lit " Name  | Size |"%string ++ [x0a]) :> outcome str str.
Proof. repeat split; vm_compute; reflexivity. Qed.

(** C45. *)
Theorem C45_formatted_then_merged : forall (Item Val E : Type) c (spec : option (TableSpec Item Val E)) ops items t' rows cols list,
  Reachable c -> Forall uint16_op ops ->
  Formats c (table_run (NewTable spec) ops) items t' rows -> Columns (tSpec t') = map Some cols ->
  Forall (BuiltIn c) cols -> IsolatedCells cols rows -> Serves list rows ->
  forall m fuel sep maxWidth, Separates sep -> 0 <= maxWidth -> maxWidth + slen sep < 65536 ->
  0 < reckoned t' cols sep < 65536 -> zsum (recorded t' cols) + slen cols - 1 <= maxWidth ->
  forall txt, In txt (written (merge m fuel c t' (fun _ => true) list maxWidth sep false)) ->
  exists line, txt = line ++ [x0a] /\ vwidth c line <= maxWidth.
Proof. exact @pipeline_merge. Qed.
Print Assumptions C45_formatted_then_merged.

Example C45_example : Serves (listOf pRows) pRows /\ zsum (recorded pTable mCols) + slen mCols - 1 = 12
  /\ written (merge H 1 exC pTable (fun _ => true) (listOf pRows) 28 mSep false) =
     [lit "go.mod    12 |x      65536"%string ++ [x0a]].
Proof. split; [apply listOf_serves|]. split; vm_compute; reflexivity. Qed.
