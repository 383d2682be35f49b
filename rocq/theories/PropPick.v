(** * PropPick: columns in another order, renamed or left out (C91). *)
From Coq Require Import Strings.String.
From Verif Require Import GoBase Runewidth Width AlignSpec Table Merge TableContract TableExamples
  MergeSpec MergeExamples MergeScreens MergeRecorded GrowSpec PickSpec PickProofs PickCases.
Local Open Scope Z_scope.

(** The same columns in another order: the lines break at the same places. *)
Theorem C91_reordered : forall (Item Val E : Type) c p (t t' : Table Item Val E) cols cols' items items' rows,
  Picked p t cols t' cols' -> Printable t cols items rows -> Printable t' cols' items' (map (pick p) rows) ->
  List.length p = List.length cols -> forall m fuel ok maxWidth sep compact,
  let r := merge m fuel c t ok items maxWidth sep compact in
  let r' := merge m fuel c t' ok items' maxWidth sep compact in
  stop r' = stop r /\ List.length (written r') = List.length (written r)
  /\ exists g lines W, (1 <= g)%nat /\ Layout m g rows lines /\ (forall k, (k < g)%nat -> List.length (W k) = List.length cols)
     /\ written r = firstn (List.length (written r)) (printed c cols sep W g lines)
     /\ written r' = firstn (List.length (written r)) (printed c cols' sep (fun k => pick p (W k)) g (map (map (pick p)) lines))
     /\ (stop r = Finished -> List.length (written r) = List.length lines).
Proof. exact @reordered. Qed.
Print Assumptions C91_reordered.

(** and every row shows the same padded cells, in the other order. *)
Theorem C91_cells : forall (Item Val E : Type) c p (t t' : Table Item Val E) cols cols', Picked p t cols t' cols' ->
  forall ws row, List.length ws = List.length cols -> (List.length cols <= List.length row)%nat ->
  cells c cols' (pick p ws) (pick p row) = pick p (cells c cols ws row).
Proof. exact @picked_cells. Qed.
Print Assumptions C91_cells.

Example C91_order_example :
  Printable mTable mCols (listOf aRows) aRows /\ Picked pOrder mTable mCols pTable pCols
  /\ Printable pTable pCols (listOf (map (pick pOrder) aRows)) (map (pick pOrder) aRows) /\ List.length pOrder = List.length mCols
  /\ texts H mTable aRows = (lines ["go.mod 12 |x 3 |ab 7"; "c       9 |"]%string, Finished)
  /\ texts H pTable (map (pick pOrder) aRows) = (lines ["12 go.mod |3 x |7 ab"; " 9 c      |"]%string, Finished)
  /\ texts V mTable aRows = (lines ["go.mod 12 |ab 7"; "x       3 |c  9"]%string, Finished)
  /\ texts V pTable (map (pick pOrder) aRows) = (lines ["12 go.mod |7 ab"; " 3 x      |9 c "]%string, Finished).
Proof. exact order_example. Qed.

(** Columns left out: never more lines. *)
Theorem C91_fewer : forall (Item Val E : Type) c p (t t' : Table Item Val E) cols cols' items items' rows,
  Picked p t cols t' cols' -> Printable t cols items rows -> Printable t' cols' items' (map (pick p) rows) ->
  forall m fuel fuel' sep w compact, rows <> [] -> (forall col, In col cols -> 0 <= Width t (colName col)) ->
  reckoned t cols sep < 65536 -> Narrow c cols sep m rows ->
  let r := merge m fuel c t (fun _ => true) items w sep compact in
  let r' := merge m fuel' c t' (fun _ => true) items' w sep compact in
  stop r = Finished -> stop r' = Finished -> (List.length (written r') <= List.length (written r))%nat.
Proof. exact @fewer. Qed.
Print Assumptions C91_fewer.

Example C91_fewer_example :
  Printable mTable mCols (listOf aRows) aRows /\ Picked pOne mTable mCols oneTable [pBytes]
  /\ Printable oneTable [pBytes] (listOf (map (pick pOne) aRows)) (map (pick pOne) aRows)
  /\ (forall col, In col mCols -> 0 <= Width mTable (colName col)) /\ reckoned mTable mCols mSep < 65536
  /\ Narrow exC mCols mSep H aRows /\ Narrow exC mCols mSep V aRows
  /\ texts H oneTable (map (pick pOne) aRows) = (lines ["12 |3 |7 |9 |"]%string, Finished).
Proof. exact fewer_example. Qed.

(** Formatting keeps the two tables together. *)
Theorem C91_format : forall (Item Val E : Type) c p cols cols' (t : Table Item Val E) its t1 rows,
  Formats c t its t1 rows -> forall t',
  columnWidth t <> None -> columnWidth t' <> None ->
  Columns (tSpec t) = map Some cols -> Columns (tSpec t') = map Some cols' -> Picked p t cols t' cols' -> SameGetters p cols cols' ->
  exists t1', Formats c t' its t1' (map (pick p) rows) /\ Picked p t1 cols t1' cols'
    /\ Columns (tSpec t1) = map Some cols /\ Columns (tSpec t1') = map Some cols'.
Proof. exact @pick_formats. Qed.
Print Assumptions C91_format.

Example C91_format_example : columnWidth exTable <> None /\ Columns (tSpec exTable) = map Some mCols
  /\ Picked pOrder exTable mCols (tableOf pCols []) pCols /\ SameGetters pOrder mCols pCols
  /\ snd (FormatItem exC exTable exItem1) = Ok [lit "go.mod"%string; lit "12"%string]
  /\ snd (FormatItem exC (tableOf pCols []) exItem1) = Ok [lit "12"%string; lit "go.mod"%string].
Proof. exact format_example. Qed.

(** Past 16 bits: a column less, and more lines. *)
Theorem C91_more_refuted : forall m, exists t cols t' cols' p (rows : list (list str)) w sep compact,
  Picked p t cols t' cols' /\ p <> [] /\ Printable t cols (listOf rows) rows /\ Printable t' cols' (listOf (map (pick p) rows)) (map (pick p) rows)
  /\ (forall col, In col cols -> 0 <= Width t (colName col) < 65536)
  /\ ends m t rows w sep compact = (2%nat, Finished) /\ ends m t' (map (pick p) rows) w sep compact = (4%nat, Finished).
Proof. exact more_refuted. Qed.
Print Assumptions C91_more_refuted.

(** The columns left have no width and there is no separator: a panic. *)
Theorem C91_panic_refuted : forall m, exists t cols t' cols' p (rows : list (list str)) w sep compact,
  Picked p t cols t' cols' /\ p <> [] /\ Printable t cols (listOf rows) rows /\ Printable t' cols' (listOf (map (pick p) rows)) (map (pick p) rows)
  /\ FitsRecorded exC t cols rows /\ reckoned t cols sep < 65536 /\ Narrow exC cols sep m rows
  /\ ends m t rows w sep compact = (1%nat, Finished) /\ ends m t' (map (pick p) rows) w sep compact = (0%nat, Panicked DivideByZero).
Proof. exact panic_refuted. Qed.
Print Assumptions C91_panic_refuted.
