(** * PropRead: reading the output back (C57). *)
From Coq Require Import Strings.String.
From Verif Require Import GoBase Runewidth Width AlignSpec Table TableContract TableExamples Merge MergeSpec MergeExamples ReadSpec ReadProofs ReadCases.
Local Open Scope Z_scope.

(** ** C57: reading back *)

Theorem C57_read_back : forall (Item Val E : Type) c (t : Table Item Val E) cols items rows x sep,
  Printable t cols items rows -> cols <> [] -> Forall (BuiltIn c) cols -> LegibleRows x (List.length cols) rows -> Marks x sep ->
  forall m fuel maxWidth compact,
  let r := merge m fuel c t (fun _ => true) items maxWidth sep compact in
  stop r = Finished ->
  exists g lines, (1 <= g)%nat /\ Layout m g rows lines
    /\ read_output sep (List.concat (written r)) = map (map (firstn (List.length cols))) lines.
Proof. exact @read_back. Qed.
Print Assumptions C57_read_back.

(** Whatever the tables, conditions and screens. *)
Theorem C57_injective : forall (Item Val E Item' Val' E' : Type) c (t : Table Item Val E) cols items rows
    c' (t' : Table Item' Val' E') cols' items' rows' x sep m,
  Printable t cols items rows -> cols <> [] -> Forall (BuiltIn c) cols -> LegibleRows x (List.length cols) rows ->
  Printable t' cols' items' rows' -> cols' <> [] -> Forall (BuiltIn c') cols' -> LegibleRows x (List.length cols') rows' -> Marks x sep ->
  forall fuel fuel' maxWidth maxWidth' compact compact',
  let r := merge m fuel c t (fun _ => true) items maxWidth sep compact in
  let r' := merge m fuel' c' t' (fun _ => true) items' maxWidth' sep compact' in
  stop r = Finished -> stop r' = Finished -> List.concat (written r) = List.concat (written r') ->
  map (firstn (List.length cols)) rows = map (firstn (List.length cols')) rows'.
Proof. exact @output_injective. Qed.
Print Assumptions C57_injective.

(** Spaces in cells cannot be told from padding. *)
Theorem C57_spaces_refuted : exists (t : Table (list str) str str) cols rows rows' x sep m fuel maxWidth,
  Printable t cols (listOf rows) rows /\ Printable t cols (listOf rows') rows' /\ cols <> [] /\ Forall (BuiltIn exC) cols /\ Marks x sep
  /\ FitsRecorded exC t cols rows /\ FitsRecorded exC t cols rows'
  /\ Forall (fun row => Forall (fun s => s <> [] /\ ~ In x0a s /\ ~ In x s) row) (rows ++ rows')
  /\ merge m fuel exC t (fun _ => true) (listOf rows) maxWidth sep false = merge m fuel exC t (fun _ => true) (listOf rows') maxWidth sep false
  /\ stop (merge m fuel exC t (fun _ => true) (listOf rows) maxWidth sep false) = Finished /\ rows <> rows'.
Proof. exact spaces_lost. Qed.
Print Assumptions C57_spaces_refuted.

Example C57_example : LegibleRows x7c (List.length mCols) mRows /\ Marks x7c mSep /\ Forall (BuiltIn exC) mCols /\ mCols <> []
  /\ stop (merge H 20 exC mTable (fun _ => true) (listOf mRows) 26 mSep true) = Finished
  /\ read_output mSep (List.concat (written (merge H 20 exC mTable (fun _ => true) (listOf mRows) 26 mSep true)))
     = [firstn 4 mRows; skipn 4 mRows]
  /\ read_output mSep (List.concat (written (merge V 20 exC mTable (fun _ => true) (listOf mRows) 26 mSep false)))
     = [[nth 0 mRows []; nth 3 mRows []]; [nth 1 mRows []; nth 4 mRows []]; [nth 2 mRows []]].
Proof. exact read_example. Qed.
