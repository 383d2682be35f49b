(** * PropEnds: when the methods of a table panic (C105). *)
From Coq Require Import Strings.String.
From Verif Require Import GoBase Runewidth Width AlignSpec Table TableContract TableExamples Merge MergeSpec MergeExamples AlikeSpec EndsSpec EndsProofs EndsCases.
Local Open Scope Z_scope.

(** ** C105: panics *)

(** On a table made by NewTable that holds no nil column nothing panics but a
    getter, or a merge for one of four reasons. *)
Theorem C105_made : forall (Item Val E : Type) (spec : option (TableSpec Item Val E)) ops x p,
  let t := table_run (NewTable spec) ops in ~ In None (Columns (tSpec t)) -> ProperCall x ->
  panicked (snd (perform t x)) = Some p -> CallFault t x p.
Proof. exact @made_ends. Qed.
Print Assumptions C105_made.

Example C105_made_example : ~ In None (Columns (tSpec mTable)) /\ ProperCall (brokenCall (fun _ => true) mSep)
  /\ panicked (snd (perform mTable (brokenCall (fun _ => true) mSep))) = Some NilDereference
  /\ fiGet brokenItems 3 = Panic NilDereference
  /\ panicked (snd (perform mTable (CMerge H 1 exC oneWrite (listOf mRows) 26 mSep false))) = Some WriteFailed
  /\ panicked (snd (perform exTable (CMerge V 1 exC (fun _ => true) (listOf mRows) 26 [] false))) = Some DivideByZero.
Proof. exact fault_example. Qed.

(** Any table, any writer, plain or compact. *)
Theorem C105_merge : forall (Item Val E : Type) m fuel c (t : Table Item Val E) cols items ok maxWidth sep compact p,
  Columns (tSpec t) = map Some cols -> 0 <= fiLen items -> (forall i e, fiGet items i <> Err e) ->
  stop (merge m fuel c t ok items maxWidth sep compact) = Panicked p -> MergeFault t cols ok items sep p.
Proof. exact @merge_ends. Qed.
Print Assumptions C105_merge.

(** nil columns. *)
Theorem C105_header : forall (Item Val E : Type) c sep (t : Table Item Val E),
  (In None (Columns (tSpec t)) -> FormatHeader (E := E) c t sep = Panic NilDereference)
  /\ (~ In None (Columns (tSpec t)) -> exists s, FormatHeader (E := E) c t sep = Ok s).
Proof. exact @header_ends. Qed.
Print Assumptions C105_header.

Theorem C105_total : forall (Item Val E : Type) (t : Table Item Val E) margin,
  (In None (Columns (tSpec t)) -> TableWidth (E := E) t margin = Panic NilDereference)
  /\ (~ In None (Columns (tSpec t)) -> exists w, TableWidth (E := E) t margin = Ok w).
Proof. exact @total_ends. Qed.
Print Assumptions C105_total.

(** AlignFormattedItem has by then aligned the cells before the nil column, in
    the caller's slice. *)
Theorem C105_align : forall (Item Val E : Type) (t : Table Item Val E) pre post formatted,
  Columns (tSpec t) = map Some pre ++ None :: post -> List.length formatted = List.length (Columns (tSpec t)) ->
  exists cells, AlignFormattedItem t formatted = (cells ++ skipn (List.length pre) formatted, Panic NilDereference)
    /\ List.length cells = List.length pre
    /\ forall i col s, nth_error pre i = Some col -> nth_error formatted i = Some s ->
       nth_error cells i = Some (match colAlignment col with None => s | Some al => al s (Width t (colName col)) end).
Proof. exact @align_nil. Qed.
Print Assumptions C105_align.

Theorem C105_align_panics : forall (Item Val E : Type) (t : Table Item Val E) formatted p,
  snd (AlignFormattedItem t formatted) = Panic p ->
  p = NilDereference /\ In None (Columns (tSpec t)) /\ List.length formatted = List.length (Columns (tSpec t)).
Proof. exact @align_panics. Qed.
Print Assumptions C105_align_panics.

Example C105_nil_example : Columns (tSpec gapTable) = map Some [exName] ++ None :: [Some exSize]
  /\ AlignFormattedItem gapTable [lit "ab"%string; lit "c"%string; lit "d"%string]
     = ([lit "ab      "%string; lit "c"%string; lit "d"%string], Panic NilDereference)
  /\ AlignFormattedItem gapTable [lit "ab"%string] = ([lit "ab"%string], Err (1, 3))
  /\ FormatHeader exC gapTable (lit "|"%string) = Panic NilDereference
  /\ TableWidth gapTable 1 = Panic NilDereference.
Proof. exact gap_example. Qed.

(** A table without a map never changes. *)
Theorem C105_frozen : forall (Item Val E : Type) (t : Table Item Val E) xs, columnWidth t = None ->
  answers t xs = map (fun x => snd (perform t x)) xs.
Proof. exact @nil_answers. Qed.
Print Assumptions C105_frozen.

(** It answers like a new one until a call panics because a width would be recorded. *)
Theorem C105_until : forall (Item Val E : Type) (t : Table Item Val E) xs, columnWidth t = None ->
  exists k, firstn k (answers t xs) = firstn k (answers (with_map t) xs)
    /\ ((List.length xs <= k)%nat \/ exists x, nth_error xs k = Some x /\ panicked (snd (perform t x)) = Some NilMapWrite).
Proof. exact @map_until. Qed.
Print Assumptions C105_until.

Example C105_until_example : columnWidth bareTable = None
  /\ map panicked (answers bareTable bareCalls) = barePanics
  /\ map panicked (answers (with_map bareTable) bareCalls) = [None; None; None; None; None]
  /\ nth_error (answers bareTable bareCalls) 4 = Some (AText (Ok (lit "Name|Size|"%string ++ [x0a])))
  /\ nth_error (answers (with_map bareTable) bareCalls) 4 = Some (AText (Ok (lit " Name | S|"%string ++ [x0a]))).
Proof. exact bare_example. Qed.
