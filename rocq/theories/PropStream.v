(** * PropStream: rows printed while others are still to be formatted (C88). *)
From Coq Require Import Strings.String.
From Verif Require Import GoBase Runewidth Width AlignSpec Table TableContract TableExamples
  StreamSpec StreamProofs StreamCases.
Local Open Scope Z_scope.

(** A line printed at once is the line printed at the end exactly when no
    later cell, under the name of an aligned column, is wider than all known. *)
Theorem C88_stream : forall (Item Val E : Type) c (t : Table Item Val E) items t' lines t2 rows lines2,
  columnWidth t <> None -> (forall n, 0 <= Width t n < 65536) -> BuiltInAll c (Columns (tSpec t)) ->
  Streams c t items t' lines -> Formats c t items t2 rows -> Aligned t2 rows lines2 ->
  t' = t2 /\ List.length lines = List.length lines2 /\
  forall i line line2, nth_error lines i = Some line -> nth_error lines2 i = Some line2 ->
  (line = line2 <-> forall col, In (Some col) (Columns (tSpec t)) -> colAlignment col <> None ->
     forall j row w, (i < j)%nat -> nth_error rows j = Some row ->
     SeenIn c (Columns (tSpec t)) row (colName col) w -> KnownBy c t (Columns (tSpec t)) rows i (colName col) w).
Proof. exact @stream. Qed.
Print Assumptions C88_stream.

(** What can be formatted can be printed so. *)
Theorem C88_total : forall (Item Val E : Type) c items (t : Table Item Val E) t2 rows,
  columnWidth t <> None -> Formats c t items t2 rows -> exists lines, Streams c t items t2 lines.
Proof. exact @streams_total. Qed.
Print Assumptions C88_total.

(** A row aligned at two times. *)
Theorem C88_page : forall (Item Val E : Type) c (t t' : Table Item Val E) row line line',
  tSpec t' = tSpec t -> BuiltInAll c (Columns (tSpec t)) -> ~ In None (Columns (tSpec t)) ->
  (forall n, 0 <= Width t n /\ Width t n <= Width t' n < 65536) ->
  (forall n w, SeenIn c (Columns (tSpec t)) row n w -> w <= Width t n) ->
  snd (AlignFormattedItem t row) = Ok line -> snd (AlignFormattedItem t' row) = Ok line' ->
  line = line' <-> forall col, In (Some col) (Columns (tSpec t)) -> colAlignment col <> None ->
    Width t (colName col) = Width t' (colName col).
Proof. exact @page. Qed.
Print Assumptions C88_page.

(** Widths known beforehand. *)
Theorem C88_known : forall (Item Val E : Type) c (t : Table Item Val E) items rows,
  Forall2 (fun item row => AllOk (cell item) (Columns (tSpec t)) row) items rows ->
  Forall (fun row => forall n w, SeenIn c (Columns (tSpec t)) row n w -> w <= Width t n) rows ->
  forall t' lines, Streams c t items t' lines -> t' = t /\ Aligned t rows lines.
Proof. exact @again. Qed.
Print Assumptions C88_known.

(** As after formatting the same items once, with any results thrown away. *)
Theorem C88_second : forall (Item Val E : Type) c (t : Table Item Val E) items t2 rows t' lines,
  columnWidth t <> None -> Formats c t items t2 rows -> Streams c t2 items t' lines ->
  t' = t2 /\ Aligned t2 rows lines.
Proof. exact @second. Qed.
Print Assumptions C88_second.

Example C88_example : exists t' lines lines2,
  columnWidth exTable <> None /\ (forall n, 0 <= Width exTable n < 65536) /\ BuiltInAll exC (Columns (tSpec exTable))
  /\ Streams exC exTable [exItem2; exItem1] t' lines /\ Formats exC exTable [exItem2; exItem1] t' [exItem2; exItem1]
  /\ Aligned t' [exItem2; exItem1] lines2
  /\ lines = [[lit "x"%string; lit "65536"%string]; [lit "go.mod"%string; lit "   12"%string]]
  /\ lines2 = [[lit "x     "%string; lit "65536"%string]; [lit "go.mod"%string; lit "   12"%string]].
Proof. exact stream_example. Qed.

Example C88_known_example : Streams exC sT0 [exItem2; exItem1] sT0
  [[lit "x     "%string; lit "65536"%string]; [lit "go.mod"%string; lit "   12"%string]].
Proof. exact stream_fine. Qed.
