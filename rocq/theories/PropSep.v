(** * PropSep: of a separator the layout takes the number of bytes (C92). *)
From Coq Require Import Strings.String.
From Verif Require Import GoBase Runewidth Width AlignSpec Table Merge TableContract TableExamples
  MergeSpec MergeExamples MergeScreens MergeRecorded GrowSpec PickCases SepProofs SepCases.
Local Open Scope Z_scope.

(** Another separator of as many bytes: the same lines, with the other separator. *)
Theorem C92_same : forall (Item Val E : Type) c (t : Table Item Val E) cols items rows, Printable t cols items rows ->
  forall sep sep', List.length sep' = List.length sep -> forall m fuel ok w compact,
  let r := merge m fuel c t ok items w sep compact in
  let r' := merge m fuel c t ok items w sep' compact in
  stop r' = stop r /\ List.length (written r') = List.length (written r)
  /\ exists g lines W, (1 <= g)%nat /\ Layout m g rows lines
     /\ written r = firstn (List.length (written r)) (printed c cols sep W g lines)
     /\ written r' = firstn (List.length (written r)) (printed c cols sep' W g lines)
     /\ (stop r = Finished -> List.length (written r) = List.length lines).
Proof. exact @same_length. Qed.
Print Assumptions C92_same.

(** More bytes: never fewer lines. *)
Theorem C92_longer : forall (Item Val E : Type) c (t : Table Item Val E) cols items rows, Printable t cols items rows ->
  forall m fuel fuel' sep sep' w compact, rows <> [] -> (List.length sep <= List.length sep')%nat ->
  (forall col, In col cols -> 0 <= Width t (colName col)) ->
  reckoned t cols sep' < 65536 -> effective w + slen sep' < 65536 -> Narrow c cols sep' m rows ->
  let r := merge m fuel c t (fun _ => true) items w sep compact in
  let r' := merge m fuel' c t (fun _ => true) items w sep' compact in
  stop r = Finished -> stop r' = Finished -> (List.length (written r) <= List.length (written r'))%nat.
Proof. exact @longer. Qed.
Print Assumptions C92_longer.

Example C92_example :
  Printable mTable mCols (listOf sRows) sRows /\ List.length sSlash = List.length mSep
  /\ with_sep H mSep 20 = (lines ["go.mod 12 |x 3 |ab 7"; "c       9 |"]%string, Finished)
  /\ with_sep H sSlash 20 = (lines ["go.mod 12 /x 3 /ab 7"; "c       9 /"]%string, Finished)
  /\ (List.length mSep <= List.length sLong)%nat /\ (forall col, In col mCols -> 0 <= Width mTable (colName col))
  /\ reckoned mTable mCols sLong < 65536 /\ effective 14 + slen sLong < 65536 /\ Narrow exC mCols sLong H sRows /\ Narrow exC mCols sLong V sRows
  /\ with_sep H mSep 14 = (lines ["go.mod 12 |x 3"; "ab      7 |c 9"]%string, Finished)
  /\ with_sep H sLong 14 = (lines ["go.mod 12"; "x       3"; "ab      7"; "c       9"]%string, Finished)
  /\ with_sep V sLong 14 = with_sep H sLong 14.
Proof. exact sep_example. Qed.

(** Two separators one cell wide, and more lines with one of them. *)
Theorem C92_bytes_refuted : forall m compact, exists (t : Table (list str) str str) cols rows sep sep' w,
  Printable t cols (listOf rows) rows /\ FitsRecorded exC t cols rows /\ vwidth exC sep = 1 /\ vwidth exC sep' = 1
  /\ Narrow exC cols sep' m rows /\ reckoned t cols sep' < 65536
  /\ ends m t rows w sep compact = (1%nat, Finished) /\ ends m t rows w sep' compact = (2%nat, Finished).
Proof. exact bytes_refuted. Qed.
Print Assumptions C92_bytes_refuted.

(** Past 16 bits a longer separator can give fewer lines. *)
Theorem C92_wrap_refuted : forall m, exists (t : Table (list str) str str) cols rows sep sep' w compact,
  Printable t cols (listOf rows) rows /\ (forall col, In col cols -> 0 <= Width t (colName col) < 65536)
  /\ (List.length sep < List.length sep')%nat /\ effective w + slen sep' < 65536
  /\ ends m t rows w sep compact = (4%nat, Finished) /\ ends m t rows w sep' compact = (1%nat, Finished).
Proof. exact wrap_refuted. Qed.
Print Assumptions C92_wrap_refuted.
