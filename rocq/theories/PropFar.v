(** * PropFar: how far the compact search gets (C94). *)
From Coq Require Import Strings.String.
From Verif Require Import GoBase Runewidth Width AlignSpec Table Merge TableContract TableExamples MergeSpec MergeExamples
  FarSpec FarProofs FarCases.
Local Open Scope Z_scope.

(** The vertical search goes on only while each group saves a line. *)
Theorem C94_saves : forall (rows : list (list str)) g, rows <> [] -> (1 <= g)%nat ->
  (Worth V rows (S g) <-> forall lines lines', Layout V g rows lines -> Layout V (S g) rows lines' -> (List.length lines' < List.length lines)%nat).
Proof. exact @vertical_worth. Qed.
Print Assumptions C94_saves.

(** So, however wide the screen: with n items in L lines, L is about the root of n/2 or more,
    or the estimate gave hardly more lines. *)
Theorem C94_vertical : forall Item Val E c (t : Table Item Val E) cols items rows, Printable t cols items rows -> rows <> [] ->
  forall fuel w sep, reckoned t cols sep mod 65536 <> 0 ->
  let r := merge V fuel c t (fun _ => true) items w sep true in stop r = Finished ->
  let n := slen rows in let L := slen (written r) in
  n <= L * (estimate t cols sep w + 1) \/ (n - L) * (n - L) < 2 * n * (L * L).
Proof. exact @vertical_far. Qed.
Print Assumptions C94_vertical.

(** Also where all items fit in one line, as the horizontal search finds. *)
Theorem C94_root : forall n, 1 <= Z.of_nat n <= 32767 -> exists (t : Table (list str) str str) cols (rows : list (list str)) sep w,
  Printable t cols (listOf rows) rows /\ FitsRecorded exC t cols rows /\ slen rows = Z.of_nat n /\ 0 <= w < 65536
  /\ FitsIn exC cols sep w V rows n /\ (forall lines, Layout V n rows lines -> List.length lines = 1%nat)
  /\ (exists fuel, let r := merge V fuel exC t (fun _ => true) (listOf rows) w sep true in
      stop r = Finished /\ let L := slen (written r) in (Z.of_nat n - L) * (Z.of_nat n - L) < 2 * Z.of_nat n * (L * L))
  /\ exists fuel, let r := merge H fuel exC t (fun _ => true) (listOf rows) w sep true in
     stop r = Finished /\ List.length (written r) = 1%nat.
Proof. exact root. Qed.
Print Assumptions C94_root.

(** A hundred items of one letter. *)
Example C94_hundred :
  Printable (fTable 200) [exName] (listOf (oneRows 100)) (oneRows 100) /\ Narrowing exC [exName] (oneRows 100)
  /\ reckoned (fTable 200) [exName] fSep mod 65536 <> 0
  /\ FitsIn exC [exName] fSep 300 V (oneRows 100) 100
  /\ (let r := merge V 300 exC (fTable 200) (fun _ => true) (listOf (oneRows 100)) 300 fSep true in stop r = Finished /\ List.length (written r) = 10%nat)
  /\ (let r := merge H 300 exC (fTable 200) (fun _ => true) (listOf (oneRows 100)) 300 fSep true in stop r = Finished /\ List.length (written r) = 1%nat).
Proof. exact hundred. Qed.

(** If cells get no wider down the list, the horizontal search finds the best layout. *)
Theorem C94_horizontal_best : forall Item Val E c (t : Table Item Val E) cols items rows, Printable t cols items rows -> rows <> [] -> Narrowing c cols rows ->
  forall fuel w sep, reckoned t cols sep mod 65536 <> 0 ->
  let r := merge H fuel c t (fun _ => true) items w sep true in stop r = Finished ->
  forall g lines, (1 <= g)%nat -> Layout H g rows lines -> FitsIn c cols sep (effective w) H rows g -> (List.length (written r) <= List.length lines)%nat.
Proof. exact @horizontal_best. Qed.
Print Assumptions C94_horizontal_best.

(** And the vertical one, unless one group more saved no line. *)
Theorem C94_vertical_best : forall Item Val E c (t : Table Item Val E) cols items rows, Printable t cols items rows -> rows <> [] -> Narrowing c cols rows ->
  forall fuel w sep, reckoned t cols sep mod 65536 <> 0 ->
  let r := merge V fuel c t (fun _ => true) items w sep true in stop r = Finished ->
  (exists g lines, (1 <= g)%nat /\ List.length lines = List.length (written r) /\ Layout V g rows lines
     /\ forall lines', Layout V (S g) rows lines' -> List.length lines' = List.length lines)
  \/ forall g lines, (1 <= g)%nat -> Layout V g rows lines -> FitsIn c cols sep (effective w) V rows g -> (List.length (written r) <= List.length lines)%nat.
Proof. exact @vertical_best. Qed.
Print Assumptions C94_vertical_best.

(** Widths 9, 7, 5, 5, 2, 1. *)
Example C94_best_example :
  Printable (fTable 9) [exName] (listOf downRows) downRows /\ Narrowing exC [exName] downRows
  /\ (let r := merge H 9 exC (fTable 9) (fun _ => true) (listOf downRows) 22 fSep true in stop r = Finished /\ List.length (written r) = 3%nat)
  /\ (let r := merge V 9 exC (fTable 9) (fun _ => true) (listOf downRows) 19 fSep true in stop r = Finished /\ List.length (written r) = 2%nat)
  /\ FitsIn exC [exName] fSep 19 V downRows 3 /\ ~ FitsIn exC [exName] fSep 22 H downRows 3.
Proof. exact down. Qed.

(** Otherwise it can stop at once and print one item a line, although d of them fit, for
    each odd d up to 16383. *)
Theorem C94_missed_refuted : forall m d, Nat.Odd d -> 3 <= Z.of_nat d <= 16383 ->
  exists (t : Table (list str) str str) cols (rows : list (list str)) sep w,
  Printable t cols (listOf rows) rows /\ FitsRecorded exC t cols rows /\ List.length rows = (2 * d)%nat /\ 0 <= w < 65536
  /\ FitsIn exC cols sep w m rows d /\ (forall lines, Layout m d rows lines -> List.length lines = 2%nat)
  /\ exists fuel, let r := merge m fuel exC t (fun _ => true) (listOf rows) w sep true in
     stop r = Finished /\ List.length (written r) = (2 * d)%nat.
Proof. exact missed. Qed.
Print Assumptions C94_missed_refuted.
