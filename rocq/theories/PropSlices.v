(** * PropSlices: the slices merging makes (C101). *)
From Verif Require Import GoBase Runewidth Width AlignSpec Table TableExamples Merge MergeSpec MergeExamples SizeSpec FarCases
  Slices SlicesSpec SlicesProofs SlicesCount SlicesCases.
Local Open Scope Z_scope.

(** C101. Capacities do not show: with slices the functions print and panic as
    they do without, whatever room append gives a full slice. *)
Theorem C101_same : forall (Item Val E : Type) grow m fuel c (t : Table Item Val E) writeOK items maxWidth sep compact,
  snd (mergeA grow m fuel c t writeOK items maxWidth sep compact) = merge m fuel c t writeOK items maxWidth sep compact.
Proof. exact (fun Item Val E grow m fuel c t ok items w sep b => proj1 (@merge_same_made Item Val E grow m fuel c t ok items w sep b)). Qed.
Print Assumptions C101_same.

(** No append ever moves a slice, also where the list, an item or the writer
    fails; no slice is made with negative room. *)
Theorem C101_never_moved : forall (Item Val E : Type) grow m fuel c (t : Table Item Val E) writeOK items maxWidth sep compact,
  OnlyMade (fst (mergeA grow m fuel c t writeOK items maxWidth sep compact)).
Proof. exact (fun Item Val E grow m fuel c t ok items w sep b => proj2 (@merge_same_made Item Val E grow m fuel c t ok items w sep b)). Qed.
Print Assumptions C101_never_moved.

(** Plainly: for each line one for the blocks, and one for the cells of each
    item in it. *)
Theorem C101_plain : forall (Item Val E : Type) grow c (t : Table Item Val E) cols items rows, Printable t cols items rows ->
  forall m fuel sep maxWidth, reckoned t cols sep mod 65536 <> 0 ->
  forall g lines, Z.of_nat g = estimate t cols sep maxWidth -> Layout m g rows lines ->
  fst (mergeA grow m fuel c t (fun _ => true) items maxWidth sep false) = map Made (lines_slots (Z.of_nat g) (slen cols) lines).
Proof. exact @plain_slots. Qed.
Print Assumptions C101_plain.

(** Compactly: before, one for each number of groups tried; an endless search
    makes one longer than the last in every round. *)
Theorem C101_compact : forall (Item Val E : Type) grow c (t : Table Item Val E) cols items rows, Printable t cols items rows ->
  forall m fuel sep maxWidth, reckoned t cols sep mod 65536 <> 0 ->
  forall g0, Z.of_nat g0 = estimate t cols sep maxWidth ->
  let run := merge m fuel c t (fun _ => true) items maxWidth sep true in
  let evs := fst (mergeA grow m fuel c t (fun _ => true) items maxWidth sep true) in
  (stop run = Running /\ evs = map Made (tries_slots g0 fuel (slen cols)))
  \/ stop run = Finished /\ exists g lines tries, Search c cols sep maxWidth m rows g0 g /\ Layout m g rows lines
     /\ ((Worth m rows (S g) /\ tries = S (g - g0)) \/ (~ Worth m rows (S g) /\ tries = (g - g0)%nat))
     /\ evs = map Made (tries_slots g0 tries (slen cols) ++ lines_slots (Z.of_nat g) (slen cols) lines).
Proof. exact @compact_slots. Qed.
Print Assumptions C101_compact.

(** In all: plainly fewer than one for each cell, one for each item and one for
    each group. *)
Theorem C101_plain_total : forall (Item Val E : Type) grow c (t : Table Item Val E) cols items rows, Printable t cols items rows ->
  forall m fuel sep maxWidth, reckoned t cols sep mod 65536 <> 0 -> rows <> [] ->
  exists slots, fst (mergeA grow m fuel c t (fun _ => true) items maxWidth sep false) = map Made slots
    /\ zsum slots = lines_of (slen rows) (estimate t cols sep maxWidth) * estimate t cols sep maxWidth + slen rows * slen cols
    /\ zsum slots < slen rows * (slen cols + 1) + estimate t cols sep maxWidth.
Proof. exact @plain_total. Qed.
Print Assumptions C101_plain_total.

(** Compactly the same for the lines, and for the search a sum that grows with
    the square of the number of tries. *)
Theorem C101_compact_total : forall (Item Val E : Type) grow c (t : Table Item Val E) cols items rows, Printable t cols items rows ->
  forall m fuel sep maxWidth, reckoned t cols sep mod 65536 <> 0 -> rows <> [] ->
  stop (merge m fuel c t (fun _ => true) items maxWidth sep true) = Finished ->
  exists search slots g, fst (mergeA grow m fuel c t (fun _ => true) items maxWidth sep true) = map Made (search ++ slots)
    /\ 2 * zsum search = slen cols * slen search * (2 * estimate t cols sep maxWidth + slen search + 1)
    /\ (g = estimate t cols sep maxWidth + slen search \/ g = estimate t cols sep maxWidth + slen search - 1)
    /\ slen (written (merge m fuel c t (fun _ => true) items maxWidth sep true)) = lines_of (slen rows) g
    /\ zsum slots = lines_of (slen rows) g * g + slen rows * slen cols
    /\ zsum slots < slen rows * (slen cols + 1) + g.
Proof. exact @compact_total. Qed.
Print Assumptions C101_compact_total.

(** Vertically no slice of the search is longer than there are cells. *)
Theorem C101_vertical : forall (Item Val E : Type) grow c (t : Table Item Val E) cols items rows, Printable t cols items rows ->
  forall fuel sep maxWidth, reckoned t cols sep mod 65536 <> 0 -> rows <> [] ->
  stop (merge V fuel c t (fun _ => true) items maxWidth sep true) = Finished ->
  exists search slots g, fst (mergeA grow V fuel c t (fun _ => true) items maxWidth sep true) = map Made (search ++ slots)
    /\ Forall (fun n => n <= slen rows * slen cols) search
    /\ estimate t cols sep maxWidth <= g /\ (g <= estimate t cols sep maxWidth \/ g <= slen rows)
    /\ zsum slots < slen rows * (slen cols + 1) + g.
Proof. exact @compact_vertical_short. Qed.
Print Assumptions C101_vertical.

Example C101_example :
  Printable mTable mCols (listOf mRows) mRows /\ reckoned mTable mCols mSep mod 65536 <> 0 /\ estimate mTable mCols mSep 26 = 2
  /\ map (fun b => fst (mergeA double V 20 exC mTable (fun _ => true) (listOf mRows) 26 mSep b)) [false; true]
     = [map Made [2;2;2; 2;2;2; 2;2]; map Made [6; 3;2;2;2; 3;2;2]]
  /\ fst (mergeA double H 20 exC mTable (fun _ => true) (listOf mRows) 26 mSep true)
     = map Made [6; 8; 10; 4;2;2;2;2; 4;2].
Proof. exact slices_example. Qed.
Example C101_endless_example :
  stop (merge H 4 exC (fTable 80) (fun _ => true) (listOf [[xs 1]]) 65535 fSep true) = Running
  /\ fst (mergeA double H 4 exC (fTable 80) (fun _ => true) (listOf [[xs 1]]) 65535 fSep true) = map Made [2; 3; 4; 5].
Proof. exact endless_example. Qed.

(** That few items need little room is false: one item of one cell may get a
    line with room for thousands; *)
Theorem C101_few_refuted : forall m n grow, 1 <= Z.of_nat n <= 32767 -> exists (t : Table (list str) str str) cols row sep w,
  Printable t cols (listOf [row]) [row] /\ FitsRecorded exC t cols [row] /\ 0 <= w < 65536
  /\ fst (mergeA grow m 1 exC t (fun _ => true) (listOf [row]) w sep false) = map Made [Z.of_nat n; 1].
Proof. exact few. Qed.
Print Assumptions C101_few_refuted.
(** and horizontally the search for more groups goes on for one item until the
    separators fill the line. *)
Theorem C101_horizontal_refuted : exists (t : Table (list str) str str) cols row sep,
  Printable t cols (listOf [row]) [row] /\ FitsRecorded exC t cols [row]
  /\ stop (merge H 100 exC t (fun _ => true) (listOf [row]) 80 sep true) = Finished
  /\ fst (mergeA double H 100 exC t (fun _ => true) (listOf [row]) 80 sep true) = map Made (map Z.of_nat (seq 2 80) ++ [80; 1]).
Proof. exact (ex_intro _ (fTable 80) (ex_intro _ [exName] (ex_intro _ [xs 1] (ex_intro _ fSep horizontal_long)))). Qed.
Print Assumptions C101_horizontal_refuted.
