(** * PropEndless: exactly when the compact search of MergeRowsHorizontal has no end (C85). *)
From Coq Require Import Strings.String.
From Verif Require Import GoBase Runewidth Width AlignSpec Table Merge TableContract TableExamples MergeSpec MergeExamples
  EndlessSpec EndlessProofs EndlessCases.
Local Open Scope Z_scope.

Theorem C85_endless : forall (Item Val E : Type) c (t : Table Item Val E) cols items rows, Printable t cols items rows ->
  forall maxWidth sep g0, reckoned t cols sep mod 65536 <> 0 -> Z.of_nat g0 = estimate t cols sep maxWidth ->
  ((forall fuel, stop (MergeRowsHorizontal fuel c t (fun _ => true) items maxWidth sep true) = Running) <->
   (forall g, (g0 < g <= List.length rows)%nat -> Acceptable c cols sep maxWidth H rows g)
   /\ summit c cols sep rows <= effective maxWidth).
Proof. exact @endless_iff. Qed.
Print Assumptions C85_endless.

Example C85_endless_example : Printable mTable mCols (listOf fewerRows) fewerRows
  /\ reckoned mTable mCols bar mod 65536 = 10 /\ estimate mTable mCols bar 65534 = 6553
  /\ stride mCols bar = 2 /\ grain mCols bar = 2 /\ cells_width exC mCols fewerRows = 17
  /\ summit exC mCols bar fewerRows = 65534 /\ effective 65534 = 65534.
Proof. exact endless_example. Qed.

(** It goes on for ever, or ends within as many steps as there are items and multiples of the grain. *)
Theorem C85_soon : forall (Item Val E : Type) c (t : Table Item Val E) cols items rows, Printable t cols items rows ->
  forall maxWidth sep fuel fuel', reckoned t cols sep mod 65536 <> 0 ->
  stop (MergeRowsHorizontal fuel c t (fun _ => true) items maxWidth sep true) <> Running ->
  slen rows + 65536 / grain cols sep < Z.of_nat fuel' ->
  stop (MergeRowsHorizontal fuel' c t (fun _ => true) items maxWidth sep true) = Finished.
Proof. exact @ends_soon. Qed.
Print Assumptions C85_soon.

Theorem C85_above : forall (Item Val E : Type) c (t : Table Item Val E) cols items rows, Printable t cols items rows ->
  forall maxWidth sep, reckoned t cols sep mod 65536 <> 0 -> effective maxWidth < summit c cols sep rows ->
  forall fuel, slen rows + 65536 / grain cols sep < Z.of_nat fuel ->
  stop (MergeRowsHorizontal fuel c t (fun _ => true) items maxWidth sep true) = Finished.
Proof. exact @ends_above. Qed.
Print Assumptions C85_above.

Theorem C85_fine : forall (Item Val E : Type) c (t : Table Item Val E) cols items rows, Printable t cols items rows ->
  forall maxWidth sep, reckoned t cols sep mod 65536 <> 0 -> grain cols sep <= 65535 - effective maxWidth ->
  forall fuel, slen rows + 65536 / grain cols sep < Z.of_nat fuel ->
  stop (MergeRowsHorizontal fuel c t (fun _ => true) items maxWidth sep true) = Finished.
Proof. exact @ends_fine. Qed.
Print Assumptions C85_fine.

Theorem C85_odd : forall (Item Val E : Type) c (t : Table Item Val E) cols items rows, Printable t cols items rows ->
  forall maxWidth sep, reckoned t cols sep mod 65536 <> 0 -> Z.odd (stride cols sep) = true ->
  effective maxWidth <> 65535 -> forall fuel, slen rows + 65536 < Z.of_nat fuel ->
  stop (MergeRowsHorizontal fuel c t (fun _ => true) items maxWidth sep true) = Finished.
Proof. exact @ends_odd. Qed.
Print Assumptions C85_odd.

Example C85_ends_example : Printable mTable mCols (listOf mRows) mRows
  /\ cells_width exC mCols mRows = 18 /\ summit exC mCols bar mRows = 65535 /\ slen mRows + 65536 / grain mCols bar = 32773
  /\ grain mCols mSep = 1 /\ grain mCols bar <= 65535 - effective 65533.
Proof. exact ends_example. Qed.

(** One character more in one item, and the search ends. *)
Theorem C85_length_refuted : exists (rows rows' : list (list str)),
  List.length rows = List.length rows' /\ cells_width exC mCols rows' = cells_width exC mCols rows + 1
  /\ Printable mTable mCols (listOf rows) rows /\ Printable mTable mCols (listOf rows') rows'
  /\ (forall fuel, stop (MergeRowsHorizontal fuel exC mTable (fun _ => true) (listOf rows) 65534 bar true) = Running)
  /\ (exists fuel, stop (MergeRowsHorizontal fuel exC mTable (fun _ => true) (listOf rows') 65534 bar true) = Finished).
Proof. exact length_refuted. Qed.
Print Assumptions C85_length_refuted.
