(** * PropSize: the bytes merged rows take (C99). *)
From Verif Require Import GoBase Runewidth Width TextSpec AlignSpec Table TableExamples Merge MergeSpec MergeExamples SizeSpec SizeProofs SizeCases.
Local Open Scope Z_scope.

(** C99. Not compact: the items at their recorded widths, the separators, a
    newline for each line. *)
Theorem C99_plain : forall (Item Val E : Type) c (t : Table Item Val E) cols items rows,
  Printable t cols items rows -> Forall (BuiltIn c) cols -> (forall name, 0 <= Width t name < 65536) -> rows <> [] ->
  forall m fuel sep maxWidth, reckoned t cols sep mod 65536 <> 0 ->
  let r := merge m fuel c t (fun _ => true) items maxWidth sep false in
  slen (written r) = lines_of (slen rows) (estimate t cols sep maxWidth)
  /\ size (written r) = size_of sep m (slen rows) (estimate t cols sep maxWidth) (zsum (map (row_bytes c (recorded t cols)) rows)).
Proof. exact @plain_size. Qed.
Print Assumptions C99_plain.

(** Whatever is printed: each item at the widths of its group. *)
Theorem C99_exact : forall (Item Val E : Type) c (t : Table Item Val E) cols items rows,
  Printable t cols items rows -> Forall (BuiltIn c) cols -> (forall name, 0 <= Width t name < 65536) -> rows <> [] ->
  forall m sep maxWidth compact g lines W, reckoned t cols sep mod 65536 <> 0 ->
  Plan c t cols sep maxWidth m rows compact g lines W ->
  size (printed c cols sep W g lines) = size_of sep m (slen rows) (Z.of_nat g)
    (zsum (map (fun line => zsum (map (fun p => row_bytes c (W (fst p)) (snd p)) (combine (seq 0 (length line)) line))) lines)).
Proof. exact @plan_size. Qed.
Print Assumptions C99_exact.

(** Compact: at least as many groups, and items between their bare texts and
    their recorded widths. *)
Theorem C99_compact : forall (Item Val E : Type) c (t : Table Item Val E) cols items rows,
  Printable t cols items rows -> Forall (BuiltIn c) cols -> (forall name, 0 <= Width t name < 65536) -> rows <> [] ->
  forall m fuel sep maxWidth, reckoned t cols sep mod 65536 <> 0 -> FitsRecorded c t cols rows ->
  let r := merge m fuel c t (fun _ => true) items maxWidth sep true in
  stop r = Finished ->
  exists g content, estimate t cols sep maxWidth <= g /\ slen (written r) = lines_of (slen rows) g
    /\ size (written r) = size_of sep m (slen rows) g content
    /\ zsum (map (bare_bytes (slen cols)) rows) <= content <= zsum (map (row_bytes c (recorded t cols)) rows).
Proof. exact @compact_size. Qed.
Print Assumptions C99_compact.

(** Compact against plain: what the saved lines cost in longer separators. *)
Theorem C99_compact_against_plain : forall (Item Val E : Type) c (t : Table Item Val E) cols items rows,
  Printable t cols items rows -> Forall (BuiltIn c) cols -> (forall name, 0 <= Width t name < 65536) -> rows <> [] ->
  forall m fuel fuel' sep maxWidth, reckoned t cols sep mod 65536 <> 0 -> FitsRecorded c t cols rows ->
  let r := merge m fuel c t (fun _ => true) items maxWidth sep true in
  let p := merge m fuel' c t (fun _ => true) items maxWidth sep false in
  stop r = Finished ->
  size (written r) <= size (written p) + (slen sep - 1) * (slen (written p) - slen (written r))
    + slen sep * (match m with H => 1 | V => slen (written r) end).
Proof. exact @compact_against_plain. Qed.
Print Assumptions C99_compact_against_plain.

Theorem C99_compact_larger_refuted : exists (t : Table (list str) str str) cols rows sep w,
  Printable t cols (listOf rows) rows /\ FitsRecorded exC t cols rows /\ reckoned t cols sep mod 65536 <> 0
  /\ map (fun b => let r := MergeRowsHorizontal 9 exC t (fun _ => true) (listOf rows) w sep b in (slen (written r), size (written r), stop r)) [true; false]
     = [(3, 66, Finished); (4, 64, Finished)].
Proof. exact compact_larger. Qed.
Print Assumptions C99_compact_larger_refuted.

(** A separator of one byte: the width of the screen makes at most one byte. *)
Theorem C99_any_screen : forall (Item Val E : Type) c (t : Table Item Val E) cols items rows,
  Printable t cols items rows -> Forall (BuiltIn c) cols -> (forall name, 0 <= Width t name < 65536) -> rows <> [] ->
  forall fuel fuel' sep maxWidth maxWidth', slen sep = 1 -> reckoned t cols sep mod 65536 <> 0 ->
  let r w f := merge H f c t (fun _ => true) items w sep false in
  Z.abs (size (written (r maxWidth fuel)) - size (written (r maxWidth' fuel'))) <= 1.
Proof. exact @width_matters_little. Qed.
Print Assumptions C99_any_screen.

Theorem C99_any_screen_vertical_refuted : exists (t : Table (list str) str str) cols rows sep,
  Printable t cols (listOf rows) rows /\ FitsRecorded exC t cols rows /\ slen sep = 1 /\ reckoned t cols sep mod 65536 <> 0
  /\ map (fun w => let r := MergeRowsVertical 9 exC t (fun _ => true) (listOf rows) w sep false in (slen (written r), size (written r), stop r)) [3; 5]
     = [(2, 8, Finished); (2, 10, Finished)].
Proof. exact vertical_wider. Qed.
Print Assumptions C99_any_screen_vertical_refuted.

(** Five items, two to a line: 46 bytes of items, 3 separators of 2 bytes, 3
    newlines. The hypotheses are those of C34_example. *)
Example C99_example :
  map (fun b => map (fun m => let r := merge m 20 exC mTable (fun _ => true) (listOf mRows) 26 mSep b in (slen (written r), size (written r), stop r)) [H; V]) [false; true]
  = [[(3, 55, Finished); (3, 55, Finished)]; [(2, 40, Finished); (2, 40, Finished)]]
  /\ zsum (map (row_bytes exC (recorded mTable mCols)) mRows) = 46 /\ zsum (map (bare_bytes 2) mRows) = 24
  /\ slen mRows = 5 /\ slen mSep = 2 /\ estimate mTable mCols mSep 26 = 2 /\ lines_of 5 2 = 3 /\ short_of H 5 2 = 1 /\ short_of V 5 2 = 1
  /\ separators H 5 2 = 3 /\ short_of V 5 4 = 2 /\ short_of V 4 3 = 2 /\ short_of H 6 2 = 0.
Proof. exact size_example. Qed.
