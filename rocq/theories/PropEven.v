(** * PropEven: what compaction gains on rows of equal widths (C110). *)
From Coq Require Import Strings.String.
From Verif Require Import GoBase Runewidth Width AlignSpec Table TableContract TableExamples
  Merge MergeSpec MergeExamples EvenSpec EvenProofs EvenCases.
Local Open Scope Z_scope.

(** ** C110 *)

(** Horizontally: as many items to a line as fit. *)
Theorem C110_horizontal : forall (Item Val E : Type) c (t : Table Item Val E) cols items rows ws,
  Printable t cols items rows -> Even c cols ws rows ->
  forall maxWidth sep fuel, reckoned t cols sep mod 65536 <> 0 -> 0 <= maxWidth -> 0 < room cols ws sep ->
  let g0 := estimate t cols sep maxWidth in let g1 := fitting cols ws sep maxWidth in
  (Z.max g0 g1 + 1) * room cols ws sep - slen sep < 65536 -> Z.max g0 g1 < slen rows -> Z.max g0 g1 - g0 < Z.of_nat fuel ->
  exists lines, Layout H (Z.to_nat (Z.max g0 g1)) rows lines
    /\ merge H fuel c t (fun _ => true) items maxWidth sep true
       = {| written := printed c cols sep (fun _ => if g0 <? g1 then ws else recorded t cols) (Z.to_nat (Z.max g0 g1)) lines; stop := Finished |}.
Proof. exact @even_horizontal. Qed.
Print Assumptions C110_horizontal.

(** Vertically: as many as fit, but no further than each group is used. *)
Theorem C110_vertical : forall (Item Val E : Type) c (t : Table Item Val E) cols items rows ws,
  Printable t cols items rows -> Even c cols ws rows ->
  forall maxWidth sep fuel, reckoned t cols sep mod 65536 <> 0 -> 0 <= maxWidth -> 0 < room cols ws sep ->
  let g0 := estimate t cols sep maxWidth in let g1 := fitting cols ws sep maxWidth in
  (Z.max g0 g1 + 1) * room cols ws sep - slen sep < 65536 -> (1 <= fuel)%nat -> (List.length rows <= fuel)%nat ->
  exists g lines, g0 <= Z.of_nat g <= Z.max g0 g1 /\ (forall g', g0 < Z.of_nat g' <= Z.of_nat g -> Worth V rows g')
    /\ (Z.of_nat g = Z.max g0 g1 \/ ~ Worth V rows (S g)) /\ Layout V g rows lines
    /\ merge V fuel c t (fun _ => true) items maxWidth sep true
       = {| written := printed c cols sep (fun _ => if g0 <? Z.of_nat g then ws else recorded t cols) g lines; stop := Finished |}.
Proof. exact @even_vertical. Qed.
Print Assumptions C110_vertical.

Example C110_example : Printable mTable mCols (listOf evenRows) evenRows /\ Even exC mCols [1; 1] evenRows
  /\ reckoned mTable mCols mSep mod 65536 <> 0 /\ 0 < room mCols [1; 1] mSep
  /\ estimate mTable mCols mSep 16 = 1 /\ fitting mCols [1; 1] mSep 16 = 3 /\ (3 + 1) * room mCols [1; 1] mSep - slen mSep < 65536
  /\ 3 < slen evenRows
  /\ written (merge H 9 exC mTable (fun _ => true) (listOf evenRows) 16 mSep true)
     = [lit "a 1 |b 2 |c 3"%string ++ [x0a]; lit "d 4 |e 5 |"%string ++ [x0a]]
  /\ written (merge V 9 exC mTable (fun _ => true) (listOf evenRows) 16 mSep true)
     = [lit "a 1 |c 3 |e 5"%string ++ [x0a]; lit "b 2 |d 4 |"%string ++ [x0a]].
Proof. exact even_example. Qed.

(** The number of lines. *)
Theorem C110_lines : forall (Item Val E : Type) c (t : Table Item Val E) cols items rows ws,
  Printable t cols items rows -> Even c cols ws rows ->
  forall maxWidth sep fuel, reckoned t cols sep mod 65536 <> 0 -> 0 <= maxWidth -> 0 < room cols ws sep ->
  let g := Z.max (estimate t cols sep maxWidth) (fitting cols ws sep maxWidth) in
  (g + 1) * room cols ws sep - slen sep < 65536 -> g < slen rows -> g - estimate t cols sep maxWidth < Z.of_nat fuel ->
  slen (written (merge H fuel c t (fun _ => true) items maxWidth sep true)) = (slen rows + g - 1) / g.
Proof. exact @even_lines. Qed.
Print Assumptions C110_lines.

(** Nothing gained: one byte or one column, and cells as wide as recorded. *)
Theorem C110_same : forall (Item Val E : Type) c (t : Table Item Val E) cols items rows m fuel maxWidth sep,
  Printable t cols items rows -> Even c cols (recorded t cols) rows -> slen sep = 1 \/ slen cols = 1 ->
  0 <= maxWidth -> maxWidth + slen sep < 65536 -> 0 < reckoned t cols sep < 65536 ->
  (estimate t cols sep maxWidth + 1) * reckoned t cols sep - slen sep < 65536 ->
  (m = H -> estimate t cols sep maxWidth < slen rows) -> (1 <= fuel)%nat ->
  merge m fuel c t (fun _ => true) items maxWidth sep true = merge m fuel c t (fun _ => true) items maxWidth sep false.
Proof. exact @even_same. Qed.
Print Assumptions C110_same.

Example C110_same_example : Printable mTable mCols (listOf fullRows) fullRows /\ Even exC mCols (recorded mTable mCols) fullRows
  /\ slen bar = 1 /\ 0 < reckoned mTable mCols bar < 65536 /\ estimate mTable mCols bar 21 = 2
  /\ (2 + 1) * reckoned mTable mCols bar - slen bar < 65536 /\ 2 < slen fullRows
  /\ written (merge H 9 exC mTable (fun _ => true) (listOf fullRows) 21 bar true)
     = [lit "go.mod 12|go.sum 34"%string ++ [x0a]; lit "README 56|"%string ++ [x0a]].
Proof. exact same_example. Qed.

(** A longer separator: compaction gains although no cell is narrower than recorded. *)
Theorem C110_separator_refuted : exists (t : Table (list str) str str) cols rows sep, Printable t cols (listOf rows) rows
  /\ Even exC cols (recorded t cols) rows /\ slen sep = 2 /\ slen cols = 2 /\ estimate t cols sep 20 = 1 /\ fitting cols (recorded t cols) sep 20 = 2
  /\ slen (written (merge H 9 exC t (fun _ => true) (listOf rows) 20 sep false)) = 3
  /\ slen (written (merge H 9 exC t (fun _ => true) (listOf rows) 20 sep true)) = 2.
Proof. exact wide_separator. Qed.
Print Assumptions C110_separator_refuted.

(** Items that all fit: compaction adds a separator at the end of the line. *)
Theorem C110_last_refuted : exists (t : Table (list str) str str) cols rows sep, Printable t cols (listOf rows) rows
  /\ Even exC cols (recorded t cols) rows /\ slen sep = 1 /\ 0 < reckoned t cols sep < 65536 /\ estimate t cols sep 21 = slen rows
  /\ written (merge H 9 exC t (fun _ => true) (listOf rows) 21 sep false) = [lit "go.mod 12|go.sum 34"%string ++ [x0a]]
  /\ written (merge H 9 exC t (fun _ => true) (listOf rows) 21 sep true) = [lit "go.mod 12|go.sum 34|"%string ++ [x0a]].
Proof. exact last_separator. Qed.
Print Assumptions C110_last_refuted.
