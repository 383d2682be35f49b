(** * PropWord: merging with machine integers (C56). *)
From Coq Require Import Strings.String.
From Verif Require Import GoBase Runewidth Width Table TableContract TableExamples Merge MergeSpec MergeExamples MergeWord WordProofs WordCases.
Local Open Scope Z_scope.

(** ** C56: machine integers *)

(** [B] bounds the number of groups tried. *)
Theorem C56_horizontal : forall (Item Val E : Type) half maxCap B (t : Table Item Val E) (items : FormattedItemList E),
  let colN := slen (Columns (tSpec t)) in
  0 <= fiLen items -> 1 <= B -> fiLen items + B < half -> B * colN < half -> B * colN <= maxCap -> B <= maxCap ->
  forall fuel c ok maxWidth sep compact, 65535 + Z.of_nat fuel <= B ->
  MergeRowsHorizontalW half maxCap fuel c t ok items maxWidth sep compact = MergeRowsHorizontal fuel c t ok items maxWidth sep compact.
Proof. exact horizontal_same. Qed.
Print Assumptions C56_horizontal.

Theorem C56_vertical : forall (Item Val E : Type) half maxCap B (t : Table Item Val E) (items : FormattedItemList E),
  let colN := slen (Columns (tSpec t)) in
  0 <= fiLen items -> 1 <= B -> fiLen items + B < half -> B * colN < half -> B * colN <= maxCap -> B <= maxCap ->
  forall fuel c ok maxWidth sep compact, 65535 + Z.of_nat fuel <= B ->
  MergeRowsVerticalW half maxCap fuel c t ok items maxWidth sep compact = MergeRowsVertical fuel c t ok items maxWidth sep compact.
Proof. exact vertical_same. Qed.
Print Assumptions C56_vertical.

(** The searches without end of C37 end in a panic of [make]. *)
Theorem C56_endless : forall (Item Val E : Type) half maxCap (t : Table Item Val E) (items : FormattedItemList E) c,
  let colN := slen (Columns (tSpec t)) in
  0 <= fiLen items -> 1 <= colN -> 65536 * colN <= maxCap -> fiLen items + maxCap + colN < half ->
  forall ok maxWidth sep,
  (forall fuel, stop (MergeRowsHorizontal fuel c t ok items maxWidth sep true) = Running) ->
  exists rounds, forall fuel, (rounds <= fuel)%nat ->
  MergeRowsHorizontalW half maxCap fuel c t ok items maxWidth sep true = {| written := []; stop := Panicked BadCapacity |}.
Proof. exact @endless. Qed.
Print Assumptions C56_endless.

(** 64-bit integers, slices of up to 2^47 elements, 2^62 items, 50 columns and
    2^40 rounds are within the bounds; so are the five rows of C32 with 32 bits,
    and there maxWidth 65535 is a search without end. *)
Example C56_example :
  let B := 65535 + 2 ^ 40 in
  (2 ^ 62 + B < 2 ^ 63 /\ B * 50 < 2 ^ 63 /\ B * 50 <= 2 ^ 47 /\ B <= 2 ^ 47)
  /\ (let n := fiLen (listOf mRows) in let colN := slen (Columns (tSpec mTable)) in
      n = 5 /\ colN = 2 /\ 65536 * colN <= 2 ^ 29 /\ n + 2 ^ 29 + colN < 2 ^ 31)
  /\ (forall fuel, stop (MergeRowsHorizontal fuel exC mTable (fun _ => true) (listOf mRows) 65535 mSep true) = Running)
  /\ MergeRowsHorizontalW (2 ^ 31) 25 20 exC mTable (fun _ => true) (listOf mRows) 65535 mSep true
     = {| written := []; stop := Panicked BadCapacity |}.
Proof. exact word_example. Qed.
