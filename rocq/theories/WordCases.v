(** * WordCases: C56 in its final form, and a concrete case. *)
From Coq Require Import Strings.String.
From Verif Require Import GoBase Runewidth Width Table TableContract TableExamples Merge MergeSpec MergeTheory MergeExamples MergeWord WordProofs.
From Coq Require Import ZifyBool ZifyNat.
Local Open Scope Z_scope.

Lemma horizontal_same (Item Val E : Type) half maxCap B (t : Table Item Val E) (items : FormattedItemList E) :
  let colN := slen (Columns (tSpec t)) in
  0 <= fiLen items -> 1 <= B -> fiLen items + B < half -> B * colN < half -> B * colN <= maxCap -> B <= maxCap ->
  forall fuel c ok maxWidth sep compact, 65535 + Z.of_nat fuel <= B ->
  MergeRowsHorizontalW half maxCap fuel c t ok items maxWidth sep compact = MergeRowsHorizontal fuel c t ok items maxWidth sep compact.
Proof. intros colN H1 H2 H3 H4 H5 H6 fuel c ok maxWidth sep compact Hf. exact (word_same half maxCap B t items H1 H2 H3 H4 H5 H6 H fuel c ok maxWidth sep compact Hf). Qed.
Lemma vertical_same (Item Val E : Type) half maxCap B (t : Table Item Val E) (items : FormattedItemList E) :
  let colN := slen (Columns (tSpec t)) in
  0 <= fiLen items -> 1 <= B -> fiLen items + B < half -> B * colN < half -> B * colN <= maxCap -> B <= maxCap ->
  forall fuel c ok maxWidth sep compact, 65535 + Z.of_nat fuel <= B ->
  MergeRowsVerticalW half maxCap fuel c t ok items maxWidth sep compact = MergeRowsVertical fuel c t ok items maxWidth sep compact.
Proof. intros colN H1 H2 H3 H4 H5 H6 fuel c ok maxWidth sep compact Hf. exact (word_same half maxCap B t items H1 H2 H3 H4 H5 H6 V fuel c ok maxWidth sep compact Hf). Qed.

Lemma word_example :
  let B := 65535 + 2 ^ 40 in
  (2 ^ 62 + B < 2 ^ 63 /\ B * 50 < 2 ^ 63 /\ B * 50 <= 2 ^ 47 /\ B <= 2 ^ 47)
  /\ (let n := fiLen (listOf mRows) in let colN := slen (Columns (tSpec mTable)) in
      n = 5 /\ colN = 2 /\ 65536 * colN <= 2 ^ 29 /\ n + 2 ^ 29 + colN < 2 ^ 31)
  /\ (forall fuel, stop (MergeRowsHorizontal fuel exC mTable (fun _ => true) (listOf mRows) 65535 mSep true) = Running)
  /\ MergeRowsHorizontalW (2 ^ 31) 25 20 exC mTable (fun _ => true) (listOf mRows) 65535 mSep true
     = {| written := []; stop := Panicked BadCapacity |}.
Proof.
  split; [vm_compute; repeat split; discriminate|]. split; [vm_compute; repeat split; discriminate|]. split.
  - intros fuel. pose proof (horizontal_diverges mPrintable (c := exC) fuel 65535 mSep ltac:(vm_compute; discriminate) (or_introl eq_refl) (fun _ => true)) as K.
    cbn [merge] in K. rewrite K. reflexivity.
  - vm_compute. reflexivity.
Qed.
