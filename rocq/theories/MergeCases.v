(** * MergeCases: lemmas on the concrete table of MergeExamples. *)
From Coq Require Import Strings.String.
From Verif Require Import GoBase Utf8 Runewidth ConditionSpec Width TextSpec AlignSpec Table TableContract TableExamples
  Merge MergeSpec MergeLayout MergeSearch MergeTheory MergeExamples.
From Coq Require Import ZifyBool ZifyNat.
Local Open Scope Z_scope.

Lemma fit_example : Printable mTable mCols (listOf mRows) mRows /\ Reachable exC /\ Forall (BuiltIn exC) mCols
  /\ IsolatedCells mCols mRows /\ (forall name, 0 <= Width mTable name < 65536) /\ Separates mSep
  /\ reckoned mTable mCols mSep = 12 /\ zsum (recorded mTable mCols) + slen mCols - 1 = 9
  /\ FitsRecorded exC mTable mCols mRows.
Proof.
  split; [apply mPrintable|]. split; [apply r_fresh|]. split; [apply mBuiltIn|]. split; [apply mIsolated|].
  split; [apply mWidths|]. split; [apply mSeparates|]. split; [reflexivity|]. split; [reflexivity|]. apply mFits.
Qed.

Lemma empty_separator : exists (t : Table (list str) str str) cols rows maxWidth,
  Printable t cols (listOf rows) rows /\ Forall (BuiltIn exC) cols /\ IsolatedCells cols rows /\ FitsRecorded exC t cols rows
  /\ zsum (recorded t cols) + slen cols - 1 <= maxWidth /\ maxWidth < 65536
  /\ exists line, In (line ++ [x0a]) (written (merge H 1 exC t (fun _ => true) (listOf rows) maxWidth [] false))
     /\ maxWidth < vwidth exC line.
Proof.
  exists mTable, mCols, mRows, 16. split; [apply mPrintable|]. split; [apply mBuiltIn|]. split; [apply mIsolated|].
  split; [apply mFits|]. split; [vm_compute; discriminate|]. split; [lia|].
  exists (lit "go.mod 12x       3"%string). split; [left; vm_compute; reflexivity|]. vm_compute. reflexivity.
Qed.

Lemma compact_example : exists g, Search exC mCols mSep 26 H mRows 2 g /\ (2 < g < 2 + 20)%nat
  /\ Z.of_nat 2 = estimate mTable mCols mSep 26
  /\ (forall w, CompactTotal exC mCols mSep H mRows g w -> w < 65536)
  /\ map (vwidth exC) (written (merge H 20 exC mTable (fun _ => true) (listOf mRows) 26 mSep true)) = [26; 11].
Proof.
  exists 4%nat. split; [|split; [lia|split; [reflexivity|split]]].
  - split; [lia|]. split.
    + intros g' Hg'. apply (acceptable_dec 26 mSep H 2); [lia|lia|].
      destruct (Nat.eq_dec g' 3) as [->|Hne]; [vm_compute; reflexivity|]. replace g' with 4%nat by lia. vm_compute. reflexivity.
    + intros HA. apply (acceptable_dec 26 mSep H 2) in HA; [|lia|lia]. vm_compute in HA. discriminate.
  - intros w Hw. apply CompactTotal_is in Hw; [|lia]. subst w. vm_compute. reflexivity.
  - vm_compute. reflexivity.
Qed.

Lemma search_example :
  (reckoned mTable mCols mSep mod 65536 <> 0 /\ 1 <= slen mSep + slen mCols - 1 <= 65535 - effective 26
   /\ stop (MergeRowsHorizontal 3 exC mTable (fun _ => true) (listOf mRows) 26 mSep true) = Finished)
  /\ effective 65535 = 65535 /\ effective 100000 = 65535 /\ effective (-1) = 65535
  /\ stop (MergeRowsHorizontal 3 exC mTable (fun _ => true) (listOf mRows) (-1) mSep true) = Running.
Proof.
  split.
  - split; [vm_compute; discriminate|]. split; [split; vm_compute; discriminate|]. vm_compute. reflexivity.
  - repeat (split; [reflexivity|]).
    assert (K := horizontal_diverges mPrintable (c := exC) 3 (-1) mSep ltac:(vm_compute; discriminate) (or_introl eq_refl) (fun _ => true)).
    change (MergeRowsHorizontal 3 exC mTable (fun _ => true) (listOf mRows) (-1) mSep true) with (merge H 3 exC mTable (fun _ => true) (listOf mRows) (-1) mSep true).
    rewrite K. reflexivity.
Qed.
