(** * SizeCases: sizes of concrete outputs. *)
From Coq Require Import Strings.String.
From Coq Require Import ZifyBool ZifyNat.
From Verif Require Import GoBase Runewidth Width TextSpec AlignSpec Table TableContract TableExamples Merge MergeSpec MergeExamples MergeRecorded SizeSpec.
Local Open Scope Z_scope.

Definition zSep : str := lit " | "%string.
Definition zRows : list (list str) := repeat [lit "a"%string; lit "b"%string] 12.

(** Cells exactly as wide as recorded: twelve items in three lines take more
    bytes than in four, as a separator is longer than a newline. *)
Lemma compact_larger : exists (t : Table (list str) str str) cols rows sep w,
  Printable t cols (listOf rows) rows /\ FitsRecorded exC t cols rows /\ reckoned t cols sep mod 65536 <> 0
  /\ map (fun b => let r := MergeRowsHorizontal 9 exC t (fun _ => true) (listOf rows) w sep b in (slen (written r), size (written r), stop r)) [true; false]
     = [(3, 66, Finished); (4, 64, Finished)].
Proof.
  exists (rTable2 1), mCols, zRows, zSep, 21.
  split; [split; [reflexivity|apply listOf_serves|repeat constructor]|].
  split; [apply (MergeRecorded.fits_b_ok _ _ _ _ 1); [vm_compute; reflexivity|intros col [<-|[<-|[]]]; vm_compute; discriminate]|].
  split; [vm_compute; discriminate|]. vm_compute. reflexivity.
Qed.

(** Column by column, a screen with room for a group that stays empty costs a
    separator on every line. *)
Lemma vertical_wider : exists (t : Table (list str) str str) cols rows sep,
  Printable t cols (listOf rows) rows /\ FitsRecorded exC t cols rows /\ slen sep = 1 /\ reckoned t cols sep mod 65536 <> 0
  /\ map (fun w => let r := MergeRowsVertical 9 exC t (fun _ => true) (listOf rows) w sep false in (slen (written r), size (written r), stop r)) [3; 5]
     = [(2, 8, Finished); (2, 10, Finished)].
Proof.
  exists (rTable 1), [exName], (repeat [lit "a"%string] 4), (lit "|"%string).
  split; [split; [reflexivity|apply listOf_serves|repeat constructor]|].
  split; [apply (MergeRecorded.fits_b_ok _ _ _ _ 1); [vm_compute; reflexivity|intros col [<-|[]]; vm_compute; discriminate]|].
  split; [vm_compute; reflexivity|]. split; [vm_compute; discriminate|]. vm_compute. reflexivity.
Qed.

Lemma size_example :
  map (fun b => map (fun m => let r := merge m 20 exC mTable (fun _ => true) (listOf mRows) 26 mSep b in (slen (written r), size (written r), stop r)) [H; V]) [false; true]
  = [[(3, 55, Finished); (3, 55, Finished)]; [(2, 40, Finished); (2, 40, Finished)]]
  /\ zsum (map (row_bytes exC (recorded mTable mCols)) mRows) = 46 /\ zsum (map (bare_bytes 2) mRows) = 24
  /\ slen mRows = 5 /\ slen mSep = 2 /\ estimate mTable mCols mSep 26 = 2 /\ lines_of 5 2 = 3 /\ short_of H 5 2 = 1 /\ short_of V 5 2 = 1
  /\ separators H 5 2 = 3 /\ short_of V 5 4 = 2 /\ short_of V 4 3 = 2 /\ short_of H 6 2 = 0.
Proof. vm_compute. repeat split. Qed.
