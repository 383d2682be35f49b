(** * SepCases: one table, several separators. *)
From Coq Require Import Strings.String.
From Verif Require Import GoBase Runewidth Width AlignSpec Table Merge TableContract TableExamples TableOpsProofs
  MergeSpec MergeExamples MergeScreens MergeRecorded GrowSpec GrowProofs PickSpec PickProofs PickCases SepProofs.
From Coq Require Import ZifyBool ZifyNat.
Local Open Scope Z_scope.

Definition sSlash : str := lit " /"%string.
Definition sLong : str := lit "  |  "%string.
(** U+2502, a bar drawn through the whole height: three bytes. *)
Definition sBar : str := [xe2; x94; x82].
Definition sRows := aRows.

Definition with_sep (m : mode) (sep : str) w :=
  let r := merge m 9 exC mTable (fun _ => true) (listOf sRows) w sep true in (written r, stop r).

Lemma long_narrow m : Narrow exC mCols sLong m sRows.
Proof.
  apply (narrow_recorded m exC mTable mCols (listOf sRows) sRows a_printable ltac:(discriminate)); [apply MergeExamples.fits_b_ok; vm_compute; reflexivity|].
  vm_compute. reflexivity.
Qed.

Lemma sep_example :
  Printable mTable mCols (listOf sRows) sRows /\ List.length sSlash = List.length mSep
  /\ with_sep H mSep 20 = (lines ["go.mod 12 |x 3 |ab 7"; "c       9 |"]%string, Finished)
  /\ with_sep H sSlash 20 = (lines ["go.mod 12 /x 3 /ab 7"; "c       9 /"]%string, Finished)
  /\ (List.length mSep <= List.length sLong)%nat /\ (forall col, In col mCols -> 0 <= Width mTable (colName col))
  /\ reckoned mTable mCols sLong < 65536 /\ effective 14 + slen sLong < 65536 /\ Narrow exC mCols sLong H sRows /\ Narrow exC mCols sLong V sRows
  /\ with_sep H mSep 14 = (lines ["go.mod 12 |x 3"; "ab      7 |c 9"]%string, Finished)
  /\ with_sep H sLong 14 = (lines ["go.mod 12"; "x       3"; "ab      7"; "c       9"]%string, Finished)
  /\ with_sep V sLong 14 = with_sep H sLong 14.
Proof.
  split; [exact a_printable|]. split; [reflexivity|]. split; [vm_compute; reflexivity|]. split; [vm_compute; reflexivity|].
  split; [vm_compute; repeat constructor|]. split; [intros col _; apply mWidths|]. split; [vm_compute; reflexivity|]. split; [vm_compute; reflexivity|].
  split; [apply long_narrow|]. split; [apply long_narrow|]. repeat split; vm_compute; reflexivity.
Qed.

(** Separators that take one cell each. *)
Lemma bytes_refuted : forall m compact, exists (t : Table (list str) str str) cols rows sep sep' w,
  Printable t cols (listOf rows) rows /\ FitsRecorded exC t cols rows /\ vwidth exC sep = 1 /\ vwidth exC sep' = 1
  /\ Narrow exC cols sep' m rows /\ reckoned t cols sep' < 65536
  /\ ends m t rows w sep compact = (1%nat, Finished) /\ ends m t rows w sep' compact = (2%nat, Finished).
Proof.
  intros m compact. set (ws := [(lit "name"%string, 2)]). set (rows := [[lit "ab"%string]; [lit "cd"%string]]).
  assert (P : Printable (tableOf [exName] ws) [exName] (listOf rows) rows) by (split; [reflexivity|apply listOf_serves|repeat constructor]).
  assert (F : FitsRecorded exC (tableOf [exName] ws) [exName] rows) by (apply MergeExamples.fits_b_ok; vm_compute; reflexivity).
  exists (tableOf [exName] ws), [exName], rows, gSep, sBar, 5.
  split; [exact P|]. split; [exact F|]. split; [vm_compute; reflexivity|]. split; [vm_compute; reflexivity|].
  split; [apply (narrow_recorded m exC _ _ _ _ P ltac:(discriminate) F); vm_compute; reflexivity|]. split; [vm_compute; reflexivity|].
  split; destruct m, compact; vm_compute; reflexivity.
Qed.

(** Past 16 bits. *)
Definition sSeven : str := lit "-------"%string.
Lemma wrap_refuted : forall m, exists (t : Table (list str) str str) cols rows sep sep' w compact,
  Printable t cols (listOf rows) rows /\ (forall col, In col cols -> 0 <= Width t (colName col) < 65536)
  /\ (List.length sep < List.length sep')%nat /\ effective w + slen sep' < 65536
  /\ ends m t rows w sep compact = (4%nat, Finished) /\ ends m t rows w sep' compact = (1%nat, Finished).
Proof.
  intros m. set (ws := [(lit "name"%string, 65530)]). exists (tableOf [asIs 0 "name"] ws), [asIs 0 "name"], aRows, gSep, sSeven, 20, false.
  split; [split; [reflexivity|apply listOf_serves|repeat constructor]|]. split; [intros col [<-|[]]; vm_compute; split; congruence|].
  split; [vm_compute; repeat constructor|]. split; [vm_compute; reflexivity|]. split; destruct m; vm_compute; reflexivity.
Qed.
