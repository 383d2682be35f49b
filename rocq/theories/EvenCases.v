(** * EvenCases: rows of equal widths, concretely. *)
From Coq Require Import Strings.String.
From Verif Require Import GoBase Runewidth Width AlignSpec Table TableContract TableExamples
  Merge MergeSpec MergeExamples EvenSpec EvenProofs.
Local Open Scope Z_scope.

Definition evenRows : list (list str) :=
  [[lit "a"%string; lit "1"%string]; [lit "b"%string; lit "2"%string]; [lit "c"%string; lit "3"%string]; [lit "d"%string; lit "4"%string]; [lit "e"%string; lit "5"%string]].
(** Of the recorded widths, 6 and 2. *)
Definition fullRows : list (list str) :=
  [[lit "go.mod"%string; lit "12"%string]; [lit "go.sum"%string; lit "34"%string]; [lit "README"%string; lit "56"%string]].

Ltac even := split; [reflexivity|]; intros row i s Hrow Hs Hi; cbn in Hrow;
  repeat (destruct Hrow as [<-|Hrow]); try contradiction;
  destruct i as [|[|i]]; cbn in Hs; try (destruct i; discriminate); injection Hs as <-; vm_compute; reflexivity.

Lemma evenRows_even : Even exC mCols [1; 1] evenRows.
Proof. even. Qed.
Lemma fullRows_even : Even exC mCols (recorded mTable mCols) fullRows.
Proof. even. Qed.

(** Five items, three to a line although the recorded widths allow one. *)
Lemma even_example : Printable mTable mCols (listOf evenRows) evenRows /\ Even exC mCols [1; 1] evenRows
  /\ reckoned mTable mCols mSep mod 65536 <> 0 /\ 0 < room mCols [1; 1] mSep
  /\ estimate mTable mCols mSep 16 = 1 /\ fitting mCols [1; 1] mSep 16 = 3 /\ (3 + 1) * room mCols [1; 1] mSep - slen mSep < 65536
  /\ 3 < slen evenRows
  /\ written (merge H 9 exC mTable (fun _ => true) (listOf evenRows) 16 mSep true)
     = [lit "a 1 |b 2 |c 3"%string ++ [x0a]; lit "d 4 |e 5 |"%string ++ [x0a]]
  /\ written (merge V 9 exC mTable (fun _ => true) (listOf evenRows) 16 mSep true)
     = [lit "a 1 |c 3 |e 5"%string ++ [x0a]; lit "b 2 |d 4 |"%string ++ [x0a]].
Proof.
  split; [split; [reflexivity|apply listOf_serves|repeat constructor]|]. split; [exact evenRows_even|].
  split; [vm_compute; discriminate|]. repeat split; vm_compute; reflexivity.
Qed.

Definition bar : str := lit "|"%string.
Lemma same_example : Printable mTable mCols (listOf fullRows) fullRows /\ Even exC mCols (recorded mTable mCols) fullRows
  /\ slen bar = 1 /\ 0 < reckoned mTable mCols bar < 65536 /\ estimate mTable mCols bar 21 = 2
  /\ (2 + 1) * reckoned mTable mCols bar - slen bar < 65536 /\ 2 < slen fullRows
  /\ written (merge H 9 exC mTable (fun _ => true) (listOf fullRows) 21 bar true)
     = [lit "go.mod 12|go.sum 34"%string ++ [x0a]; lit "README 56|"%string ++ [x0a]].
Proof.
  split; [split; [reflexivity|apply listOf_serves|repeat constructor]|]. split; [exact fullRows_even|].
  repeat split; vm_compute; reflexivity.
Qed.

(** Two bytes and two columns: the estimate reckons two cells between the
    cells of an item, the line has one. *)
Lemma wide_separator : exists (t : Table (list str) str str) cols rows sep, Printable t cols (listOf rows) rows
  /\ Even exC cols (recorded t cols) rows /\ slen sep = 2 /\ slen cols = 2 /\ estimate t cols sep 20 = 1 /\ fitting cols (recorded t cols) sep 20 = 2
  /\ slen (written (merge H 9 exC t (fun _ => true) (listOf rows) 20 sep false)) = 3
  /\ slen (written (merge H 9 exC t (fun _ => true) (listOf rows) 20 sep true)) = 2.
Proof.
  exists mTable, mCols, fullRows, mSep. split; [split; [reflexivity|apply listOf_serves|repeat constructor]|].
  split; [exact fullRows_even|]. repeat split; vm_compute; reflexivity.
Qed.

(** As many items as the estimate: the search goes on over groups without
    items, and the line gets a separator at its end. *)
Lemma last_separator : exists (t : Table (list str) str str) cols rows sep, Printable t cols (listOf rows) rows
  /\ Even exC cols (recorded t cols) rows /\ slen sep = 1 /\ 0 < reckoned t cols sep < 65536 /\ estimate t cols sep 21 = slen rows
  /\ written (merge H 9 exC t (fun _ => true) (listOf rows) 21 sep false) = [lit "go.mod 12|go.sum 34"%string ++ [x0a]]
  /\ written (merge H 9 exC t (fun _ => true) (listOf rows) 21 sep true) = [lit "go.mod 12|go.sum 34|"%string ++ [x0a]].
Proof.
  exists mTable, mCols, (firstn 2 fullRows), bar. split; [split; [reflexivity|apply listOf_serves|repeat constructor]|].
  split; [even|]. repeat split; vm_compute; reflexivity.
Qed.
