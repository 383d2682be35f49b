(** * LawCases: concrete cases for C58. *)
From Coq Require Import Strings.String.
From Verif Require Import GoBase Runewidth Width AlignSpec Table TableContract TableExamples Merge MergeSpec MergeExamples.
Local Open Scope Z_scope.

(** Two to a line. *)
Definition lRows : list (list str) := firstn 4 mRows.
Definition lTurned : list (list str) := [nth 0 mRows []; nth 2 mRows []; nth 1 mRows []; nth 3 mRows []].

Lemma law_example : Printable mTable mCols (listOf lRows) lRows /\ Printable mTable mCols (listOf lTurned) lTurned
  /\ reckoned mTable mCols mSep mod 65536 <> 0 /\ estimate mTable mCols mSep 26 = 2
  /\ List.length lRows = (2 * 2)%nat /\ List.length lTurned = (2 * 2)%nat
  /\ (forall l k, (l < 2)%nat -> (k < 2)%nat -> nth_error lTurned (l * 2 + k) = nth_error lRows (k * 2 + l))
  /\ written (merge V 20 exC mTable (fun _ => true) (listOf lRows) 26 mSep false)
     = [lit "go.mod 12 |"%string ++ [xe6; x97; xa5] ++ lit "      5"%string ++ [x0a]; lit "x       3 |ab      7"%string ++ [x0a]]
  /\ written (merge H 20 exC mTable (fun _ => true) (listOf mRows) 26 mSep false)
     = [lit "go.mod 12 |x       3"%string ++ [x0a]; [xe6; x97; xa5] ++ lit "      5 |ab      7"%string ++ [x0a]; lit "c       9 |"%string ++ [x0a]].
Proof.
  split; [split; [reflexivity|apply listOf_serves|repeat constructor]|]. split; [split; [reflexivity|apply listOf_serves|repeat constructor]|].
  split; [vm_compute; discriminate|]. split; [vm_compute; reflexivity|]. split; [reflexivity|]. split; [reflexivity|].
  split; [|split; vm_compute; reflexivity].
  intros l k Hl Hk. assert (Kl : l = 0%nat \/ l = 1%nat) by lia. assert (Kk : k = 0%nat \/ k = 1%nat) by lia.
  destruct Kl as [-> | ->], Kk as [-> | ->]; reflexivity.
Qed.

(** With compact layout, a longer cell changes the lines of other items. *)
Lemma compact_change : exists (t : Table (list str) str str) cols pre post row row' m fuel maxWidth sep,
  Printable t cols (listOf (pre ++ row :: post)) (pre ++ row :: post) /\ Printable t cols (listOf (pre ++ row' :: post)) (pre ++ row' :: post)
  /\ reckoned t cols sep mod 65536 <> 0
  /\ stop (merge m fuel exC t (fun _ => true) (listOf (pre ++ row :: post)) maxWidth sep true) = Finished
  /\ stop (merge m fuel exC t (fun _ => true) (listOf (pre ++ row' :: post)) maxWidth sep true) = Finished
  /\ List.length (written (merge m fuel exC t (fun _ => true) (listOf (pre ++ row :: post)) maxWidth sep true))
     <> List.length (written (merge m fuel exC t (fun _ => true) (listOf (pre ++ row' :: post)) maxWidth sep true)).
Proof.
  exists mTable, mCols, (firstn 1 mRows), (skipn 2 mRows), (nth 1 mRows []), [lit "extended"%string; lit "12345678"%string], H, 20%nat, 26, mSep.
  split; [split; [reflexivity|apply listOf_serves|repeat constructor]|]. split; [split; [reflexivity|apply listOf_serves|repeat constructor]|].
  split; [vm_compute; discriminate|]. split; [vm_compute; reflexivity|]. split; [vm_compute; reflexivity|]. vm_compute. discriminate.
Qed.
