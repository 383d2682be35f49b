(** * PropLaws: laws of merging without compact layout (C58). *)
From Coq Require Import Strings.String.
From Verif Require Import GoBase Runewidth Width AlignSpec Table TableContract TableExamples Merge MergeSpec MergeExamples MergeLaws LawCases.
Local Open Scope Z_scope.

(** ** C58: batches, changes, turning *)

(** Full lines of items may be printed on their own. *)
Theorem C58_batches : forall (Item Val E : Type) c (t : Table Item Val E) cols fuel items items1 items2 rows1 rows2 maxWidth sep g,
  Printable t cols items (rows1 ++ rows2) -> Printable t cols items1 rows1 -> Printable t cols items2 rows2 ->
  reckoned t cols sep mod 65536 <> 0 -> Z.of_nat g = estimate t cols sep maxWidth ->
  rows1 <> [] -> rows2 <> [] -> (exists q, List.length rows1 = q * g)%nat ->
  written (merge H fuel c t (fun _ => true) items maxWidth sep false)
  = written (merge H fuel c t (fun _ => true) items1 maxWidth sep false)
    ++ written (merge H fuel c t (fun _ => true) items2 maxWidth sep false).
Proof. exact @batches. Qed.
Print Assumptions C58_batches.

(** Changing an item changes its own text only. *)
Theorem C58_change : forall (Item Val E : Type) c (t : Table Item Val E) cols m fuel items items' pre post row row' maxWidth sep,
  Printable t cols items (pre ++ row :: post) -> Printable t cols items' (pre ++ row' :: post) ->
  reckoned t cols sep mod 65536 <> 0 ->
  exists above before after below,
    merge m fuel c t (fun _ => true) items maxWidth sep false
    = {| written := above ++ (before ++ block c cols (recorded t cols) row ++ after) :: below; stop := Finished |}
    /\ merge m fuel c t (fun _ => true) items' maxWidth sep false
    = {| written := above ++ (before ++ block c cols (recorded t cols) row' ++ after) :: below; stop := Finished |}.
Proof. exact @change. Qed.
Print Assumptions C58_change.

(** Not so in compact layout: the other items may move to other lines. *)
Theorem C58_compact_refuted : exists (t : Table (list str) str str) cols pre post row row' m fuel maxWidth sep,
  Printable t cols (listOf (pre ++ row :: post)) (pre ++ row :: post) /\ Printable t cols (listOf (pre ++ row' :: post)) (pre ++ row' :: post)
  /\ reckoned t cols sep mod 65536 <> 0
  /\ stop (merge m fuel exC t (fun _ => true) (listOf (pre ++ row :: post)) maxWidth sep true) = Finished
  /\ stop (merge m fuel exC t (fun _ => true) (listOf (pre ++ row' :: post)) maxWidth sep true) = Finished
  /\ List.length (written (merge m fuel exC t (fun _ => true) (listOf (pre ++ row :: post)) maxWidth sep true))
     <> List.length (written (merge m fuel exC t (fun _ => true) (listOf (pre ++ row' :: post)) maxWidth sep true)).
Proof. exact compact_change. Qed.
Print Assumptions C58_compact_refuted.

(** Items filling all lines: vertically they are what the items taken in the
    other order are horizontally. *)
Theorem C58_turned : forall (Item Val E : Type) c (t : Table Item Val E) cols fuel items items' rows rows' maxWidth sep L g,
  Printable t cols items rows -> Printable t cols items' rows' ->
  reckoned t cols sep mod 65536 <> 0 -> Z.of_nat g = estimate t cols sep maxWidth ->
  List.length rows = (L * g)%nat -> List.length rows' = (L * g)%nat ->
  (forall l k, (l < L)%nat -> (k < g)%nat -> nth_error rows' (l * g + k) = nth_error rows (k * L + l)) ->
  merge V fuel c t (fun _ => true) items maxWidth sep false = merge H fuel c t (fun _ => true) items' maxWidth sep false.
Proof. exact @turned. Qed.
Print Assumptions C58_turned.

(** Items fitting one line, or one item to a line: both functions agree. *)
Theorem C58_same : forall (Item Val E : Type) c (t : Table Item Val E) cols fuel items rows maxWidth sep,
  Printable t cols items rows -> reckoned t cols sep mod 65536 <> 0 ->
  slen rows <= estimate t cols sep maxWidth \/ estimate t cols sep maxWidth = 1 ->
  merge V fuel c t (fun _ => true) items maxWidth sep false = merge H fuel c t (fun _ => true) items maxWidth sep false.
Proof. exact @same. Qed.
Print Assumptions C58_same.

Example C58_example : Printable mTable mCols (listOf lRows) lRows /\ Printable mTable mCols (listOf lTurned) lTurned
  /\ reckoned mTable mCols mSep mod 65536 <> 0 /\ estimate mTable mCols mSep 26 = 2
  /\ List.length lRows = (2 * 2)%nat /\ List.length lTurned = (2 * 2)%nat
  /\ (forall l k, (l < 2)%nat -> (k < 2)%nat -> nth_error lTurned (l * 2 + k) = nth_error lRows (k * 2 + l))
  /\ written (merge V 20 exC mTable (fun _ => true) (listOf lRows) 26 mSep false)
     = [lit "go.mod 12 |"%string ++ [xe6; x97; xa5] ++ lit "      5"%string ++ [x0a]; lit "x       3 |ab      7"%string ++ [x0a]]
  /\ written (merge H 20 exC mTable (fun _ => true) (listOf mRows) 26 mSep false)
     = [lit "go.mod 12 |x       3"%string ++ [x0a]; [xe6; x97; xa5] ++ lit "      5 |ab      7"%string ++ [x0a]; lit "c       9 |"%string ++ [x0a]].
Proof. exact law_example. Qed.
