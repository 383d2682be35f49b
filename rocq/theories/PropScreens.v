(** * PropScreens: number of lines and width of the screen (C55). *)
From Coq Require Import Strings.String.
From Verif Require Import GoBase Runewidth Width Table TableContract TableExamples Merge MergeSpec MergeExamples MergeScreens MergeLeast.
Local Open Scope Z_scope.

(** ** C55: wider screens *)

Theorem C55_wider : forall (Item Val E : Type) c (t : Table Item Val E) cols items rows,
  Printable t cols items rows -> rows <> [] ->
  forall m fuel fuel' sep w w' compact compact', 0 <= w <= w' -> w' + slen sep < 65536 -> (compact = true -> compact' = true) ->
  let r := merge m fuel c t (fun _ => true) items w sep compact in
  let r' := merge m fuel' c t (fun _ => true) items w' sep compact' in
  stop r = Finished -> stop r' = Finished -> (List.length (written r') <= List.length (written r))%nat.
Proof. exact @wider. Qed.
Print Assumptions C55_wider.

Theorem C55_same_count : forall (Item Val E : Type) c (t : Table Item Val E) cols items rows, Printable t cols items rows ->
  forall fuel fuel' maxWidth sep,
  List.length (written (MergeRowsHorizontal fuel c t (fun _ => true) items maxWidth sep false))
  = List.length (written (MergeRowsVertical fuel' c t (fun _ => true) items maxWidth sep false)).
Proof. exact @same_count. Qed.
Print Assumptions C55_same_count.

(** maxWidth = 65535 gives more lines than 40 when maxWidth + len(sep) wraps. *)
Theorem C55_overflow_refuted : exists (t : Table (list str) str str) cols rows w w',
  Printable t cols (listOf rows) rows /\ 0 <= w <= w' /\ w' < 65536
  /\ stop (merge H 1 exC t (fun _ => true) (listOf rows) w gSep false) = Finished
  /\ stop (merge H 1 exC t (fun _ => true) (listOf rows) w' gSep false) = Finished
  /\ (List.length (written (merge H 1 exC t (fun _ => true) (listOf rows) w gSep false))
      < List.length (written (merge H 1 exC t (fun _ => true) (listOf rows) w' gSep false)))%nat.
Proof. exact wider_overflow. Qed.
Print Assumptions C55_overflow_refuted.

(** The compact search stops at the first group count that does not fit, though
    a greater one may, and would give fewer lines. *)
Theorem C55_greedy_refuted : forall m, exists (t : Table (list str) str str) cols rows sep maxWidth g g',
  Printable t cols (listOf rows) rows /\ reckoned t cols sep mod 65536 <> 0
  /\ Z.of_nat g = estimate t cols sep maxWidth
  /\ Search exC cols sep maxWidth m rows g g /\ (g < g')%nat /\ Acceptable exC cols sep maxWidth m rows g'
  /\ exists fuel r, merge m fuel exC t (fun _ => true) (listOf rows) maxWidth sep true = r /\ stop r = Finished
     /\ forall lines, Layout m g' rows lines -> (List.length lines < List.length (written r))%nat.
Proof. exact greedy. Qed.
Print Assumptions C55_greedy_refuted.

Example C55_example : Printable mTable mCols (listOf mRows) mRows /\ 60 + slen mSep < 65536
  /\ map (fun w => List.length (written (merge H 20 exC mTable (fun _ => true) (listOf mRows) w mSep true))) [10; 20; 40] = [5; 2; 1]%nat
  /\ map (fun w => List.length (written (merge V 20 exC mTable (fun _ => true) (listOf mRows) w mSep false))) [10; 30; 60] = [5; 3; 1]%nat.
Proof. split; [exact mPrintable|]. split; [reflexivity|]. split; vm_compute; reflexivity. Qed.

(** How wide the screen must be: without compaction a list is printed in at most
    [L] lines exactly if it has no more items, or the screen and one separator
    hold so many items, as they are reckoned, that [L] lines of them suffice. *)
Theorem C55_least : forall (Item Val E : Type) c (t : Table Item Val E) cols items rows, Printable t cols items rows -> rows <> [] ->
  forall m fuel sep maxWidth L, 0 < reckoned t cols sep < 65536 -> 0 <= maxWidth -> maxWidth + slen sep < 65536 -> 1 <= L ->
  (slen (written (merge m fuel c t (fun _ => true) items maxWidth sep false)) <= L <->
   slen rows <= L \/ exists g, slen rows <= L * g /\ g * reckoned t cols sep <= maxWidth + slen sep).
Proof. exact @least_width. Qed.
Print Assumptions C55_least.

(** Five items of 12 cells: two lines take 34 cells, not 33. *)
Example C55_least_example : Printable mTable mCols (listOf mRows) mRows /\ mRows <> [] /\ reckoned mTable mCols mSep = 12 /\ slen mSep = 2
  /\ map (fun w => slen (written (merge V 1 exC mTable (fun _ => true) (listOf mRows) w mSep false))) [33; 34] = [3; 2].
Proof. split; [exact mPrintable|]. split; [discriminate|]. split; [vm_compute; reflexivity|]. split; vm_compute; reflexivity. Qed.
