(** * PropGrow: longer lists and wider cells never take fewer lines (C87). *)
From Coq Require Import Strings.String.
From Verif Require Import GoBase Runewidth Width AlignSpec Table Merge TableContract TableExamples
  MergeSpec MergeExamples MergeScreens MergeRecorded GrowSpec GrowProofs GrowCases.
Local Open Scope Z_scope.

Theorem C87_grow : forall (Item Val E : Type) m c (t : Table Item Val E) cols items items' rows rows',
  Printable t cols items rows -> Printable t cols items' rows' -> rows <> [] -> Larger c cols m rows rows' ->
  forall fuel fuel' sep w compact, Narrow c cols sep m rows' ->
  let r := merge m fuel c t (fun _ => true) items w sep compact in
  let r' := merge m fuel' c t (fun _ => true) items' w sep compact in
  stop r = Finished -> stop r' = Finished -> (List.length (written r) <= List.length (written r'))%nat.
Proof. exact @grow. Qed.
Print Assumptions C87_grow.

(** When no layout is too wide for 16 bits. *)
Theorem C87_narrow : forall (Item Val E : Type) m c (t : Table Item Val E) cols items rows,
  Printable t cols items rows -> rows <> [] -> FitsRecorded c t cols rows ->
  forall sep, slen rows * (zsum (recorded t cols) + slen cols + slen sep) < 65536 -> Narrow c cols sep m rows.
Proof. exact @narrow_recorded. Qed.
Print Assumptions C87_narrow.

Example C87_example :
  Printable (rTable 2) [exName] (listOf some) some /\ Printable (rTable 2) [exName] (listOf more) more
  /\ Printable (rTable 2) [exName] (listOf wider) wider
  /\ Larger exC [exName] H some more /\ Larger exC [exName] V some wider
  /\ Narrow exC [exName] gSep H more /\ Narrow exC [exName] gSep V wider
  /\ outcomes H [some; more] = [(2%nat, Finished); (5%nat, Finished)]
  /\ outcomes V [some; wider] = [(2%nat, Finished); (3%nat, Finished)].
Proof. exact grow_example. Qed.

(** An item inserted between others: fewer lines. *)
Theorem C87_middle_refuted : exists (t : Table (list str) str str) cols pre x post sep w,
  Printable t cols (listOf (pre ++ post)) (pre ++ post) /\ Printable t cols (listOf (pre ++ x :: post)) (pre ++ x :: post)
  /\ FitsRecorded exC t cols (pre ++ x :: post)
  /\ map (fun rows => let r := MergeRowsHorizontal 9 exC t (fun _ => true) (listOf rows) w sep true in (List.length (written r), stop r))
       [pre ++ post; pre ++ x :: post] = [(3%nat, Finished); (2%nat, Finished)].
Proof. exact middle_refuted. Qed.
Print Assumptions C87_middle_refuted.

(** Vertically an item at the end is enough. *)
Theorem C87_vertical_refuted : exists (t : Table (list str) str str) cols rows x sep w,
  Printable t cols (listOf rows) rows /\ Printable t cols (listOf (rows ++ [x])) (rows ++ [x])
  /\ FitsRecorded exC t cols (rows ++ [x])
  /\ map (fun rows => let r := MergeRowsVertical 9 exC t (fun _ => true) (listOf rows) w sep true in (List.length (written r), stop r))
       [rows; rows ++ [x]] = [(4%nat, Finished); (3%nat, Finished)].
Proof. exact vertical_refuted. Qed.
Print Assumptions C87_vertical_refuted.
