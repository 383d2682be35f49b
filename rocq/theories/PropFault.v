(** * PropFault: merging when some items cannot be printed (C54). *)
From Coq Require Import Strings.String.
From Verif Require Import GoBase Runewidth Width Table TableContract TableExamples Merge MergeSpec MergeExamples FaultSpec FaultProofs FaultWhich FaultCases.
Local Open Scope Z_scope.

(** ** C54: faulty items *)

Theorem C54_plain : forall (Item Val E : Type) c (t : Table Item Val E) cols items rows fails,
  Faulty t cols items rows fails ->
  forall m fuel maxWidth sep g lines, reckoned t cols sep mod 65536 <> 0 ->
  Z.of_nat g = estimate t cols sep maxWidth -> Layout m g (numbered rows) lines ->
  let r := merge m fuel c t (fun _ => true) items maxWidth sep false in
  let text := fun ls => printed c cols sep (fun _ => recorded t cols) g (map (map snd) ls) in
  (Forall (faultless fails) lines -> r = {| written := text lines; stop := Finished |})
  /\ forall pre before i row after post p, lines = pre ++ (before ++ (i, row) :: after) :: post ->
     Forall (faultless fails) pre -> faultless fails before -> fails i = Some p ->
     r = {| written := text pre; stop := Panicked p |}.
Proof. exact @plain_fault. Qed.
Print Assumptions C54_plain.

Theorem C54_compact : forall (Item Val E : Type) c (t : Table Item Val E) cols items rows fails,
  Faulty t cols items rows fails ->
  forall m fuel maxWidth sep g0 b, reckoned t cols sep mod 65536 <> 0 -> (1 <= fuel)%nat ->
  Z.of_nat g0 = estimate t cols sep maxWidth -> (b < List.length rows)%nat -> fails b <> None ->
  let r compact := merge m fuel c t (fun _ => true) items maxWidth sep compact in
  (Worth m rows (S g0) -> exists p, (exists i, (i < List.length rows)%nat /\ fails i = Some p)
                          /\ r true = {| written := []; stop := Panicked p |})
  /\ (~ Worth m rows (S g0) -> r true = r false).
Proof. exact @compact_fault. Qed.
Print Assumptions C54_compact.

(** Which item it panics for: the first unreadable cell when the items are laid
    out in one group more than estimated, group after group, in each column
    after column, down the lines. *)
Theorem C54_which : forall (Item Val E : Type) c (t : Table Item Val E) cols items n,
  Columns (tSpec t) = map Some cols -> fiLen items = Z.of_nat n ->
  forall m fuel maxWidth sep g0 lines pre j i post p (rows : list (list str)), List.length rows = n ->
  reckoned t cols sep mod 65536 <> 0 -> (1 <= fuel)%nat ->
  Z.of_nat g0 = estimate t cols sep maxWidth -> Worth m rows (S g0) -> Layout m (S g0) (seq 0 n) lines ->
  cell_order (List.length cols) (S g0) lines = pre ++ (j, i) :: post -> Forall (fun '(j', i') => GoodCell items j' i') pre -> BadCell items j i p ->
  forall ok, merge m fuel c t ok items maxWidth sep true = {| written := []; stop := Panicked p |}.
Proof. exact @compact_which. Qed.
Print Assumptions C54_which.

(** Printing reaches item 1, which is too short, before item 3, whose Get
    panics; the compact search item 3 before item 1. *)
Example C54_which_example : Worth H mRows 3 /\ Layout H 3 (seq 0 5) [[0; 1; 2]; [3; 4]]%nat
  /\ cell_order 2 3 [[0; 1; 2]; [3; 4]]%nat = [(0, 0)]%nat ++ (3, 0)%nat :: [(0, 1); (3, 1); (1, 0); (4, 0); (1, 1); (4, 1); (2, 0); (2, 1)]%nat
  /\ GoodCell gItems 0 0 /\ BadCell gItems 3 0 NilDereference /\ BadCell gItems 1 1 IndexOutOfRange
  /\ merge H 1 exC mTable (fun _ => true) gItems 26 mSep true = {| written := []; stop := Panicked NilDereference |}
  /\ merge H 1 exC mTable (fun _ => true) gItems 26 mSep false = {| written := []; stop := Panicked IndexOutOfRange |}.
Proof. exact which_example. Qed.

(** Five items, two to a line; item 3 has one string for two columns. *)
Example C54_example : Faulty mTable mCols fItems mRows fFails
  /\ Z.of_nat 2 = estimate mTable mCols mSep 26 /\ reckoned mTable mCols mSep mod 65536 <> 0
  /\ merge H 1 exC mTable (fun _ => true) fItems 26 mSep false
     = {| written := [lit "go.mod 12 |x       3"%string ++ [x0a]]; stop := Panicked IndexOutOfRange |}
  /\ merge V 1 exC mTable (fun _ => true) fItems 26 mSep false = {| written := []; stop := Panicked IndexOutOfRange |}
  /\ merge H 1 exC mTable (fun _ => true) fItems 26 mSep true = {| written := []; stop := Panicked IndexOutOfRange |}.
Proof. exact faulty_example. Qed.
