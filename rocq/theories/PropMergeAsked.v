(** * PropMergeAsked: which items merging asks for, and how often (C67). *)
From Coq Require Import Strings.String.
From Verif Require Import GoBase Runewidth Width Table Merge TableContract TableExamples MergeSpec MergeExamples
  TableRace TableRaceSpec MergeRace MergeRaceSpec MergeAsked MergeAskedProofs MergeAskedCases.
Local Open Scope Z_scope.

(** C67: plain merging asks for the items in the order they are printed in. *)
Theorem C67_plain : forall Item Val E (t : Table Item Val E) cols plain rows tag m fuel c maxWidth sep g m0 m1 r seen,
  Printable t cols plain rows -> columnWidth t = Some m0 -> reckoned t cols sep mod 65536 <> 0 -> Z.of_nat g = estimate t cols sep maxWidth ->
  sexec anyhow m0 [mergeS m fuel c (map Some cols) (fun _ => true) (noting tag plain) maxWidth sep false] m1 [SRet r] seen ->
  exists lines, Layout m g (seq 0 (List.length rows)) lines /\ seen = asked tag (List.concat lines) /\ stop r = Finished.
Proof. exact @asked_plain. Qed.
Print Assumptions C67_plain.

(** Compactly, it first asks for the items of each group tried, from the first
    line to the last, once for each column. *)
Theorem C67_compact : forall Item Val E (t : Table Item Val E) cols plain rows tag m fuel c maxWidth sep g0 m0 m1 r seen,
  Printable t cols plain rows -> columnWidth t = Some m0 -> reckoned t cols sep mod 65536 <> 0 -> Z.of_nat g0 = estimate t cols sep maxWidth ->
  sexec anyhow m0 [mergeS m fuel c (map Some cols) (fun _ => true) (noting tag plain) maxWidth sep true] m1 [SRet r] seen ->
  stop r = Running \/ exists tries g lines, Tries c cols sep maxWidth m rows g0 tries g /\ Layout m g (seq 0 (List.length rows)) lines /\
    seen = asked tag (tries ++ List.concat lines) /\ stop r = Finished.
Proof. exact @asked_compact. Qed.
Print Assumptions C67_compact.

(** So plainly each item is asked for once. *)
Theorem C67_once : forall Item Val E (t : Table Item Val E) cols plain rows tag m fuel c maxWidth sep g m0 m1 r seen,
  Printable t cols plain rows -> columnWidth t = Some m0 -> reckoned t cols sep mod 65536 <> 0 -> Z.of_nat g = estimate t cols sep maxWidth ->
  sexec anyhow m0 [mergeS m fuel c (map Some cols) (fun _ => true) (noting tag plain) maxWidth sep false] m1 [SRet r] seen ->
  exists is, seen = asked tag is /\ forall i, count_occ Nat.eq_dec is i = if (i <? List.length rows)%nat then 1%nat else 0%nat.
Proof. exact @asked_once. Qed.
Print Assumptions C67_once.

(** And compactly once for each column and number of groups tried, and once
    more. *)
Theorem C67_times : forall Item Val E (t : Table Item Val E) cols plain rows tag m fuel c maxWidth sep g0 m0 m1 r seen,
  Printable t cols plain rows -> columnWidth t = Some m0 -> reckoned t cols sep mod 65536 <> 0 -> Z.of_nat g0 = estimate t cols sep maxWidth ->
  sexec anyhow m0 [mergeS m fuel c (map Some cols) (fun _ => true) (noting tag plain) maxWidth sep true] m1 [SRet r] seen -> stop r = Finished ->
  exists is g T, seen = asked tag is /\ Search c cols sep maxWidth m rows g0 g /\
    ((Worth m rows (S g) /\ T = S (g - g0)) \/ (~ Worth m rows (S g) /\ T = (g - g0)%nat)) /\
    forall i, count_occ Nat.eq_dec is i = if (i <? List.length rows)%nat then (List.length cols * T + 1)%nat else 0%nat.
Proof. exact @asked_times. Qed.
Print Assumptions C67_times.

Example C67_example :
  Printable mTable mCols (listOf mRows) mRows /\ columnWidth mTable = Some mMap /\ reckoned mTable mCols mSep mod 65536 <> 0 /\
  Z.of_nat 2 = estimate mTable mCols mSep 26 /\
  (exists m1 r, sexec anyhow mMap [mMerge V (listOf mRows) false] m1 [SRet r] (asked note [0;3;1;4;2]%nat) /\ stop r = Finished) /\
  (exists m1 r, sexec anyhow mMap [mMerge V (listOf mRows) true] m1 [SRet r]
     (asked note [0;1;0;1;2;3;2;3;4;4; 0;2;4;1;3]%nat) /\ stop r = Finished) /\
  (exists m1 r, sexec anyhow mMap [mMerge H (listOf mRows) true] m1 [SRet r]
     (asked note [0;3;0;3;1;4;1;4;2;2; 0;4;0;4;1;1;2;2;3;3; 0;0;1;1;2;2;3;3;4;4; 0;1;2;3;4]%nat) /\ stop r = Finished).
Proof.
  split; [exact mPrintable|]. split; [exact mMap_ok|]. split; [exact mReckoned|]. split; [exact mEstimate|]. exact asked_example.
Qed.

(** Plainly, an item whose Get panics ends the merging, after the lines above
    its own; no item is asked for after it. *)
Theorem C67_failing : forall Item Val E c (cols : list (Column Item Val E)) plain n tag, fiLen plain = Z.of_nat n ->
  forall (t : Table Item Val E) m fuel maxWidth sep g m0 m1 r seen lines pre j e,
  Columns (tSpec t) = map Some cols -> columnWidth t = Some m0 -> reckoned t cols sep mod 65536 <> 0 -> Z.of_nat g = estimate t cols sep maxWidth ->
  Layout m g (seq 0 n) lines -> FirstPanic plain (List.length cols) (List.concat lines) pre j e ->
  sexec anyhow m0 [mergeS m fuel c (map Some cols) (fun _ => true) (noting tag plain) maxWidth sep false] m1 [SRet r] seen ->
  seen = asked tag (pre ++ [j]) /\ stop r = Panicked e /\
  exists before line after, lines = before ++ line :: after /\ In j line /\ (exists part, pre = List.concat before ++ part) /\
    List.length (written r) = List.length before.
Proof. exact @asked_failing. Qed.
Print Assumptions C67_failing.
Example C67_failing_example :
  let lines := [[0;3];[1;4];[2]]%nat in
  Layout V 2 (seq 0 5) lines /\ FirstPanic (lacking 4 IndexOutOfRange (listOf mRows)) 2 (List.concat lines) [0;3;1]%nat 4 IndexOutOfRange /\
  exists m1 r, sexec anyhow mMap [mMerge V (lacking 4 IndexOutOfRange (listOf mRows)) false] m1 [SRet r] (asked note [0;3;1;4]%nat) /\
    stop r = Panicked IndexOutOfRange /\ List.length (written r) = 1%nat.
Proof. exact failing_example. Qed.

(** Compactly, unless the first try is one of an empty last group, nothing is
    written at all. *)
Theorem C67_failing_compact : forall Item Val E c (cols : list (Column Item Val E)) plain n tag, fiLen plain = Z.of_nat n ->
  forall (t : Table Item Val E) m fuel maxWidth sep g m0 m1 r seen lines pre j e, (1 <= fuel)%nat ->
  Columns (tSpec t) = map Some cols -> columnWidth t = Some m0 -> reckoned t cols sep mod 65536 <> 0 -> Z.of_nat g = estimate t cols sep maxWidth ->
  Layout m (S g) (seq 0 n) lines -> (m = H \/ exists line, In line lines /\ List.length line = S g) ->
  FirstPanic plain (List.length cols) (pass (List.length cols) (S g) lines) pre j e ->
  sexec anyhow m0 [mergeS m fuel c (map Some cols) (fun _ => true) (noting tag plain) maxWidth sep true] m1 [SRet r] seen ->
  seen = asked tag (pre ++ [j]) /\ r = {| written := []; stop := Panicked e |}.
Proof. exact @asked_failing_search. Qed.
Print Assumptions C67_failing_compact.
Example C67_failing_compact_example :
  let lines := [[0;2;4];[1;3]]%nat in
  Layout V 3 (seq 0 5) lines /\ (exists line, In line lines /\ List.length line = 3%nat) /\
  FirstPanic (lacking 4 IndexOutOfRange (listOf mRows)) 2 (pass 2 3 lines) [0;1;0;1;2;3;2;3]%nat 4 IndexOutOfRange /\
  exists m1, sexec anyhow mMap [mMerge V (lacking 4 IndexOutOfRange (listOf mRows)) true] m1 [SRet {| written := []; stop := Panicked IndexOutOfRange |}]
    (asked note [0;1;0;1;2;3;2;3;4]%nat).
Proof. exact failing_search_example. Qed.
