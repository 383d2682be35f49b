(** * PropAligned: rows aligned before they are merged (C89). *)
From Coq Require Import Strings.String.
From Verif Require Import GoBase Runewidth ConditionSpec Width TextSpec AlignSpec Table Merge TableContract TableExamples
  MergeSpec MergeExamples MergeScreens MergeRecorded GrowSpec StreamSpec AlignedSpec AlignedProofs AlignedCases.
Local Open Scope Z_scope.

(** Without compaction it makes no difference. *)
Theorem C89_plain : forall (Item Val E : Type) c (t : Table Item Val E) cols items items' rows rows',
  Reachable c -> (forall n, 0 <= Width t n < 65536) -> BuiltInAll c (Columns (tSpec t)) ->
  Printable t cols items rows -> Printable t cols items' rows' ->
  PaddableCells c cols rows -> Aligned t rows rows' -> forall m fuel ok maxWidth sep,
  merge m fuel c t ok items' maxWidth sep false = merge m fuel c t ok items maxWidth sep false.
Proof. exact @aligned_plain. Qed.
Print Assumptions C89_plain.

(** With compaction there are never fewer lines. *)
Theorem C89_lines : forall (Item Val E : Type) m c (t : Table Item Val E) cols items items' rows rows',
  Reachable c -> (forall n, 0 <= Width t n < 65536) -> BuiltInAll c (Columns (tSpec t)) ->
  Printable t cols items rows -> Printable t cols items' rows' -> rows <> [] ->
  PaddableCells c cols rows -> Aligned t rows rows' ->
  forall fuel fuel' sep w, Narrow c cols sep m rows' ->
  let r := merge m fuel c t (fun _ => true) items w sep true in
  let r' := merge m fuel' c t (fun _ => true) items' w sep true in
  stop r = Finished -> stop r' = Finished -> (List.length (written r) <= List.length (written r'))%nat.
Proof. exact @aligned_lines. Qed.
Print Assumptions C89_lines.

(** Aligned cells are as wide as recorded; *)
Theorem C89_exact : forall (Item Val E : Type) c (t : Table Item Val E) cols rows rows',
  Reachable c -> (forall n, 0 <= Width t n < 65536) -> BuiltInAll c (Columns (tSpec t)) ->
  Columns (tSpec t) = map Some cols -> (forall col, In col cols -> colAlignment col <> None) ->
  PaddableCells c cols rows -> FitsRecorded c t cols rows -> Aligned t rows rows' -> Exact c t cols rows'.
Proof. exact @aligned_exact. Qed.
Print Assumptions C89_exact.

(** of such rows compaction prints the plain layout with some number of groups, *)
Theorem C89_text : forall (Item Val E : Type) m c (t : Table Item Val E) cols items rows,
  Printable t cols items rows -> Exact c t cols rows ->
  forall fuel maxWidth sep, stop (merge m fuel c t (fun _ => true) items maxWidth sep true) = Finished ->
  exists g lines, estimate t cols sep maxWidth <= Z.of_nat g /\ Layout m g rows lines
    /\ written (merge m fuel c t (fun _ => true) items maxWidth sep true) = printed c cols sep (fun _ => recorded t cols) g lines.
Proof. exact @exact_text. Qed.
Print Assumptions C89_text.

(** and gains nothing when the separator is one byte or there is one column. *)
Theorem C89_same : forall (Item Val E : Type) m c (t : Table Item Val E) cols items rows,
  Printable t cols items rows -> Exact c t cols rows ->
  forall maxWidth sep, slen sep = 1 \/ slen cols = 1 -> 0 <= maxWidth -> 0 < reckoned t cols sep ->
  maxWidth + slen sep + 2 * reckoned t cols sep < 65536 -> estimate t cols sep maxWidth < slen rows ->
  forall fuel ok, (1 <= fuel)%nat ->
  merge m fuel c t ok items maxWidth sep true = merge m fuel c t ok items maxWidth sep false.
Proof. exact @exact_same. Qed.
Print Assumptions C89_same.

Example C89_example :
  Reachable exC /\ (forall n, 0 <= Width (rTable 4) n < 65536) /\ BuiltInAll exC (Columns (tSpec (rTable 4)))
  /\ Printable (rTable 4) [exName] (listOf raw) raw /\ Printable (rTable 4) [exName] (listOf flush) flush
  /\ PaddableCells exC [exName] raw /\ FitsRecorded exC (rTable 4) [exName] raw /\ Aligned (rTable 4) raw flush
  /\ Narrow exC [exName] gSep H flush /\ slen gSep = 1 /\ reckoned (rTable 4) [exName] gSep = 5
  /\ estimate (rTable 4) [exName] gSep 6 = 1 /\ slen flush = 4
  /\ map (fun p => written (merge H 9 exC (rTable 4) (fun _ => true) (listOf (fst p)) 6 gSep (snd p))) [(raw, true); (flush, true); (flush, false)]
     = [[lit "a|bbbb"%string ++ [x0a]; lit "a|bbbb"%string ++ [x0a]];
        [lit "a   "%string ++ [x0a]; lit "bbbb"%string ++ [x0a]; lit "a   "%string ++ [x0a]; lit "bbbb"%string ++ [x0a]];
        [lit "a   "%string ++ [x0a]; lit "bbbb"%string ++ [x0a]; lit "a   "%string ++ [x0a]; lit "bbbb"%string ++ [x0a]]].
Proof. exact aligned_example. Qed.

(** U+0600 swallows one of the spaces: aligned twice it gets one more. *)
Theorem C89_joining_refuted : exists (t : Table (list str) str str) cols rows rows' sep w,
  Printable t cols (listOf rows) rows /\ Printable t cols (listOf rows') rows' /\ BuiltInAll exC (Columns (tSpec t))
  /\ (forall n, 0 <= Width t n < 65536) /\ Aligned t rows rows'
  /\ map (fun rows => stop (merge H 9 exC t (fun _ => true) (listOf rows) w sep false)) [rows; rows'] = [Finished; Finished]
  /\ written (merge H 9 exC t (fun _ => true) (listOf rows) w sep false) <> written (merge H 9 exC t (fun _ => true) (listOf rows') w sep false).
Proof. exact joining_refuted. Qed.
Print Assumptions C89_joining_refuted.
