(** * PropMergeRace: merging rows while the table's widths change (C66). *)
From Coq Require Import Strings.String.
From Verif Require Import GoBase Runewidth ConditionSpec Width AlignSpec Table Merge TableContract TableExamples MergeSpec
  TableRace TableRaceSpec TableRaceProofs TableRaceCases RaceHalts MergeRace MergeRaceSpec MergeRaceProofs MergeRaceLazy MergeRaceEach MergeRaceCases.
Local Open Scope Z_scope.

(** C66: if the others compare no width larger than the recorded one, each
    merging call does what it does by itself, panics included. *)
Theorem C66_still : forall Item Val E A (t : Table Item Val E) m0 (ts0 : list (sprog A)) m1 ts seen i (f : run E -> A) a
    m fuel c ok items plain maxWidth sep compact,
  columnWidth t = Some m0 -> Forall Clean ts0 -> sexec anyhow m0 ts0 m1 ts seen -> (forall n w, In (n, w) seen -> w <= m0 n) ->
  nth_error ts0 i = Some (sbind (mergeS m fuel c (Columns (tSpec t)) ok items maxWidth sep compact) (fun r => SRet (f r))) ->
  nth_error ts i = Some (SRet a) ->
  siLen items = fiLen plain -> (forall i, at_rest m0 (siGet items i) = fiGet plain i) ->
  a = f (merge m fuel c t ok plain maxWidth sep compact).
Proof. exact @merge_still. Qed.
Print Assumptions C66_still.

(** In any case the rows are laid out whole and in order, and the search depends
    on them alone; the widths in the estimate and in the cells are recorded or
    compared ones. *)
Theorem C66_any : forall Item Val E A m0 (ts0 : list (sprog A)) m1 ts seen i (f : run E -> A) a
    m fuel c (cols : list (Column Item Val E)) items plain rows maxWidth sep compact,
  Serves plain rows -> Forall (fun row => (List.length cols <= List.length row)%nat) rows -> Steady items plain ->
  Forall Clean ts0 -> sexec anyhow m0 ts0 m1 ts seen ->
  nth_error ts0 i = Some (sbind (mergeS m fuel c (map Some cols) (fun _ => true) items maxWidth sep compact) (fun r => SRet (f r))) ->
  nth_error ts i = Some (SRet a) ->
  exists r, a = f r /\ Outcome (had m0 seen) fuel c cols sep maxWidth m rows compact r.
Proof. intros Item Val E A. exact (@merge_among Item Val E A). Qed.
Print Assumptions C66_any.

(** These hypotheses hold of the methods of the table, of merging, and of items
    formatted on demand. *)
Theorem C66_clean : forall Item Val E A (cols : list (option (Column Item Val E))),
  (forall p : cprog Item E A, Clean (steps cols p)) /\
  (forall m fuel c ok items maxWidth sep compact (f : run E -> A), (forall i, Clean (siGet items i)) ->
     Clean (sbind (mergeS m fuel c cols ok items maxWidth sep compact) (fun r => SRet (f r)))) /\
  (forall c its i, Clean (siGet (lazy c cols its) i)) /\ (forall (items : FormattedItemList E) i, Clean (siGet (still items) i)) /\
  (forall items : FormattedItemList E, Steady (still items) items).
Proof.
  intros Item Val E A cols. split; [|split; [|split; [|split]]].
  - exact (steps_clean cols).
  - intros m fuel c ok items maxWidth sep compact f. exact (clean_merge m fuel c cols ok items maxWidth sep compact f).
  - exact (fun c its i => clean_lazy c cols its i).
  - intros items i. constructor.
  - intros items. split; [reflexivity|]. intros i. constructor.
Qed.
Print Assumptions C66_clean.

(** Items formatted on demand, while the others only read: the compact search
    formats them all, so all cells get the final widths. *)
Theorem C66_lazy_compact : forall Item Val E A (t t' : Table Item Val E) m0 (ts1 ts2 : list (sprog A)) m1 ts seen (f : run E -> A) a
    m fuel c cols its rows maxWidth sep g0,
  Formats c t its t' rows -> Columns (tSpec t) = map Some cols -> columnWidth t = Some m0 ->
  reckoned t cols sep mod 65536 <> 0 -> Z.of_nat g0 = estimate t cols sep maxWidth -> Worth m rows (S g0) -> (1 <= fuel)%nat ->
  Forall Still (ts1 ++ ts2) ->
  sexec anyhow m0 (ts1 ++ sbind (mergeS m fuel c (map Some cols) (fun _ => true) (lazy c (map Some cols) its) maxWidth sep true)
                            (fun r => SRet (f r)) :: ts2) m1 ts seen ->
  nth_error ts (List.length ts1) = Some (SRet a) ->
  exists r, a = f r /\ Printed (fun n w => w = Width t' n) fuel c cols sep maxWidth m rows true g0 r.
Proof. exact @lazy_merge. Qed.
Print Assumptions C66_lazy_compact.

(** In plain merging each item is formatted just before it is printed, with the
    widths recorded by then; nothing else is recorded. *)
Theorem C66_lazy_plain : forall Item Val E A (t t' : Table Item Val E) m0 (ts1 ts2 : list (sprog A)) m1 ts seen (f : run E -> A) a
    m fuel c cols its rows maxWidth sep g,
  Formats c t its t' rows -> Columns (tSpec t) = map Some cols -> columnWidth t = Some m0 ->
  reckoned t cols sep mod 65536 <> 0 -> Z.of_nat g = estimate t cols sep maxWidth -> Forall Still (ts1 ++ ts2) ->
  sexec anyhow m0 (ts1 ++ sbind (mergeS m fuel c (map Some cols) (fun _ => true) (lazy c (map Some cols) its) maxWidth sep false)
                            (fun r => SRet (f r)) :: ts2) m1 ts seen ->
  nth_error ts (List.length ts1) = Some (SRet a) ->
  exists lines t1 out, Layout m g its lines /\ LineByLine c cols sep g t lines t1 out /\ columnWidth t1 = Some m1 /\
    a = f {| written := out; stop := Finished |}.
Proof. exact @lazy_each. Qed.
Print Assumptions C66_lazy_plain.

Example C66_lazy_plain_example : LineByLine exC [exName; exSize] bar 1 exTable [[exItem2]; [exItem1]] lazyTable [out1; out3] /\
  reckoned exTable [exName; exSize] bar mod 65536 <> 0 /\ Z.of_nat 1 = estimate exTable [exName; exSize] bar 1.
Proof. exact each_example. Qed.

(** Any goroutines sharing a table: none gets stuck, none goes on for ever. *)
Theorem C66_ends : forall A m0 (ts0 : list (sprog A)),
  (forall m ts seen, sexec anyhow m0 ts0 m ts seen ->
     exists m' results seen', sexec anyhow m0 ts0 m' (map SRet results) seen' /\ List.length results = List.length ts) /\
  ~ exists f, f O = (m0, ts0) /\ forall n, moves_on (f n) (f (S n)).
Proof. intros A m0 ts0. exact (conj (all_end m0 ts0) (table_halts m0 ts0)). Qed.
Print Assumptions C66_ends.

Example C66_still_example : exists m seen,
  sexec anyhow exMap [exMerge (still (listing twoRows)) 1 false; exFormat exItem2] m [SRet [out1; out1]; SRet []] seen /\
  (forall n w, In (n, w) seen -> w <= exMap n) /\ seen <> [] /\
  Forall Clean [exMerge (still (listing twoRows)) 1 false; exFormat exItem2].
Proof. exact still_example. Qed.

Example C66_any_example : Serves (listing twoRows) twoRows /\ Forall (fun row => (2 <= List.length row)%nat) twoRows /\
  Steady (still (listing twoRows)) (listing twoRows).
Proof. exact twoRows_ok. Qed.

Example C66_lazy_example : exists m seen,
  sexec anyhow wempty [exMerge lazyItems 20 true] m [SRet [lit "x      65536|go.mod    12|"%string ++ [x0a]]] seen /\
  Formats exC exTable [exItem2; exItem1] lazyTable [exItem2; exItem1] /\
  Columns (tSpec exTable) = map Some [exName; exSize] /\ columnWidth exTable = Some wempty /\
  reckoned exTable [exName; exSize] bar mod 65536 <> 0 /\ Z.of_nat 10 = estimate exTable [exName; exSize] bar 20.
Proof. exact lazy_compact. Qed.

(** A wider item formatted between two lines: equal rows are printed with
    different widths. *)
Theorem C66_torn_refuted : exists m seen,
  sexec anyhow exMap [exMerge (still (listing twoRows)) 1 false; exFormat exItem1] m [SRet [out1; out2]; SRet []] seen /\
  Forall Clean [exMerge (still (listing twoRows)) 1 false; exFormat exItem1] /\ m (lit "name"%string) = 6.
Proof. exact torn. Qed.
Print Assumptions C66_torn_refuted.

(** Items formatted on demand, plainly merged, by one goroutine: not the lines
    printed after formatting them, and columns that do not line up. *)
Theorem C66_lazy_plain_refuted : exists m seen,
  sexec anyhow wempty [exMerge lazyItems 1 false] m [SRet [out1; out3]] seen /\
  columnWidth exTable = Some wempty /\ Formats exC exTable [exItem2; exItem1] lazyTable [exItem2; exItem1] /\
  written (merge H 1 exC lazyTable (fun _ => true) (listing [exItem2; exItem1]) 1 bar false) = [out2; out3].
Proof. exact lazy_plain. Qed.
Print Assumptions C66_lazy_plain_refuted.

(** And lines wider than asked for. *)
Theorem C66_lazy_wide_refuted : exists m seen,
  sexec anyhow wempty [exMerge lazyItems 20 false] m [SRet [wide ++ [x0a]]] seen /\ 20 < StringWidth exC wide /\
  written (merge H 1 exC lazyTable (fun _ => true) (listing [exItem2; exItem1]) 20 bar false) = [out2; out3].
Proof. exact lazy_wide. Qed.
Print Assumptions C66_lazy_wide_refuted.
