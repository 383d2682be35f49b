(** * MergeRaceCases: merging while widths change, in examples. *)
From Coq Require Import ZifyBool ZifyNat Strings.String.
From Verif Require Import GoBase Runewidth ConditionSpec Width AlignSpec Table Merge TableContract TableOpsProofs TableExamples MergeSpec
  TableRace TableRaceSpec TableRaceProofs TableRaceCases MergeRace MergeRaceSpec MergeRaceProofs MergeRaceLazy.
Local Open Scope Z_scope.

(** ** Programs without pending writes *)
Section Clean.
Context {Item Val E : Type}.
Lemma clean_bind {A B} (p : sprog A) (f : A -> sprog B) : Clean p -> (forall a, Clean (f a)) -> Clean (sbind p f).
Proof. intros H1 H2. induction H1; cbn [sbind]; auto; constructor; auto. Qed.
Lemma clean_merge {A} m fuel c (cols : list (option (Column Item Val E))) ok items maxWidth sep compact (f : run E -> A) :
  (forall i, Clean (siGet items i)) -> Clean (sbind (mergeS m fuel c cols ok items maxWidth sep compact) (fun r => SRet (f r))).
Proof.
  intros HI. apply clean_bind; [|constructor].
  assert (Tw : forall (k : outcome E Z -> sprog (outcome E Z)) cs w, (forall r, Clean (k r)) -> Clean (tableWidthS_loop (Item := Item) (Val := Val) cs w k)).
  { intros k. induction cs as [|[col|] cs IH]; intros w H; cbn [tableWidthS_loop]; auto. constructor. auto. }
  assert (Ce : forall src cs item colI k, Clean (cellsS (E := E) c src cols cs item colI k)).
  { intros src. induction cs as [|[col|] cs IH]; intros item colI k; cbn [cellsS]; try constructor.
    apply clean_obind; [constructor|]. intros txt. apply clean_obind.
    - destruct src; cbn [getWidthS]; [|constructor]. apply clean_obind; [constructor|]. intros [cl|]; constructor. constructor.
    - intros w. apply clean_obind; auto. constructor. }
  assert (Em : forall gc src pos, Clean (emitS c cols items sep ok gc src pos)).
  { intros gc src pos. unfold emitS.
    assert (L : forall line ls k acc, (forall l, Clean (line l)) -> Clean (linesS (E := E) ok line ls k acc)).
    { intros line. induction ls as [|l ls IH]; intros k acc HL; cbn [linesS]; [constructor|]. apply clean_bind; auto.
      intros [x|e|p]; try constructor. destruct (ok k); [auto|constructor]. }
    apply L. intros l. apply clean_obind; [|constructor].
    generalize (zrange gc) as gs. induction gs as [|g gs IH]; cbn [groupsS]; [constructor|]. destruct (_ >=? _); [constructor|].
    apply clean_obind; [|intros b; apply clean_obind; auto; constructor].
    apply clean_obind; auto. intros item. apply clean_obind; [apply Ce|constructor]. }
  assert (Wi : forall n idxs gc, Clean (widthsS c items n idxs gc)).
  { intros n idxs gc. apply clean_obind; [|constructor]. apply clean_map. intros g. apply clean_map. intros i. generalize 0 as mw.
    generalize (idxs g) as js. induction js as [|j js IH]; intros mw; cbn [maxCellS]; [constructor|]. apply clean_obind; auto.
    intros item. apply clean_obind; [constructor|]. auto. }
  assert (Ca : forall merged n mw margin g0, (forall g, Clean (merged g)) -> forall fl extra cw, Clean (calcS (E := E) fl merged n mw margin g0 extra cw)).
  { intros merged n mw margin g0 HM. induction fl as [|fl IH]; intros extra cw; cbn [calcS]; [constructor|]. apply clean_bind; auto.
    intros [[l|]|e|p]; try constructor. destruct (_ >? _); [constructor|auto]. }
  destruct m; cbn [mergeS]; unfold MergeRowsHorizontalS, MergeRowsVerticalS, mergeRowsS;
    (apply clean_bind; [apply Tw; constructor|]); (intros [g0|e|p]; [|constructor..]); (destruct compact; [|apply Em]);
    (apply clean_bind; [apply Ca|]); try (intros [[[extra cw]|e|p]|]; try constructor; destruct (extra >? 0); apply Em); intros g.
  - apply clean_obind; [apply Wi|constructor].
  - unfold mergedVS. destruct (_ =? 0); [constructor|]. destruct (_ >? _); [constructor|]. apply clean_obind; [apply Wi|constructor].
Qed.
Lemma clean_lazy c (cols : list (option (Column Item Val E))) its i : Clean (siGet (lazy c cols its) i).
Proof.
  cbn. destruct (at_index its i) as [item|]; [|constructor].
  generalize (@nil str) as done. induction cols as [|[col|] cs IH]; intros done; cbn [formatS]; try constructor.
  destruct (colGetter col); [|constructor]. destruct (getValue _ _); try constructor. destruct (getFormat _ _ _); constructor. apply IH.
Qed.

Lemma merge_among {A} m0 (ts0 : list (sprog A)) m1 ts seen i (f : run E -> A) a m fuel c (cols : list (Column Item Val E)) items plain rows maxWidth sep compact :
  Serves plain rows -> Forall (fun row => (List.length cols <= List.length row)%nat) rows -> Steady items plain ->
  Forall Clean ts0 -> sexec anyhow m0 ts0 m1 ts seen ->
  nth_error ts0 i = Some (sbind (mergeS m fuel c (map Some cols) (fun _ => true) items maxWidth sep compact) (fun r => SRet (f r))) ->
  nth_error ts i = Some (SRet a) ->
  exists r, a = f r /\ Outcome (had m0 seen) fuel c cols sep maxWidth m rows compact r.
Proof.
  intros HV HL HS C X H0 Hi. set (t := {| columnWidth := Some m0; tSpec := {| ColumnByName := None; TimeFormat := []; Columns := map Some cols |} |}).
  assert (HP : Printable t cols plain rows) by (constructor; auto). eapply merge_any; eauto.
Qed.
End Clean.

(** ** Executions by schedule *)
Fixpoint step_at {A} (m : wmap) (ts : list (sprog A)) (i : nat) : option (wmap * list (sprog A) * list (str * Z)) :=
  match ts, i with
  | t :: ts, O => match sstep m t with Some (m', t', more) => Some (m', t' :: ts, more) | None => None end
  | t :: ts, S i => match step_at m ts i with Some (m', ts', more) => Some (m', t :: ts', more) | None => None end
  | [], _ => None
  end.
Fixpoint drive {A} (sched : list nat) (m : wmap) (ts : list (sprog A)) (seen : list (str * Z)) : option (wmap * list (sprog A) * list (str * Z)) :=
  match sched with
  | [] => Some (m, ts, seen)
  | i :: sched => match step_at m ts i with Some (m', ts', more) => drive sched m' ts' (seen ++ more) | None => None end
  end.
Lemma step_at_split {A} m (ts : list (sprog A)) i m' ts' more : step_at m ts i = Some (m', ts', more) ->
  exists b t t' a, ts = b ++ t :: a /\ ts' = b ++ t' :: a /\ sstep m t = Some (m', t', more).
Proof.
  revert i ts'. induction ts as [|t ts IH]; intros [|i] ts' H; cbn [step_at] in H; try discriminate.
  - destruct (sstep m t) as [[[m1 t1] more1]|] eqn:S; [|discriminate]. injection H as <- <- <-. exists [], t, t1, ts. auto.
  - destruct (step_at m ts i) as [[[m1 ts1] more1]|] eqn:S; [|discriminate]. injection H as <- <- <-.
    destruct (IH _ _ S) as (b & u & u' & a & -> & -> & K). exists (t :: b), u, u', a. auto.
Qed.
Lemma drive_exec {A} m0 (ts0 : list (sprog A)) sched : forall m ts seen r, sexec anyhow m0 ts0 m ts seen ->
  drive sched m ts seen = Some r -> sexec anyhow m0 ts0 (fst (fst r)) (snd (fst r)) (snd r).
Proof.
  induction sched as [|i sched IH]; intros m ts seen r X D; cbn [drive] in D.
  - injection D as <-. exact X.
  - destruct (step_at m ts i) as [[[m' ts'] more]|] eqn:S; [|discriminate].
    destruct (step_at_split _ _ _ _ _ _ S) as (b & t & t' & a & -> & -> & K). eapply IH; [|exact D].
    eapply se_step; eauto. exact Logic.I.
Qed.

(** What the goroutines returned, once all have. *)
Fixpoint returned {A} (ts : list (sprog A)) : option (list A) :=
  match ts with
  | [] => Some []
  | SRet a :: ts => match returned ts with Some l => Some (a :: l) | None => None end
  | _ => None
  end.
Lemma returned_map {A} (ts : list (sprog A)) : forall l, returned ts = Some l -> ts = map SRet l.
Proof.
  induction ts as [|t ts IH]; intros l R; cbn [returned] in R; [injection R as <-; reflexivity|].
  destruct t; try discriminate. destruct (returned ts) as [l'|]; [|discriminate]. injection R as <-.
  cbn [map]. f_equal. apply IH. reflexivity.
Qed.
Definition outcomeOf {A} (k : str) (r : option (wmap * list (sprog A) * list (str * Z))) : option (option (list A) * Z * list (str * Z)) :=
  match r with Some (m, ts, seen) => Some (returned ts, m k, seen) | None => None end.
Lemma drive_returned {A} sched k m0 (ts0 : list (sprog A)) l w seen :
  outcomeOf k (drive sched m0 ts0 []) = Some (Some l, w, seen) ->
  exists m, sexec anyhow m0 ts0 m (map SRet l) seen /\ m k = w.
Proof.
  destruct (drive sched m0 ts0 []) as [[[m ts] seen']|] eqn:D; [|discriminate]. cbn [outcomeOf]. intros R. injection R as R1 R2 R3.
  exists m. split; [|exact R2]. pose proof (drive_exec _ _ _ _ _ _ _ (se_refl _ _ _) D) as X. cbn [fst snd] in X.
  rewrite (returned_map _ _ R1), R3 in X. exact X.
Qed.

(** ** The examples *)
Definition bar : str := lit "|"%string.
Definition listing (rows : list (list str)) : FormattedItemList str :=
  {| fiLen := slen rows; fiGet := fun i => match at_index rows i with Some row => Ok row | None => Panic IndexOutOfRange end |}.
Definition twoRows : list (list str) := [exItem2; exItem2].
Definition exMap : wmap := wset (wset wempty (lit "name"%string) 1) (lit "size"%string) 5.
Definition exMerge (items : SItemList str) (maxWidth : Z) (compact : bool) : sprog (list str) :=
  sbind (mergeS H 1 exC exCols (fun _ => true) items maxWidth bar compact) (fun r => SRet (written r)).
Definition exFormat (item : list str) : sprog (list str) := steps exCols (CFormat exC item (fun _ => CRet [])).
Definition out1 : str := lit "x 65536"%string ++ [x0a].
Definition out2 : str := lit "x      65536"%string ++ [x0a].
Definition out3 : str := lit "go.mod    12"%string ++ [x0a].

(** Between two lines another goroutine formats a wider item. *)
Lemma torn : exists m seen,
  sexec anyhow exMap [exMerge (still (listing twoRows)) 1 false; exFormat exItem1] m [SRet [out1; out2]; SRet []] seen /\
  Forall Clean [exMerge (still (listing twoRows)) 1 false; exFormat exItem1] /\ m (lit "name"%string) = 6.
Proof.
  destruct (drive_returned [0;0;0;0;1;1;1;0;0]%nat (lit "name"%string) exMap
    [exMerge (still (listing twoRows)) 1 false; exFormat exItem1] [[out1; out2]; []] 6
    [(lit "name"%string, 6); (lit "size"%string, 2)]) as (m & X & e).
  { vm_compute. reflexivity. }
  exists m. eexists. split; [exact X|]. split; [|exact e].
  constructor; [|constructor; [|constructor]].
  - apply clean_merge. intros i. constructor.
  - apply steps_clean.
Qed.

Lemma twoRows_ok : Serves (listing twoRows) twoRows /\ Forall (fun row => (2 <= List.length row)%nat) twoRows /\
  Steady (still (listing twoRows)) (listing twoRows).
Proof.
  split; [|split].
  - split; [reflexivity|]. intros i row Hi. cbn. unfold at_index. destruct (Z.ltb_spec (Z.of_nat i) 0); [lia|].
    rewrite Nat2Z.id, Hi. reflexivity.
  - repeat constructor.
  - split; [reflexivity|]. intros i. constructor.
Qed.

(** A goroutine that formats a narrower item changes nothing. *)
Lemma still_example : exists m seen,
  sexec anyhow exMap [exMerge (still (listing twoRows)) 1 false; exFormat exItem2] m [SRet [out1; out1]; SRet []] seen /\
  (forall n w, In (n, w) seen -> w <= exMap n) /\ seen <> [] /\
  Forall Clean [exMerge (still (listing twoRows)) 1 false; exFormat exItem2].
Proof.
  destruct (drive_returned [0;1;0;0;0;1;0;0]%nat (lit "name"%string) exMap
    [exMerge (still (listing twoRows)) 1 false; exFormat exItem2] [[out1; out1]; []] 1
    [(lit "name"%string, 1); (lit "size"%string, 5)]) as (m & X & _).
  { vm_compute. reflexivity. }
  exists m. eexists. split; [exact X|]. split; [|split; [discriminate|]].
  - intros n w [e|[e|[]]]; injection e as <- <-; vm_compute; discriminate.
  - constructor; [|constructor; [|constructor]].
    + apply clean_merge. intros i. constructor.
    + apply steps_clean.
Qed.

(** Items formatted while they are printed. *)
Definition lazyTable : Table (list str) str str := fst (FormatItem exC (fst (FormatItem exC exTable exItem2)) exItem1).
Lemma lazyFormats : Formats exC exTable [exItem2; exItem1] lazyTable [exItem2; exItem1].
Proof.
  unfold lazyTable. eapply f_cons; [rewrite (surjective_pairing (FormatItem _ _ _)) at 1; reflexivity|].
  eapply f_cons; [rewrite (surjective_pairing (FormatItem _ _ _)) at 1; reflexivity|]. apply f_nil.
Qed.
Definition lazyItems : SItemList str := lazy exC exCols [exItem2; exItem1].
Definition wide : str := lit "x 65536|go.mod    12|"%string.

(** Plainly: columns do not line up. *)
Lemma lazy_plain : exists m seen,
  sexec anyhow wempty [exMerge lazyItems 1 false] m [SRet [out1; out3]] seen /\
  columnWidth exTable = Some wempty /\ Formats exC exTable [exItem2; exItem1] lazyTable [exItem2; exItem1] /\
  written (merge H 1 exC lazyTable (fun _ => true) (listing [exItem2; exItem1]) 1 bar false) = [out2; out3].
Proof.
  destruct (drive_returned (repeat 0%nat 13) (lit "name"%string) wempty [exMerge lazyItems 1 false] [[out1; out3]] 6 [(lit "name"%string, 1); (lit "size"%string, 5); (lit "name"%string, 6); (lit "size"%string, 2)]) as (m & X & _).
  { vm_compute. reflexivity. }
  exists m. eexists. split; [exact X|]. split; [reflexivity|]. split; [exact lazyFormats|]. vm_compute. reflexivity.
Qed.
(** More groups than fit. *)
Lemma lazy_wide : exists m seen,
  sexec anyhow wempty [exMerge lazyItems 20 false] m [SRet [wide ++ [x0a]]] seen /\ 20 < StringWidth exC wide /\
  written (merge H 1 exC lazyTable (fun _ => true) (listing [exItem2; exItem1]) 20 bar false) = [out2; out3].
Proof.
  destruct (drive_returned (repeat 0%nat 13) (lit "name"%string) wempty [exMerge lazyItems 20 false] [[wide ++ [x0a]]] 6 [(lit "name"%string, 1); (lit "size"%string, 5); (lit "name"%string, 6); (lit "size"%string, 2)]) as (m & X & _).
  { vm_compute. reflexivity. }
  exists m. eexists. split; [exact X|]. split; vm_compute; reflexivity.
Qed.
(** Compact: the search has formatted all before the first line. *)
Lemma lazy_compact : exists m seen,
  sexec anyhow wempty [exMerge lazyItems 20 true] m [SRet [lit "x      65536|go.mod    12|"%string ++ [x0a]]] seen /\
  Formats exC exTable [exItem2; exItem1] lazyTable [exItem2; exItem1] /\
  Columns (tSpec exTable) = map Some [exName; exSize] /\ columnWidth exTable = Some wempty /\
  reckoned exTable [exName; exSize] bar mod 65536 <> 0 /\ Z.of_nat 10 = estimate exTable [exName; exSize] bar 20.
Proof.
  destruct (runs_on (exMerge lazyItems 20 true) wempty) as (m & a & R).
  pose proof (alone_runs _ _ _ _ R) as Ra. cbn [alone] in Ra.
  assert (a = [lit "x      65536|go.mod    12|"%string ++ [x0a]]) as ->.
  { transitivity (snd (alone wempty (exMerge lazyItems 20 true))); [rewrite Ra; reflexivity|]. vm_compute. reflexivity. }
  destruct (runs_exec wempty [exMerge lazyItems 20 true] wempty _ m _ [] [] [] R (se_refl _ _ _)) as (seen & X).
  exists m, seen. split; [exact X|]. split; [exact lazyFormats|]. split; [reflexivity|]. split; [reflexivity|].
  split; [vm_compute; discriminate|vm_compute; reflexivity].
Qed.

Lemma each_example : LineByLine exC [exName; exSize] bar 1 exTable [[exItem2]; [exItem1]] lazyTable [out1; out3] /\
  reckoned exTable [exName; exSize] bar mod 65536 <> 0 /\ Z.of_nat 1 = estimate exTable [exName; exSize] bar 1.
Proof.
  split; [|split; [vm_compute; discriminate|reflexivity]].
  set (t1 := fst (FormatItem exC exTable exItem2)).
  assert (F1 : FormatItem exC exTable exItem2 = (t1, Ok exItem2)).
  { rewrite (surjective_pairing (FormatItem _ _ _)). f_equal. }
  assert (F2 : FormatItem exC t1 exItem1 = (lazyTable, Ok exItem1)).
  { rewrite (surjective_pairing (FormatItem _ _ _)). f_equal. }
  pose proof (lb_cons exC [exName; exSize] bar 1 exTable [exItem2] [[exItem1]] t1 _ lazyTable _
    (ob_cons _ _ _ _ _ _ _ _ _ F1 (ob_nil _ _ _))
    (lb_cons _ _ bar 1 t1 [exItem1] [] lazyTable _ lazyTable _ (ob_cons _ _ _ _ _ _ _ _ _ F2 (ob_nil _ _ _)) (lb_nil _ _ _ _ _))) as L.
  match type of L with LineByLine _ _ _ _ _ _ _ ?o => assert (e : o = [out1; out3]) by (vm_compute; reflexivity) end.
  rewrite <- e. exact L.
Qed.
