(** * AlignedCases: merging rows that were aligned first. *)
From Coq Require Import Strings.String.
From Verif Require Import GoBase Runewidth ConditionSpec Width TextSpec AlignSpec Table Merge TableContract TableExamples TableOpsProofs CacheProofs
  MergeSpec MergeExamples MergeScreens MergeRecorded GrowSpec GrowProofs StreamSpec AlignedSpec AlignedProofs.
From Coq Require Import ZifyBool ZifyNat.
Local Open Scope Z_scope.

Definition short : list str := [lit "a"%string].
Definition long : list str := [lit "bbbb"%string].
Definition padded : list str := [lit "a   "%string].
Definition raw : list (list str) := [short; long; short; long].
Definition flush : list (list str) := [padded; long; padded; long].

Lemma rTable_range w : 0 <= w < 65536 -> forall n, 0 <= Width (rTable w) n < 65536.
Proof.
  intros Hw n. unfold rTable. destruct (update_spec (E := str) [(lit "name"%string, w)] (NewTable (Some (add_all NewTableSpec [Some exName])))) as (t' & -> & _ & _ & K); [discriminate|].
  cbn [fst]. destruct (K n) as [[->|[A|[]]] _]; [cbn; unfold wempty; lia|]. injection A as _ <-. exact Hw.
Qed.
Lemma rTable_built w : BuiltInAll exC (Columns (tSpec (rTable w))).
Proof.
  unfold rTable. destruct (update_spec (E := str) [(lit "name"%string, w)] (NewTable (Some (add_all NewTableSpec [Some exName])))) as (t' & -> & K & _ & _); [discriminate|].
  cbn [fst]. rewrite K. intros col al Hin Ha. cbn in Hin. destruct Hin as [Q|[]]. injection Q as <-. cbn in Ha. injection Ha as <-. exists ALeft. reflexivity.
Qed.
Lemma isolated_paddable (cols : list (Column (list str) str str)) rows : IsolatedCells cols rows -> PaddableCells exC cols rows.
Proof.
  intros HI row i s col a H1 H2 H3 _. destruct (HI row i s H1 H2) as [A B]; [apply nth_error_Some; congruence|].
  destruct a; cbn; auto.
Qed.

Lemma aligned_example :
  Reachable exC /\ (forall n, 0 <= Width (rTable 4) n < 65536) /\ BuiltInAll exC (Columns (tSpec (rTable 4)))
  /\ Printable (rTable 4) [exName] (listOf raw) raw /\ Printable (rTable 4) [exName] (listOf flush) flush
  /\ PaddableCells exC [exName] raw /\ FitsRecorded exC (rTable 4) [exName] raw /\ Aligned (rTable 4) raw flush
  /\ Narrow exC [exName] gSep H flush /\ slen gSep = 1 /\ reckoned (rTable 4) [exName] gSep = 5
  /\ estimate (rTable 4) [exName] gSep 6 = 1 /\ slen flush = 4
  /\ map (fun p => written (merge H 9 exC (rTable 4) (fun _ => true) (listOf (fst p)) 6 gSep (snd p))) [(raw, true); (flush, true); (flush, false)]
     = [[lit "a|bbbb"%string ++ [x0a]; lit "a|bbbb"%string ++ [x0a]];
        [lit "a   "%string ++ [x0a]; lit "bbbb"%string ++ [x0a]; lit "a   "%string ++ [x0a]; lit "bbbb"%string ++ [x0a]];
        [lit "a   "%string ++ [x0a]; lit "bbbb"%string ++ [x0a]; lit "a   "%string ++ [x0a]; lit "bbbb"%string ++ [x0a]]].
Proof.
  assert (P : forall rows : list (list str), forallb (fun row : list str => (1 <=? List.length row)%nat) rows = true -> Printable (rTable 4) [exName] (listOf rows) rows).
  { intros rows Hb. split; [reflexivity|apply listOf_serves|]. apply Forall_forall. intros row Hr.
    rewrite forallb_forall in Hb. apply Nat.leb_le, Hb, Hr. }
  assert (F : forall rows, MergeRecorded.fits_b exC 4 rows = true -> FitsRecorded exC (rTable 4) [exName] rows).
  { intros rows Hb. apply (MergeRecorded.fits_b_ok _ _ _ _ 4); [exact Hb|]. intros col [<-|[]]. vm_compute. discriminate. }
  split; [apply r_fresh|]. split; [apply rTable_range; lia|]. split; [apply rTable_built|].
  split; [apply P; reflexivity|]. split; [apply P; reflexivity|].
  split; [apply isolated_paddable, isolated_cells; vm_compute; reflexivity|].
  split; [apply F; vm_compute; reflexivity|].
  split; [repeat (constructor; [vm_compute; reflexivity|]); constructor|].
  split; [apply (narrow_recorded H exC (rTable 4) [exName] (listOf flush) flush); [apply P; reflexivity|discriminate|apply F; vm_compute; reflexivity|vm_compute; reflexivity]|].
  repeat (split; [vm_compute; reflexivity|]). vm_compute. reflexivity.
Qed.

(** A text that swallows a space: aligned first, it gets more. *)
Definition swallows : list str := [[xd8; x80]].
Lemma joining_refuted : exists (t : Table (list str) str str) cols rows rows' sep w,
  Printable t cols (listOf rows) rows /\ Printable t cols (listOf rows') rows' /\ BuiltInAll exC (Columns (tSpec t))
  /\ (forall n, 0 <= Width t n < 65536) /\ Aligned t rows rows'
  /\ map (fun rows => stop (merge H 9 exC t (fun _ => true) (listOf rows) w sep false)) [rows; rows'] = [Finished; Finished]
  /\ written (merge H 9 exC t (fun _ => true) (listOf rows) w sep false) <> written (merge H 9 exC t (fun _ => true) (listOf rows') w sep false).
Proof.
  exists (rTable 4), [exName], [swallows], [[[xd8; x80] ++ lit "   "%string]], gSep, 9.
  split; [split; [reflexivity|apply listOf_serves|repeat constructor]|]. split; [split; [reflexivity|apply listOf_serves|repeat constructor]|].
  split; [apply rTable_built|]. split; [apply rTable_range; lia|].
  split; [constructor; [vm_compute; reflexivity|constructor]|]. split; [vm_compute; reflexivity|]. vm_compute. discriminate.
Qed.
