(** * MergeAskedCases: items asked for, by example. *)
From Coq Require Import Strings.String.
From Coq Require Import ZifyBool ZifyNat.
From Verif Require Import GoBase Runewidth Width Table Merge TableContract TableExamples MergeSpec MergeLayout MergeSearch MergeExamples
  TableRace TableRaceSpec TableRaceProofs TableRaceCases RaceHalts MergeRace MergeRaceSpec MergeRaceProofs MergeRaceLazy MergeRaceCases MergeAsked MergeAskedProofs.
Local Open Scope Z_scope.

Definition note : str := lit "asked"%string.
Definition mMap : wmap := match columnWidth mTable with Some m => m | None => wempty end.
Lemma mMap_ok : columnWidth mTable = Some mMap.
Proof. reflexivity. Qed.
Lemma mReckoned : reckoned mTable mCols mSep mod 65536 <> 0.
Proof. vm_compute. discriminate. Qed.
Lemma mEstimate : Z.of_nat 2 = estimate mTable mCols mSep 26.
Proof. vm_compute. reflexivity. Qed.

(** An execution of one program. *)
Lemma one_exec {A} m0 (p : sprog A) : exists m, sexec anyhow m0 [p] m [SRet (snd (alone m0 p))] (compared m0 p).
Proof.
  destruct (runs_on p m0) as (m & a & R). pose proof (alone_runs _ _ _ _ R) as Ra. cbn [alone] in Ra.
  destruct (runs_exec m0 [p] m0 _ m _ [] [] [] R (se_refl _ _ _)) as (seen & X). cbn [app] in X.
  destruct (exec_compared _ _ _ _ _ _ X) as (q & e & K1 & K2). injection e as <-. cbn [compared alone] in K1, K2. rewrite app_nil_r in K1.
  exists m. rewrite <- K1, <- K2. exact X.
Qed.

Definition mMerge (m : mode) (items : FormattedItemList str) (compact : bool) : sprog (run str) :=
  mergeS m 20 exC (map Some mCols) (fun _ => true) (noting note items) 26 mSep compact.

Lemma asked_example :
  (exists m1 r, sexec anyhow mMap [mMerge V (listOf mRows) false] m1 [SRet r] (asked note [0;3;1;4;2]%nat) /\ stop r = Finished) /\
  (exists m1 r, sexec anyhow mMap [mMerge V (listOf mRows) true] m1 [SRet r]
     (asked note [0;1;0;1;2;3;2;3;4;4; 0;2;4;1;3]%nat) /\ stop r = Finished) /\
  (exists m1 r, sexec anyhow mMap [mMerge H (listOf mRows) true] m1 [SRet r]
     (asked note [0;3;0;3;1;4;1;4;2;2; 0;4;0;4;1;1;2;2;3;3; 0;0;1;1;2;2;3;3;4;4; 0;1;2;3;4]%nat) /\ stop r = Finished).
Proof.
  split; [|split].
  - destruct (one_exec mMap (mMerge V (listOf mRows) false)) as (m1 & X). exists m1. eexists. split.
    + assert (e : compared mMap (mMerge V (listOf mRows) false) = asked note [0;3;1;4;2]%nat) by (vm_compute; reflexivity). rewrite e in X. exact X.
    + vm_compute. reflexivity.
  - destruct (one_exec mMap (mMerge V (listOf mRows) true)) as (m1 & X). exists m1. eexists. split.
    + assert (e : compared mMap (mMerge V (listOf mRows) true) = asked note [0;1;0;1;2;3;2;3;4;4; 0;2;4;1;3]%nat) by (vm_compute; reflexivity). rewrite e in X. exact X.
    + vm_compute. reflexivity.
  - destruct (one_exec mMap (mMerge H (listOf mRows) true)) as (m1 & X). exists m1. eexists. split.
    + assert (e : compared mMap (mMerge H (listOf mRows) true) =
        asked note [0;3;0;3;1;4;1;4;2;2; 0;4;0;4;1;1;2;2;3;3; 0;0;1;1;2;2;3;3;4;4; 0;1;2;3;4]%nat) by (vm_compute; reflexivity). rewrite e in X. exact X.
    + vm_compute. reflexivity.
Qed.

(** A list whose item [j] panics. *)
Definition lacking (j : Z) (e : panic_reason) (items : FormattedItemList str) : FormattedItemList str :=
  {| fiLen := fiLen items; fiGet := fun i => if i =? j then Panic e else fiGet items i |}.
Lemma failing_example :
  let lines := [[0;3];[1;4];[2]]%nat in
  Layout V 2 (seq 0 5) lines /\ FirstPanic (lacking 4 IndexOutOfRange (listOf mRows)) 2 (concat lines) [0;3;1]%nat 4 IndexOutOfRange /\
  exists m1 r, sexec anyhow mMap [mMerge V (lacking 4 IndexOutOfRange (listOf mRows)) false] m1 [SRet r] (asked note [0;3;1;4]%nat) /\
    stop r = Panicked IndexOutOfRange /\ List.length (written r) = 1%nat.
Proof.
  cbv zeta. split; [exact (layout_ok V 2 (seq 0 5) ltac:(lia))|]. split.
  - exists [2]%nat. split; [reflexivity|]. split; [|reflexivity].
    repeat (apply Forall_cons; [eexists; split; [reflexivity|apply le_n]|]). constructor.
  - destruct (one_exec mMap (mMerge V (lacking 4 IndexOutOfRange (listOf mRows)) false)) as (m1 & X). exists m1. eexists. split.
    + assert (e : compared mMap (mMerge V (lacking 4 IndexOutOfRange (listOf mRows)) false) = asked note [0;3;1;4]%nat) by (vm_compute; reflexivity).
      rewrite e in X. exact X.
    + split; vm_compute; reflexivity.
Qed.
Lemma failing_search_example :
  let lines := [[0;2;4];[1;3]]%nat in
  Layout V 3 (seq 0 5) lines /\ (exists line, In line lines /\ List.length line = 3%nat) /\
  FirstPanic (lacking 4 IndexOutOfRange (listOf mRows)) 2 (pass 2 3 lines) [0;1;0;1;2;3;2;3]%nat 4 IndexOutOfRange /\
  exists m1, sexec anyhow mMap [mMerge V (lacking 4 IndexOutOfRange (listOf mRows)) true] m1 [SRet {| written := []; stop := Panicked IndexOutOfRange |}]
    (asked note [0;1;0;1;2;3;2;3;4]%nat).
Proof.
  cbv zeta. split; [exact (layout_ok V 3 (seq 0 5) ltac:(lia))|]. split; [exists [0;2;4]%nat; split; [left; reflexivity|reflexivity]|]. split.
  - exists [4]%nat. split; [reflexivity|]. split; [|reflexivity].
    repeat (apply Forall_cons; [eexists; split; [reflexivity|apply le_n]|]). constructor.
  - destruct (one_exec mMap (mMerge V (lacking 4 IndexOutOfRange (listOf mRows)) true)) as (m1 & X). exists m1.
    assert (e : compared mMap (mMerge V (lacking 4 IndexOutOfRange (listOf mRows)) true) = asked note [0;1;0;1;2;3;2;3;4]%nat) by (vm_compute; reflexivity).
    assert (e2 : snd (alone mMap (mMerge V (lacking 4 IndexOutOfRange (listOf mRows)) true)) = {| written := []; stop := Panicked IndexOutOfRange |}) by (vm_compute; reflexivity).
    rewrite e, e2 in X. exact X.
Qed.
