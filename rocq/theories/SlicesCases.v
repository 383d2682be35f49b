(** * SlicesCases: slices made, by example. *)
From Coq Require Import Strings.String.
From Verif Require Import GoBase Runewidth Width AlignSpec Table Merge TableContract TableExamples MergeSpec MergeExamples FarSpec FarProofs FarCases Slices SlicesSpec
  MergeLayout SlicesProofs SlicesCount.
From Coq Require Import ZifyBool ZifyNat.
Local Open Scope Z_scope.

Definition double (n : Z) : Z := 2 * n + 1.
Lemma slices_example :
  Printable mTable mCols (listOf mRows) mRows /\ reckoned mTable mCols mSep mod 65536 <> 0 /\ estimate mTable mCols mSep 26 = 2
  /\ map (fun b => fst (mergeA double V 20 exC mTable (fun _ => true) (listOf mRows) 26 mSep b)) [false; true]
     = [map Made [2;2;2; 2;2;2; 2;2]; map Made [6; 3;2;2;2; 3;2;2]]
  /\ fst (mergeA double H 20 exC mTable (fun _ => true) (listOf mRows) 26 mSep true)
     = map Made [6; 8; 10; 4;2;2;2;2; 4;2].
Proof. split; [exact mPrintable|]. split; [vm_compute; discriminate|]. split; [vm_compute; reflexivity|]. split; vm_compute; reflexivity. Qed.

(** A line for one item may be given room for thousands. *)
Lemma few m n grow : 1 <= Z.of_nat n <= 32767 -> exists (t : Table (list str) str str) cols row sep w,
  Printable t cols (listOf [row]) [row] /\ FitsRecorded exC t cols [row] /\ 0 <= w < 65536
  /\ fst (mergeA grow m 1 exC t (fun _ => true) (listOf [row]) w sep false) = map Made [Z.of_nat n; 1].
Proof.
  intros Hn. exists (fTable 1), [exName], [xs 1], fSep, (2 * Z.of_nat n - 1).
  pose proof (fPrintable 1 (fun _ => 1%nat) 1) as HP. change (fRows (fun _ => 1%nat) 1) with [[xs 1]] in HP.
  pose proof (fReckoned 1 ltac:(lia)) as HR. change (1 + 1) with 2 in HR.
  split; [exact HP|]. split.
  { intros row [|i] s col [<-|[]] Hs Hc; [|destruct i; discriminate]. injection Hs as <-. injection Hc as <-. vm_compute. discriminate. }
  split; [lia|]. rewrite (plain_slots grow HP m 1 fSep (2 * Z.of_nat n - 1)) with (g := n) (lines := [[[xs 1]]]); [reflexivity| | |].
  - rewrite HR. discriminate.
  - unfold estimate. rewrite HR. change (2 mod 65536) with 2. unfold effective. destruct (Z.gtb_spec (2 * Z.of_nat n - 1) 65535); [lia|].
    rewrite (Z.mod_small (2 * Z.of_nat n - 1)) by lia. change (slen fSep) with 1. rewrite Z.mod_small by lia.
    replace (2 * Z.of_nat n - 1 + 1) with (Z.of_nat n * 2) by lia. rewrite Z.div_mul by lia. lia.
  - left. split; [discriminate|].
    assert (HRect : forall k, (1 <= k)%nat -> Rectangle k [[[xs 1]]]).
    { intros k Hk. split; [repeat constructor; auto; discriminate|]. intros [|a [|b pre]] r r' post K; discriminate. }
    destruct m.
    + split; [reflexivity|]. apply HRect. lia.
    + exists [[[xs 1]]]. split; [reflexivity|]. split; [apply HRect; constructor|]. split; [cbn; lia|]. split; [|split].
      * intros [|[|l]] [|[|k]]; reflexivity.
      * repeat constructor. discriminate.
      * cbn. lia.
Qed.
(** Horizontally the search makes slices longer than there are cells. *)
Lemma horizontal_long :
  Printable (fTable 80) [exName] (listOf [[xs 1]]) [[xs 1]] /\ FitsRecorded exC (fTable 80) [exName] [[xs 1]]
  /\ stop (merge H 100 exC (fTable 80) (fun _ => true) (listOf [[xs 1]]) 80 fSep true) = Finished
  /\ fst (mergeA double H 100 exC (fTable 80) (fun _ => true) (listOf [[xs 1]]) 80 fSep true) = map Made (map Z.of_nat (seq 2 80) ++ [80; 1]).
Proof.
  split; [exact (fPrintable 80 (fun _ => 1%nat) 1)|]. split.
  { intros row [|i] s col [<-|[]] Hs Hc; [|destruct i; discriminate]. injection Hs as <-. injection Hc as <-. vm_compute. discriminate. }
  split; vm_compute; reflexivity.
Qed.
(** An endless search asks for ever longer slices. *)
Lemma endless_example :
  stop (merge H 4 exC (fTable 80) (fun _ => true) (listOf [[xs 1]]) 65535 fSep true) = Running
  /\ fst (mergeA double H 4 exC (fTable 80) (fun _ => true) (listOf [[xs 1]]) 65535 fSep true) = map Made [2; 3; 4; 5].
Proof. split; vm_compute; reflexivity. Qed.
