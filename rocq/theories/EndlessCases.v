(** * EndlessCases: a search without end and one with. *)
From Coq Require Import Strings.String.
From Verif Require Import GoBase Runewidth Width AlignSpec Table TableContract TableExamples TableOpsProofs
  Merge MergeSpec MergeExamples EndlessSpec EndlessProofs.
From Coq Require Import ZifyBool ZifyNat.
Local Open Scope Z_scope.

Definition bar : str := lit "|"%string.
(** [mRows] but for one character less. *)
Definition fewerRows : list (list str) :=
  [[lit "go.mo"%string; lit "12"%string]; [lit "x"%string; lit "3"%string]; [[xe6; x97; xa5]; lit "5"%string];
   [lit "ab"%string; lit "7"%string]; [lit "c"%string; lit "9"%string]].
Lemma fewerPrintable : Printable mTable mCols (listOf fewerRows) fewerRows.
Proof. split; [reflexivity|apply listOf_serves|repeat constructor]. Qed.

Lemma m_cells : cells_width exC mCols mRows = 18 /\ cells_width exC mCols fewerRows = 17.
Proof. split; vm_compute; reflexivity. Qed.
Lemma bar_reckoned : reckoned mTable mCols bar mod 65536 = 10.
Proof. vm_compute. reflexivity. Qed.
Lemma bar_grain : grain mCols bar = 2.
Proof. vm_compute. reflexivity. Qed.
Lemma bar_summits : summit exC mCols bar mRows = 65535 /\ summit exC mCols bar fewerRows = 65534.
Proof.
  unfold summit. rewrite bar_grain, (proj1 m_cells), (proj2 m_cells). split; reflexivity.
Qed.
Lemma bar_estimate : Z.of_nat (Z.to_nat 6553) = estimate mTable mCols bar 65534.
Proof. rewrite Z2Nat.id by lia. vm_compute. reflexivity. Qed.

Lemma fewer_endless fuel :
  stop (MergeRowsHorizontal fuel exC mTable (fun _ => true) (listOf fewerRows) 65534 bar true) = Running.
Proof.
  refine (proj2 (endless_iff (c := exC) fewerPrintable 65534 bar (Z.to_nat 6553) _ bar_estimate) _ fuel).
  - rewrite bar_reckoned. discriminate.
  - split; [|rewrite (proj2 bar_summits); vm_compute; discriminate].
    intros g Lg. exfalso. unfold fewerRows in Lg. cbn [Datatypes.length] in Lg. lia.
Qed.

Lemma more_ends fuel : 32773 < Z.of_nat fuel ->
  stop (MergeRowsHorizontal fuel exC mTable (fun _ => true) (listOf mRows) 65534 bar true) = Finished.
Proof.
  intros Hf. apply (ends_above (c := exC) mPrintable).
  - rewrite bar_reckoned. discriminate.
  - rewrite (proj1 bar_summits). vm_compute. reflexivity.
  - rewrite bar_grain. exact Hf.
Qed.

Lemma endless_example : Printable mTable mCols (listOf fewerRows) fewerRows
  /\ reckoned mTable mCols bar mod 65536 = 10 /\ estimate mTable mCols bar 65534 = 6553
  /\ stride mCols bar = 2 /\ grain mCols bar = 2 /\ cells_width exC mCols fewerRows = 17
  /\ summit exC mCols bar fewerRows = 65534 /\ effective 65534 = 65534.
Proof.
  repeat apply conj; [exact fewerPrintable|exact bar_reckoned|rewrite <- bar_estimate; apply Z2Nat.id; lia|reflexivity|exact bar_grain
    |exact (proj2 m_cells)|exact (proj2 bar_summits)|reflexivity].
Qed.
Lemma ends_example : Printable mTable mCols (listOf mRows) mRows
  /\ cells_width exC mCols mRows = 18 /\ summit exC mCols bar mRows = 65535 /\ slen mRows + 65536 / grain mCols bar = 32773
  /\ grain mCols mSep = 1 /\ grain mCols bar <= 65535 - effective 65533.
Proof.
  repeat apply conj; [exact mPrintable|exact (proj1 m_cells)|exact (proj1 bar_summits)|rewrite bar_grain; reflexivity
    |vm_compute; reflexivity|rewrite bar_grain; vm_compute; discriminate].
Qed.

(** Whether the search ends depends on a single character of one item, though
    there is room for all of them many times over. *)
Lemma length_refuted : exists (rows rows' : list (list str)),
  List.length rows = List.length rows' /\ cells_width exC mCols rows' = cells_width exC mCols rows + 1
  /\ Printable mTable mCols (listOf rows) rows /\ Printable mTable mCols (listOf rows') rows'
  /\ (forall fuel, stop (MergeRowsHorizontal fuel exC mTable (fun _ => true) (listOf rows) 65534 bar true) = Running)
  /\ (exists fuel, stop (MergeRowsHorizontal fuel exC mTable (fun _ => true) (listOf rows') 65534 bar true) = Finished).
Proof.
  exists fewerRows, mRows. repeat apply conj.
  - reflexivity.
  - rewrite (proj1 m_cells), (proj2 m_cells). reflexivity.
  - exact fewerPrintable.
  - exact mPrintable.
  - exact fewer_endless.
  - exists (Z.to_nat 32774). apply more_ends. rewrite Z2Nat.id by lia. reflexivity.
Qed.
