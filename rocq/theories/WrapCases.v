(** * WrapCases: merged rows on small screens. *)
From Coq Require Import Strings.String.
From Verif Require Import GoBase Utf8 Runewidth ConditionSpec Width TextSpec AlignSpec Table TableContract TableExamples
  Merge MergeSpec MergeLayout MergeSearch MergeTheory MergeExamples TerminalSpec TerminalProofs TerminalMerge TerminalCases WrapSpec WrapProofs.
From Coq Require Import ZifyBool ZifyNat.
Local Open Scope Z_scope.

Definition narrow (w : Z) : edge := mkEdge (Some w) false.
Definition hasty (w : Z) : edge := mkEdge (Some w) true.

Lemma stays_example : Styled (bold (lit "ab"%string)) /\ rawWidth exC (bold (lit "ab"%string)) = 2
  /\ sRow (display (narrow 7) exC (mkS Ground 3 5 [] []) (bold (lit "ab"%string))) = 3
  /\ sRow (display (narrow 6) exC (mkS Ground 3 5 [] []) (bold (lit "ab"%string))) = 4.
Proof. split; [apply bold_styled; vm_compute; reflexivity|]. repeat split; vm_compute; reflexivity. Qed.

Definition plain9 := (merge H 9 exC mTable (fun _ => true) (listOf sRows) 9 mSep false).
Definition compact20 := (merge H 9 exC mTable (fun _ => true) (listOf sRows) 20 mSep true).

Lemma plain_hypotheses : Printable mTable mCols (listOf sRows) sRows /\ Reachable exC /\ Forall (BuiltIn exC) mCols
  /\ Forall (Forall (fun s => Styled s /\ rawWidth exC s < 65536)) sRows
  /\ (forall name, 0 <= Width mTable name < 65536) /\ Styled mSep /\ mSep <> []
  /\ reckoned mTable mCols mSep = 12 /\ zsum (recorded mTable mCols) + slen mCols - 1 = 9
  /\ FitsRecorded exC mTable mCols sRows
  /\ stop plain9 = Finished /\ slen (written plain9) = 3
  /\ Holds (narrow 9) 9 /\ Holds (hasty 10) 9
  /\ sRow (display (narrow 9) exC top (List.concat (written plain9))) = 3.
Proof.
  destruct merged_hypotheses as (H1 & H2 & H3 & H4 & H5 & H6 & H7 & H8 & _).
  repeat (split; [assumption || (vm_compute; discriminate) || (vm_compute; reflexivity)|]).
  split; [split; [lia|discriminate]|]. split; [split; cbn; lia|]. vm_compute. reflexivity.
Qed.

Lemma compact_hypotheses : exists g0 g, Z.of_nat g0 = estimate mTable mCols mSep 20 /\ Search exC mCols mSep 20 H sRows g0 g
  /\ (g0 < g < g0 + 9)%nat /\ (forall w, CompactTotal exC mCols mSep H sRows g w -> w < 65536)
  /\ stop compact20 = Finished /\ slen (written compact20) = 1 /\ effective 20 = 20
  /\ sRow (display (narrow 20) exC top (List.concat (written compact20))) = 1.
Proof.
  exists 1%nat, 3%nat. split; [reflexivity|]. split; [|split; [lia|split]].
  - split; [lia|]. split.
    + intros g' Hg'. apply (acceptable_dec 20 mSep H 1); [lia|lia|]. assert (K : g' = 2%nat \/ g' = 3%nat) by lia.
      destruct K as [-> | ->]; vm_compute; reflexivity.
    + intros HA. apply (acceptable_dec 20 mSep H 1) in HA; [|lia|lia]. vm_compute in HA. discriminate.
  - intros w Hw. apply CompactTotal_is in Hw; [|lia]. subst w. vm_compute. reflexivity.
  - repeat split; vm_compute; reflexivity.
Qed.

(** A screen one column narrower than a line, and one that does not wait. *)
Lemma narrower_refuted : exists (t : Table (list str) str str) cols rows sep maxWidth,
  Printable t cols (listOf rows) rows /\ Forall (BuiltIn exC) cols
  /\ Forall (Forall (fun s => Styled s /\ rawWidth exC s < 65536)) rows /\ (forall name, 0 <= Width t name < 65536)
  /\ Styled sep /\ sep <> [] /\ 0 <= maxWidth /\ maxWidth + slen sep < 65536
  /\ reckoned t cols sep mod 65536 <> 0 /\ reckoned t cols sep < 65536 /\ zsum (recorded t cols) + slen cols - 1 <= maxWidth
  /\ FitsRecorded exC t cols rows
  /\ let r := merge H 9 exC t (fun _ => true) (listOf rows) maxWidth sep false in
     stop r = Finished
     /\ slen (written r) < sRow (display (mkEdge (Some (maxWidth - 1)) false) exC top (List.concat (written r)))
     /\ slen (written r) < sRow (display (mkEdge (Some maxWidth) true) exC top (List.concat (written r))).
Proof.
  destruct merged_hypotheses as (H1 & H2 & H3 & H4 & H5 & H6 & H7 & H8 & _).
  exists mTable, mCols, sRows, mSep, 9. cbv zeta.
  repeat (split; [assumption || (vm_compute; discriminate) || (vm_compute; reflexivity)|]). vm_compute. reflexivity.
Qed.

(** Joined runes: measured to fit, they are drawn over the edge. *)
Definition jRows : list (list str) := [[technologist; lit "12"%string]].
Lemma joined_wraps : exists (t : Table (list str) str str) cols rows sep maxWidth,
  Printable t cols (listOf rows) rows /\ Forall (BuiltIn exC) cols
  /\ Forall (Forall (fun s => ValidUTF8 s /\ rawWidth exC s < 65536)) rows /\ (forall name, 0 <= Width t name < 65536)
  /\ Styled sep /\ sep <> [] /\ 0 <= maxWidth /\ maxWidth + slen sep < 65536
  /\ reckoned t cols sep mod 65536 <> 0 /\ reckoned t cols sep < 65536 /\ zsum (recorded t cols) + slen cols - 1 <= maxWidth
  /\ FitsRecorded exC t cols rows
  /\ let r := merge H 9 exC t (fun _ => true) (listOf rows) maxWidth sep false in
     stop r = Finished /\ Forall (fun txt => rawWidth exC txt <= maxWidth) (written r)
     /\ slen (written r) < sRow (display (mkEdge (Some maxWidth) false) exC top (List.concat (written r))).
Proof.
  destruct merged_hypotheses as (H1 & H2 & H3 & H4 & H5 & H6 & H7 & H8 & _).
  exists mTable, mCols, jRows, mSep, 9. cbv zeta.
  split; [split; [reflexivity|apply listOf_serves|repeat constructor]|].
  split; [exact H3|]. split.
  { repeat (apply Forall_cons || apply Forall_nil); (split; [unfold ValidUTF8; vm_compute; repeat constructor; discriminate|vm_compute; reflexivity]). }
  do 8 (split; [assumption || (vm_compute; discriminate) || (vm_compute; reflexivity)|]).
  split; [apply MergeExamples.fits_b_ok; vm_compute; reflexivity|].
  split; [vm_compute; reflexivity|]. split; [|vm_compute; reflexivity].
  constructor; [vm_compute; discriminate|constructor].
Qed.
