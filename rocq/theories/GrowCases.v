(** * GrowCases: an item more, and fewer lines. *)
From Coq Require Import Strings.String.
From Verif Require Import GoBase Runewidth Width AlignSpec Table Merge TableContract TableExamples TableOpsProofs
  MergeSpec MergeExamples MergeScreens MergeRecorded GrowSpec GrowProofs.
From Coq Require Import ZifyBool ZifyNat.
Local Open Scope Z_scope.

Definition one : list str := [lit "x"%string].
Definition two : list str := [lit "yy"%string].

Definition outcomes (m : mode) (lists : list (list (list str))) :=
  map (fun rows => let r := merge m 9 exC (rTable 2) (fun _ => true) (listOf rows) 4 gSep true in (List.length (written r), stop r)) lists.

Lemma r_printable rows : forallb (fun row : list str => (1 <=? List.length row)%nat) rows = true ->
  Printable (rTable 2) [exName] (listOf rows) rows.
Proof.
  intros Hb. split; [reflexivity|apply listOf_serves|]. apply Forall_forall. intros row Hr.
  rewrite forallb_forall in Hb. apply Nat.leb_le, Hb, Hr.
Qed.
Lemma r_fits rows : MergeRecorded.fits_b exC 2 rows = true -> FitsRecorded exC (rTable 2) [exName] rows.
Proof. intros Hb. apply (MergeRecorded.fits_b_ok _ _ _ _ 2); [exact Hb|]. intros col [<-|[]]. vm_compute. discriminate. Qed.

Lemma middle_refuted : exists (t : Table (list str) str str) cols pre x post sep w,
  Printable t cols (listOf (pre ++ post)) (pre ++ post) /\ Printable t cols (listOf (pre ++ x :: post)) (pre ++ x :: post)
  /\ FitsRecorded exC t cols (pre ++ x :: post)
  /\ map (fun rows => let r := MergeRowsHorizontal 9 exC t (fun _ => true) (listOf rows) w sep true in (List.length (written r), stop r))
       [pre ++ post; pre ++ x :: post] = [(3%nat, Finished); (2%nat, Finished)].
Proof.
  exists (rTable 2), [exName], [one; two], one, [two], gSep, 4.
  split; [apply r_printable; reflexivity|]. split; [apply r_printable; reflexivity|].
  split; [apply r_fits; vm_compute; reflexivity|]. vm_compute. reflexivity.
Qed.

Lemma vertical_refuted : exists (t : Table (list str) str str) cols rows x sep w,
  Printable t cols (listOf rows) rows /\ Printable t cols (listOf (rows ++ [x])) (rows ++ [x])
  /\ FitsRecorded exC t cols (rows ++ [x])
  /\ map (fun rows => let r := MergeRowsVertical 9 exC t (fun _ => true) (listOf rows) w sep true in (List.length (written r), stop r))
       [rows; rows ++ [x]] = [(4%nat, Finished); (3%nat, Finished)].
Proof.
  exists (rTable 2), [exName], [one; two; two; one], one, gSep, 4.
  split; [apply r_printable; reflexivity|]. split; [apply r_printable; reflexivity|].
  split; [apply r_fits; vm_compute; reflexivity|]. vm_compute. reflexivity.
Qed.

Definition some : list (list str) := [one; one; two].
Definition more : list (list str) := [two; one; two; two; one].
Definition wider : list (list str) := [two; one; two].

Lemma wider_b (rows rows' : list (list str)) : (List.length rows <= List.length rows')%nat ->
  forallb (fun p => match p with (r, r') => vwidth exC (hd [] r) <=? vwidth exC (hd [] r') end) (combine rows rows') = true ->
  Wider (Item := list str) (Val := str) (E := str) exC [exName] rows rows'.
Proof.
  intros HL Hb. split; [exact HL|]. intros j i s s' Hi Hs Hs'. cbn [List.length] in Hi. assert (i = 0)%nat by lia. subst i.
  unfold get2 in Hs, Hs'. destruct (nth_error rows j) as [row|] eqn:E1; [|discriminate Hs]. destruct (nth_error rows' j) as [row'|] eqn:E2; [|discriminate Hs'].
  destruct row as [|x row]; [discriminate Hs|]. destruct row' as [|x' row']; [discriminate Hs'|]. cbn in Hs, Hs'. injection Hs as ->. injection Hs' as ->.
  rewrite forallb_forall in Hb. specialize (Hb (s :: row, s' :: row')). cbn [hd] in Hb. apply Z.leb_le, Hb.
  clear -E1 E2. revert rows rows' E1 E2. induction j as [|j IH]; intros [|a l] [|b l'] E1 E2; try discriminate.
  - injection E1 as ->. injection E2 as ->. left. reflexivity.
  - right. apply IH; assumption.
Qed.

Lemma grow_example :
  Printable (rTable 2) [exName] (listOf some) some /\ Printable (rTable 2) [exName] (listOf more) more
  /\ Printable (rTable 2) [exName] (listOf wider) wider
  /\ Larger exC [exName] H some more /\ Larger exC [exName] V some wider
  /\ Narrow exC [exName] gSep H more /\ Narrow exC [exName] gSep V wider
  /\ outcomes H [some; more] = [(2%nat, Finished); (5%nat, Finished)]
  /\ outcomes V [some; wider] = [(2%nat, Finished); (3%nat, Finished)].
Proof.
  split; [apply r_printable; reflexivity|]. split; [apply r_printable; reflexivity|]. split; [apply r_printable; reflexivity|].
  split. { exists [two], [one; two; two; one]. split; [reflexivity|]. apply wider_b; [cbn; lia|vm_compute; reflexivity]. }
  split. { split; [reflexivity|]. apply wider_b; [cbn; lia|vm_compute; reflexivity]. }
  split. { eapply narrow_recorded; [apply r_printable; reflexivity|discriminate|apply r_fits; vm_compute; reflexivity|vm_compute; reflexivity]. }
  split. { eapply narrow_recorded; [apply r_printable; reflexivity|discriminate|apply r_fits; vm_compute; reflexivity|vm_compute; reflexivity]. }
  split; vm_compute; reflexivity.
Qed.
