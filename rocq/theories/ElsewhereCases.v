(** * ElsewhereCases: a table measured without, and shown with, East Asian widths. *)
From Coq Require Import Strings.String.
From Verif Require Import GoBase Utf8 Runewidth ConditionSpec Width TextSpec AlignSpec Table TableContract TableExamples
  Merge MergeSpec MergeExamples TerminalSpec TerminalProofs TerminalMerge TerminalCases ElsewhereSpec ElsewhereProofs.
Local Open Scope Z_scope.

Definition eaC : Condition := plainCondition true true.
(** PLUS-MINUS SIGN, a rune of ambiguous width. *)
Definition pm : str := [xc2; xb1].
Definition eRows : list (list str) :=
  [[pm ++ lit "0"%string; lit "12"%string]; [lit "x"%string; lit "3"%string]; [lit "ab"%string; lit "5"%string]].

Lemma eStyled : Forall (Forall (fun s => Styled s /\ rawWidth exC s < 65536)) eRows.
Proof.
  unfold eRows.
  repeat (apply Forall_cons;
    [apply Forall_cons; [apply cell_plain; vm_compute; reflexivity|
     apply Forall_cons; [apply cell_plain; vm_compute; reflexivity|apply Forall_nil]]|]).
  apply Forall_nil.
Qed.

Lemma elsewhere_hypotheses : Printable mTable mCols (listOf eRows) eRows /\ Reachable exC /\ Reachable eaC /\ Forall (BuiltIn exC) mCols
  /\ Forall (Forall (fun s => Styled s /\ rawWidth exC s < 65536)) eRows
  /\ (forall name, 0 <= Width mTable name < 65536) /\ Styled mSep /\ reckoned mTable mCols mSep mod 65536 <> 0
  /\ FitsRecorded exC mTable mCols eRows
  /\ stop (merge H 9 exC mTable (fun _ => true) (listOf eRows) 26 mSep false) = Finished.
Proof.
  split; [split; [reflexivity|apply listOf_serves|repeat constructor]|]. split; [apply r_fresh|]. split; [apply r_fresh|].
  split; [constructor; [right; exists ALeft; reflexivity|constructor; [right; exists ARight; reflexivity|constructor]]|].
  split; [exact eStyled|]. split; [exact mWidths|].
  split; [exact mSepStyled|]. split; [vm_compute; discriminate|]. split.
  { intros row i s col Hrow Hs Hcol. cbn in Hrow.
    destruct Hrow as [<-|[<-|[<-|[]]]]; destruct i as [|[|i]]; cbn in Hs, Hcol; try discriminate;
      try (destruct i; discriminate); injection Hs as <-; injection Hcol as <-; vm_compute; discriminate. }
  vm_compute; reflexivity.
Qed.

(** The second field of the first item ends at column 9 in both lines, but on
    the other terminal at column 10 in the first line. *)
Lemma crooked : exists before1 after1 before2 after2,
  written (merge H 9 exC mTable (fun _ => true) (listOf eRows) 26 mSep false) = [before1 ++ lit "12"%string ++ after1; before2 ++ lit " 5"%string ++ after2]
  /\ show exC home before1 = mkT Ground 7 [] /\ show exC home before2 = mkT Ground 7 []
  /\ show eaC home before1 = mkT Ground 8 [] /\ show eaC home before2 = mkT Ground 7 [].
Proof.
  exists (pm ++ lit "0     "%string), (lit " |x       3"%string ++ [x0a]), (lit "ab     "%string), (lit " |"%string ++ [x0a]).
  repeat split; vm_compute; reflexivity.
Qed.

Lemma sRows_same : Forall (Forall (fun s => forall r, In r (runes s) -> RuneWidth exC r = RuneWidth eaC r)) sRows.
Proof.
  assert (K : forall s, forallb (fun r => RuneWidth exC r =? RuneWidth eaC r) (runes s) = true -> forall r, In r (runes s) -> RuneWidth exC r = RuneWidth eaC r).
  { intros s Hs r Hr. rewrite forallb_forall in Hs. apply Z.eqb_eq. exact (Hs r Hr). }
  unfold sRows.
  repeat (apply Forall_cons; [apply Forall_cons; [apply K; vm_compute; reflexivity|
     apply Forall_cons; [apply K; vm_compute; reflexivity|apply Forall_nil]]|]).
  apply Forall_nil.
Qed.

Lemma rows_elsewhere_example : exists t', Formats exC exTable eRows t' eRows
  /\ Columns (tSpec exTable) = map Some mCols
  /\ Forall (fun col => exists a, colAlignment col = Some (align a exC)) mCols
  /\ map (fun row => map (fun n => tCol (show eaC home (List.concat (map (fun cell => cell ++ mSep) (firstn n (fst (AlignFormattedItem t' row))))))) [1; 2]%nat) eRows
     = [[5; 9]; [4; 8]; [4; 8]]
  /\ map (fun row => map (fun n => excesses exC eaC (firstn n row)) [1; 2]%nat) eRows = [[1; 1]; [0; 0]; [0; 0]].
Proof.
  set (i1 := [pm ++ lit "0"%string; lit "12"%string]). set (i2 := [lit "x"; lit "3"]%string). set (i3 := [lit "ab"; lit "5"]%string).
  set (t1 := fst (FormatItem exC exTable i1)). set (t2 := fst (FormatItem exC t1 i2)). set (t3 := fst (FormatItem exC t2 i3)).
  exists t3. split; [|split; [reflexivity|split; [|split; vm_compute; reflexivity]]].
  - change eRows with [i1; i2; i3].
    eapply f_cons with (t1 := t1); [|eapply f_cons with (t1 := t2); [|eapply f_cons with (t1 := t3); [|apply f_nil]]].
    + rewrite (surjective_pairing (FormatItem exC exTable i1)). f_equal.
    + rewrite (surjective_pairing (FormatItem exC t1 i2)). f_equal.
    + rewrite (surjective_pairing (FormatItem exC t2 i3)). f_equal.
  - constructor; [exists ALeft; reflexivity|]. constructor; [exists ARight; reflexivity|constructor].
Qed.

Lemma counts_example : Styled (bold (pm ++ lit "5 "%string ++ pm)) /\ excess exC eaC (bold (pm ++ lit "5 "%string ++ pm)) = 2
  /\ slen (filter (differs exC eaC) (runes (bold (pm ++ lit "5 "%string ++ pm)))) = 2.
Proof. split; [apply bold_styled; vm_compute; reflexivity|]. split; vm_compute; reflexivity. Qed.
