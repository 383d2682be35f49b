(** * MergeExamples: a concrete table and items to merge. *)
From Coq Require Import Strings.String.
From Verif Require Import GoBase Utf8 GraphemeSpec Runewidth ConditionSpec Width TextSpec AlignSpec Table TableContract TableExamples TableOpsProofs
  Merge MergeSpec.
From Coq Require Import ZifyBool ZifyNat.
Local Open Scope Z_scope.

Definition listOf (rows : list (list str)) : FormattedItemList str :=
  {| fiLen := slen rows;
     fiGet := fun i => match at_index rows i with Some row => Ok row | None => Panic IndexOutOfRange end |}.
Lemma listOf_serves rows : Serves (listOf rows) rows.
Proof.
  split; [reflexivity|]. intros i row Hi. unfold listOf, fiGet, at_index.
  destruct (Z.ltb_spec (Z.of_nat i) 0); [lia|]. rewrite Nat2Z.id, Hi. reflexivity.
Qed.

Definition mCols : list (Column (list str) str str) := [exName; exSize].
Definition mTable : Table (list str) str str := fst (UpdateWidth (E := str) exTable [(lit "name"%string, 6); (lit "size"%string, 2)]).
Definition mRows : list (list str) :=
  [[lit "go.mod"%string; lit "12"%string]; [lit "x"%string; lit "3"%string]; [[xe6; x97; xa5]; lit "5"%string];
   [lit "ab"%string; lit "7"%string]; [lit "c"%string; lit "9"%string]].
Definition mSep : str := lit " |"%string.

Lemma mPrintable : Printable mTable mCols (listOf mRows) mRows.
Proof. split; [reflexivity|apply listOf_serves|repeat constructor]. Qed.
Lemma mEmptyPrintable : Printable mTable mCols (listOf []) [].
Proof. split; [reflexivity|apply listOf_serves|constructor]. Qed.

Definition isolated_b (s : str) : bool :=
  match runes s with
  | [] => true
  | r :: _ => negb (match class r with Extend | ZWJ | SpacingMark => true | _ => false end)
              && negb (match class (last (runes s) 0) with Prepend => true | _ => false end)
  end.
Lemma isolated_b_ok s : isolated_b s = true -> Isolated s.
Proof.
  unfold isolated_b. intros Hb. split.
  - intros (r & post & Er & Hr). rewrite Er in Hb. apply andb_true_iff in Hb. destruct Hb as [Hb _].
    destruct Hr as [K|[K|K]]; rewrite K in Hb; discriminate.
  - intros (pre & r & Er & Hr). rewrite Er in Hb. rewrite last_last, Hr in Hb.
    destruct (pre ++ [r]) as [|x l] eqn:El; [destruct pre; discriminate|]. apply andb_true_iff in Hb. destruct Hb as [_ Hb]. discriminate.
Qed.
Lemma isolated_cells (cols : list (Column (list str) str str)) rows :
  forallb (forallb isolated_b) rows = true -> IsolatedCells cols rows.
Proof.
  intros Hb row i s Hrow Hs _. rewrite forallb_forall in Hb. specialize (Hb row Hrow). rewrite forallb_forall in Hb.
  apply isolated_b_ok, Hb. eapply nth_error_In; eauto.
Qed.
Lemma mIsolated : IsolatedCells mCols mRows.
Proof. apply isolated_cells. vm_compute. reflexivity. Qed.

Lemma mSeparates : Separates mSep.
Proof.
  split; [|split; [|split]].
  - unfold ValidUTF8. vm_compute. repeat constructor; discriminate.
  - change (runes mSep) with [32; 124]. repeat constructor; intros [K|K]; discriminate.
  - exists 32, [124]. split; [reflexivity|]. split; [|left; vm_compute; reflexivity].
    intros [K|[K|K]]; vm_compute in K; repeat (destruct K as [K|K]; [discriminate|]); exact K.
  - exists [32], 124. split; [reflexivity|]. left. vm_compute. reflexivity.
Qed.

Definition fits_b (c : Condition) (t : Table (list str) str str) (cols : list (Column (list str) str str)) (row : list str) : bool :=
  forallb (fun p => vwidth c (fst p) <=? Width t (colName (snd p))) (combine row cols).
Lemma fits_b_ok c t cols rows : forallb (fits_b c t cols) rows = true -> FitsRecorded c t cols rows.
Proof.
  intros Hb row i s col Hrow Hs Hcol. rewrite forallb_forall in Hb. specialize (Hb row Hrow). unfold fits_b in Hb.
  rewrite forallb_forall in Hb. specialize (Hb (s, col)). cbn [fst snd] in Hb. apply Z.leb_le, Hb.
  clear -Hs Hcol. revert row cols Hs Hcol. induction i as [|i IH]; intros [|x row] [|y cols] Hs Hcol; try discriminate.
  - injection Hs as ->. injection Hcol as ->. left. reflexivity.
  - right. apply IH; auto.
Qed.
Lemma mFits : FitsRecorded exC mTable mCols mRows.
Proof. apply fits_b_ok. vm_compute. reflexivity. Qed.
Lemma mBuiltIn : Forall (BuiltIn exC) mCols.
Proof. repeat (apply Forall_cons; [right; eexists; reflexivity|]). constructor. Qed.
Lemma mWidths name : 0 <= Width mTable name < 65536.
Proof.
  apply (run_table_range (Some exSpec) [OpUpdate [(lit "name"%string, 6); (lit "size"%string, 2)]]).
  repeat constructor; cbn; lia.
Qed.
