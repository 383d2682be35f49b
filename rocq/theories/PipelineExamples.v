(** * PipelineExamples: two formatted items. *)
From Coq Require Import Strings.String.
From Verif Require Import GoBase Utf8 Uniseg Runewidth ConditionSpec Width TextSpec AlignSpec Table TableContract TableExamples TableTheory
  Merge MergeSpec MergeExamples PipelineSpec.
Local Open Scope Z_scope.

Definition pTable : Table (list str) str str := fst (FormatItem exC (fst (FormatItem exC exTable exItem1)) exItem2).
Definition pRows : list (list str) := [exItem1; exItem2].

Lemma pFormats : Formats exC (table_run (NewTable (Some exSpec)) []) [exItem1; exItem2] pTable pRows.
Proof.
  unfold pRows, pTable. eapply f_cons; [cbn [table_run fold_left]; rewrite (surjective_pairing (FormatItem _ _ _)) at 1; reflexivity|].
  eapply f_cons; [rewrite (surjective_pairing (FormatItem _ _ _)) at 1; reflexivity|]. apply f_nil.
Qed.

Lemma pTitles : PlainTitles exC mCols.
Proof.
  intros col s Hcol Hs. assert (K : In s [lit "Name"%string; lit "N"%string; lit "Size"%string; lit "S"%string]).
  { destruct Hcol as [<-|[<-|[]]]; destruct Hs as [->| ->]; cbn; auto. }
  split; [|split].
  - destruct K as [<-|[<-|[<-|[<-|[]]]]]; intros Hx; vm_compute in Hx; repeat (destruct Hx as [Hx|Hx]; [discriminate|]); exact Hx.
  - apply isolated_b_ok. destruct K as [<-|[<-|[<-|[<-|[]]]]]; vm_compute; reflexivity.
  - left. exists true. intros r. reflexivity.
Qed.

Lemma pipeline_example : Formats exC (table_run (NewTable (Some exSpec)) []) [exItem1; exItem2] pTable pRows
  /\ Columns (tSpec pTable) = map Some mCols /\ AllBuiltIn exC mCols /\ IsolatedCells mCols pRows /\ Separates mSep
  /\ PlainTitles exC mCols /\ (forall col, In col mCols -> 0 < Width pTable (colName col))
  /\ 0 < reckoned pTable mCols mSep < 65536.
Proof.
  split; [exact pFormats|]. split; [reflexivity|]. split.
  { repeat (apply Forall_cons; [eexists; reflexivity|]). constructor. }
  split; [apply isolated_cells; vm_compute; reflexivity|]. split; [exact mSeparates|]. split; [exact pTitles|]. split.
  - intros col [<-|[<-|[]]]; vm_compute; reflexivity.
  - vm_compute. split; reflexivity.
Qed.
