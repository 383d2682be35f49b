(** * BasicCases: FormatItemBasic and separators, examples. *)
From Coq Require Import Strings.String.
From Verif Require Import GoBase Table TableContract TableExamples BasicSpec BasicProofs.
Local Open Scope Z_scope.

Definition comma : str := lit ","%string.

Lemma basic_example : FormatItemBasic exTable exItem1 comma = Ok (lit "go.mod,12"%string)
  /\ AllOk (basic_cell exItem1) (Columns (tSpec exTable)) exItem1 /\ Apart comma exItem1
  /\ Splits comma (lit "go.mod,12"%string) exItem1.
Proof.
  assert (A : Apart comma exItem1).
  { change comma with [x2c]. apply Apart_byte; [discriminate|]. repeat constructor; cbn; intuition discriminate. }
  assert (F : FormatItemBasic exTable exItem1 comma = Ok (lit "go.mod,12"%string)) by (vm_compute; reflexivity).
  assert (O : AllOk (basic_cell exItem1) (Columns (tSpec exTable)) exItem1) by (repeat constructor).
  split; [exact F|]. split; [exact O|]. split; [exact A|]. apply (basic_split exTable exItem1 comma); auto; discriminate.
Qed.

(** Two items, one text: nothing is quoted. *)
Definition itemL : list str := [lit "a,b"%string; lit "c"%string].
Definition itemR : list str := [lit "a"%string; lit "b,c"%string].
Lemma comma_refuted : exists out, FormatItemBasic exTable itemL comma = Ok out /\ FormatItemBasic exTable itemR comma = Ok out
  /\ itemL <> itemR.
Proof. exists (lit "a,b,c"%string). repeat split; try (vm_compute; reflexivity). discriminate. Qed.

(** A value in which the separator does not occur, but which ends as it begins. *)
Definition dashes : str := lit "--"%string.
Definition itemD : list str := [lit "x-"%string; lit "y"%string].
Lemma overlap_refuted : (forall v, In v itemD -> forall a, ~ Stands dashes v a)
  /\ exists out ps, FormatItemBasic exTable itemD dashes = Ok out /\ Splits dashes out ps /\ ps <> itemD /\ slen ps = 2.
Proof.
  split.
  - intros v Hv a (b & E). apply (f_equal (@List.length byte)) in E as L. rewrite !app_length in L.
    destruct Hv as [<-|[<-|[]]]; [|cbn in L; lia].
    destruct a as [|z a]; [cbn in E; discriminate|]. cbn in L. lia.
  - exists (lit "x---y"%string), [lit "x"%string; lit "-y"%string].
    split; [vm_compute; reflexivity|]. split; [|split; [discriminate|reflexivity]].
    apply (split_join dashes [lit "x"%string; lit "-y"%string]); [discriminate|discriminate|].
    apply apart_more.
    + intros a (b & E). apply (f_equal (@List.length byte)) in E as L. rewrite !app_length in L.
      destruct a as [|z a]; [cbn in E; discriminate|]. destruct a; [|cbn in L; lia]. cbn in E. injection E as <- _. reflexivity.
    + apply apart_last. intros a (b & E). apply (f_equal (@List.length byte)) in E as L. rewrite !app_length in L.
      destruct a as [|z a]; [cbn in E; discriminate|]. cbn in L. lia.
Qed.

(** No column at all and one column with the empty value look alike. *)
Definition emptyTable : Table (list str) str str := NewTable None.
Definition oneTable : Table (list str) str str := NewTable (Some (add_all NewTableSpec [Some exName])).
Lemma empty_refuted : FormatItemBasic emptyTable [[]] comma = Ok [] /\ FormatItemBasic oneTable [[]] comma = Ok []
  /\ Columns (tSpec emptyTable) = [] /\ Splits comma [] [[]].
Proof.
  split; [vm_compute; reflexivity|]. split; [vm_compute; reflexivity|]. split; [reflexivity|].
  apply splits_end. intros a (b & E). symmetry in E. apply app_eq_nil in E. destruct E as [_ E]. discriminate.
Qed.
