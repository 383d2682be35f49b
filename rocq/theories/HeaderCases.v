(** * HeaderCases: examples of what a header shows (C102). *)
From Coq Require Import Strings.String.
From Verif Require Import GoBase Runewidth ConditionSpec Width AlignSpec Table TableContract TableExamples ReadSpec HeaderSpec HeaderProofs.
Local Open Scope Z_scope.

Lemma trimmed_ends b u b' : b <> space -> b' <> space -> Trimmed (b :: u ++ [b']).
Proof.
  intros H H'. split; intros v K.
  - injection K as K _. congruence.
  - change (b :: u ++ [b']) with ((b :: u) ++ [b']) in K. apply app_inj_tail in K. destruct K. congruence.
Qed.
Lemma trimmed_byte b : b <> space -> Trimmed [b].
Proof.
  intros H. split; intros v K.
  - injection K as K _. congruence.
  - change [b] with ([] ++ [b]) in K. apply app_inj_tail in K. destruct K. congruence.
Qed.

(** The word for name, three bytes and two cells. *)
Definition kName : str := [xe5; x90; x8d].
Definition kCol : Column (list str) str str :=
  {| colGetter := Some (field 0); colAlignment := Some (align ALeft exC); colName := lit "name"%string; colTitle := kName; colShortTitle := kName |}.
Definition kSpec : TableSpec (list str) str str := add_all NewTableSpec [Some kCol].

Lemma kName_trimmed : Trimmed kName.
Proof. apply (trimmed_ends xe5 [x90] x8d); discriminate. Qed.

Lemma own_name_dropped : exists (spec : option (TableSpec (list str) str str)) ops col,
  Forall uint16_op ops /\ Columns (tSpec (table_run (NewTable spec) ops)) = map Some [col]
  /\ Trimmed (colTitle col) /\ colShortTitle col = colTitle col /\ colTitle col <> []
  /\ ops = [OpFormat exC [colTitle col]]
  /\ vwidth exC (colTitle col) = Width (table_run (NewTable spec) ops) (colName col)
  /\ Shows (padColumnHeader exC (table_run (NewTable spec) ops) col) [].
Proof.
  exists (Some kSpec), [OpFormat exC [kName]], kCol.
  split; [repeat constructor|]. split; [reflexivity|]. split; [exact kName_trimmed|]. split; [reflexivity|]. split; [discriminate|].
  split; [reflexivity|]. split; [vm_compute; reflexivity|]. split; [apply trimmed_nil|]. exists 2%nat, 0%nat. vm_compute. reflexivity.
Qed.

Definition vCol : Column (list str) str str := exColumn 0 ALeft "name" "Name" "Nm".
Definition vSpec : TableSpec (list str) str str := add_all NewTableSpec [Some vCol].

Lemma title_vanishes : exists (spec : option (TableSpec (list str) str str)) op col,
  uint16_op op /\ Columns (tSpec (table_run (NewTable spec) [])) = map Some [col] /\ Columns (tSpec (table_run (NewTable spec) [op])) = map Some [col]
  /\ colTitle col <> [] /\ Shows (padColumnHeader exC (table_run (NewTable spec) []) col) (colTitle col)
  /\ Shows (padColumnHeader exC (table_run (NewTable spec) [op]) col) [].
Proof.
  exists (Some vSpec), (OpFormat exC [lit "x"%string]), vCol.
  split; [exact Logic.I|]. split; [reflexivity|]. split; [reflexivity|]. split; [discriminate|]. split.
  - split; [apply (trimmed_ends x4e [x61; x6d] x65); discriminate|]. exists 0%nat, 0%nat. vm_compute. reflexivity.
  - split; [apply trimmed_nil|]. exists 1%nat, 0%nat. vm_compute. reflexivity.
Qed.

Definition hOps : list (table_op (list str) str str) := [OpFormat exC exItem1; OpUpdate [(lit "size"%string, 3)]].
Definition hTable := table_run (NewTable (Some exSpec)) hOps.

Lemma header_case : Forall uint16_op hOps /\ Columns (tSpec hTable) = map Some [exName; exSize] /\ Marks x7c (lit "|"%string)
  /\ Forall (fun col => Trimmed (colTitle col) /\ Trimmed (colShortTitle col) /\ ~ In x7c (colTitle col) /\ ~ In x7c (colShortTitle col)) [exName; exSize]
  /\ FormatHeader exC hTable (lit "|"%string) = Ok (lit " Name | S |"%string ++ [x0a]) :> outcome str str
  /\ split (lit "|"%string) 0 (lit " Name | S |"%string ++ [x0a]) = [lit " Name "%string; lit " S "%string] ++ [[x0a]]
  /\ Shows (lit " Name "%string) (lit "Name"%string) /\ Shows (lit " S "%string) (lit "S"%string).
Proof.
  assert (T1 : Trimmed (lit "Name"%string)) by (apply (trimmed_ends x4e [x61; x6d] x65); discriminate).
  assert (T2 : Trimmed (lit "S"%string)) by (apply trimmed_byte; discriminate).
  assert (T3 : Trimmed (lit "N"%string)) by (apply trimmed_byte; discriminate).
  assert (T4 : Trimmed (lit "Size"%string)) by (apply (trimmed_ends x53 [x69; x7a] x65); discriminate).
  split; [repeat constructor; cbn; discriminate|]. split; [reflexivity|].
  split; [split; [left; reflexivity|split; [discriminate|intros [K|[]]; discriminate]]|].
  split; [|split; [vm_compute; reflexivity|split; [vm_compute; reflexivity|split]]].
  - assert (N : forall b (l : str), existsb (Byte.eqb b) l = false -> ~ In b l).
    { intros b l Hb K. apply (fun H => eq_true_false_abs _ H Hb). apply existsb_exists. exists b. split; [exact K|apply Byte.byte_dec_lb; reflexivity]. }
    apply Forall_cons; [|apply Forall_cons; [|apply Forall_nil]];
      (split; [assumption|split; [assumption|split; apply N; vm_compute; reflexivity]]).
  - split; auto. exists 1%nat, 1%nat. reflexivity.
  - split; auto. exists 1%nat, 1%nat. reflexivity.
Qed.

Lemma cases_met : Reachable exC /\ 0 < Width hTable (colName exSize) < 65536 /\ Trimmed (colTitle exSize) /\ Trimmed (colShortTitle exSize)
  /\ Forall (fun b => 0x20 <= bv b <= 0x7E) (colTitle exSize) /\ Forall (fun b => 0x20 <= bv b <= 0x7E) (colShortTitle exSize)
  /\ first_fitting (vwidth exC) (Width hTable (colName exSize)) (colTitle exSize) (colShortTitle exSize) = lit "S"%string
  /\ first_fitting (vwidth exC) (Width hTable (colName exName)) (colTitle exName) (colShortTitle exName) = lit "Name"%string.
Proof.
  split; [constructor|]. split; [vm_compute; split; [reflexivity|reflexivity]|].
  split; [apply (trimmed_ends x53 [x69; x7a] x65); discriminate|]. split; [apply trimmed_byte; discriminate|].
  split; [repeat constructor; cbv; discriminate|]. split; [repeat constructor; cbv; discriminate|].
  split; vm_compute; reflexivity.
Qed.
