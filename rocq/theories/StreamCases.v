(** * StreamCases: a table printed while it is formatted. *)
From Coq Require Import Strings.String.
From Verif Require Import GoBase Runewidth Width AlignSpec Table TableContract TableExamples TableOpsProofs StreamSpec StreamProofs.
Local Open Scope Z_scope.

Definition sT1 : Table (list str) str str := fst (FormatItem exC exTable exItem2).
Definition sT2 : Table (list str) str str := fst (FormatItem exC sT1 exItem1).

Lemma step1 : FormatItem exC exTable exItem2 = (sT1, Ok exItem2).
Proof. unfold sT1. rewrite (surjective_pairing (FormatItem exC exTable exItem2)) at 1. reflexivity. Qed.
Lemma step2 : FormatItem exC sT1 exItem1 = (sT2, Ok exItem1).
Proof. unfold sT2. rewrite (surjective_pairing (FormatItem exC sT1 exItem1)) at 1. reflexivity. Qed.

Lemma sFormats : Formats exC exTable [exItem2; exItem1] sT2 [exItem2; exItem1].
Proof.
  apply f_cons with (t1 := sT1); [exact step1|]. apply f_cons with (t1 := sT2); [exact step2|constructor].
Qed.

Lemma exBuiltIn : BuiltInAll exC (Columns (tSpec exTable)).
Proof.
  intros col al Hin Ha. cbn in Hin. destruct Hin as [K|[K|[]]]; injection K as <-; cbn in Ha; injection Ha as <-; eauto.
Qed.

(** The first line was printed before the longer name was known. *)
Lemma stream_example : exists t' lines lines2,
  columnWidth exTable <> None /\ (forall n, 0 <= Width exTable n < 65536) /\ BuiltInAll exC (Columns (tSpec exTable))
  /\ Streams exC exTable [exItem2; exItem1] t' lines /\ Formats exC exTable [exItem2; exItem1] t' [exItem2; exItem1]
  /\ Aligned t' [exItem2; exItem1] lines2
  /\ lines = [[lit "x"%string; lit "65536"%string]; [lit "go.mod"%string; lit "   12"%string]]
  /\ lines2 = [[lit "x     "%string; lit "65536"%string]; [lit "go.mod"%string; lit "   12"%string]].
Proof.
  exists sT2. do 2 eexists. split; [discriminate|]. split; [intros n; cbn; unfold wempty; split; [apply Z.le_refl|reflexivity]|].
  split; [exact exBuiltIn|]. split; [|split; [exact sFormats|split; [|split; reflexivity]]].
  - apply s_cons with (t1 := sT1) (row := exItem2); [exact step1|vm_compute; reflexivity|].
    apply s_cons with (t1 := sT2) (row := exItem1); [exact step2|vm_compute; reflexivity|constructor].
  - constructor; [vm_compute; reflexivity|]. constructor; [vm_compute; reflexivity|constructor].
Qed.

(** Widths given beforehand. *)
Definition sT0 : Table (list str) str str := fst (UpdateWidth (E := str) exTable [(lit "size"%string, 5); (lit "name"%string, 6)]).

Lemma stream_fine : Streams exC sT0 [exItem2; exItem1] sT0 [[lit "x     "%string; lit "65536"%string]; [lit "go.mod"%string; lit "   12"%string]].
Proof.
  assert (A : FormatItem exC sT0 exItem2 = (sT0, Ok exItem2)) by reflexivity.
  assert (B : FormatItem exC sT0 exItem1 = (sT0, Ok exItem1)) by reflexivity.
  apply s_cons with (t1 := sT0) (row := exItem2); [exact A|vm_compute; reflexivity|].
  apply s_cons with (t1 := sT0) (row := exItem1); [exact B|vm_compute; reflexivity|constructor].
Qed.
