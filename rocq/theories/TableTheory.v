(** * TableTheory: examples and counterexamples behind PropTable. *)
From Coq Require Import Strings.String.
From Verif Require Import GoBase Runewidth ConditionSpec Width AlignSpec Table
  TableContract TableOpsProofs TableExamples.
From Coq Require Import ZifyBool ZifyNat.
Local Open Scope Z_scope.

Lemma update_example :
  let l := [(lit "a"%string, 7); (lit "name"%string, 2)] in
  NoDup (map fst l) /\ Width (fst (UpdateWidth (E := str) exTable l)) (lit "a"%string) = 7.
Proof.
  split; [|vm_compute; reflexivity]. constructor; [intros [H|[]]; discriminate|].
  constructor; [intros []|constructor].
Qed.

Lemma rows_example : exists t',
  Formats exC exTable [exItem1; exItem2] t' [exItem1; exItem2]
  /\ AlignFormattedItem t' exItem2 =
     ([lit "x     "%string; lit "65536"%string], Ok [lit "x     "%string; lit "65536"%string])
  /\ AlignFormattedItem t' exItem1 =
     ([lit "go.mod"%string; lit "   12"%string], Ok [lit "go.mod"%string; lit "   12"%string]).
Proof.
  set (t1 := fst (FormatItem exC exTable exItem1)). set (t2 := fst (FormatItem exC t1 exItem2)).
  exists t2. split; [|split; vm_compute; reflexivity].
  eapply f_cons with (t1 := t1); [|eapply f_cons with (t1 := t2); [|apply f_nil]].
  - rewrite (surjective_pairing (FormatItem exC exTable exItem1)). f_equal.
  - rewrite (surjective_pairing (FormatItem exC t1 exItem2)). f_equal.
Qed.

Lemma header_refuted : exists (t : Table (list str) str str) col,
  0 < Width t (colName col) < 65536
  /\ Width t (colName col) < vwidth (plainCondition true true) (padColumnHeader (plainCondition true true) t col).
Proof.
  set (col := {| colGetter := Some (field 0); colAlignment := None; colName := lit "a"%string;
                 colTitle := [xff]; colShortTitle := [] |}).
  exists (fst (UpdateWidth (E := str) (NewTable None) [(lit "a"%string, 1)])), col.
  split; vm_compute; [split; reflexivity|reflexivity].
Qed.
