(** * AlikeCases: tables filled separately; tables that can be told apart. *)
From Coq Require Import Strings.String.
From Verif Require Import GoBase Runewidth Width AlignSpec Table Merge TableContract TableExamples TableOpsProofs
  MergeSpec MergeExamples AlikeSpec AlikeProofs.
From Coq Require Import ZifyBool ZifyNat.
Local Open Scope Z_scope.

Definition part1 : list (table_op (list str) str str) := [OpFormat exC exItem1].
Definition part2 : list (table_op (list str) str str) :=
  [OpFormat exC exBad; OpUpdate [(lit "size"%string, 5); (lit "other"%string, 9)]].
Definition whole : list (table_op (list str) str str) :=
  [OpUpdate [(lit "size"%string, 5); (lit "other"%string, 9)]; OpFormat exC exItem1; OpFormat exC exBad; OpFormat exC exItem1].
Definition asked : list (call (list str) str) :=
  [CWidth (lit "name"%string); CHeader exC (lit "|"%string); CFormat exC exItem1; CAlign exItem1; CTotal 2;
   CMerge H 3 exC (fun _ => true) (listOf mRows) 60 mSep true].

Lemma alike_example : fit whole /\ Forall fit [part1; part2]
  /\ (forall o, In o whole <-> exists part, In part [part1; part2] /\ In o part)
  /\ Forall (AsksColumns (Columns (tSpec exTable))) asked
  /\ Width (table_run exTable part1) (lit "name"%string) = 6 /\ Width (table_run exTable part2) (lit "name"%string) = 16
  /\ Width (gather exTable [table_run exTable part1; table_run exTable part2]) (lit "name"%string) = 16
  /\ Width (gather exTable [table_run exTable part1; table_run exTable part2]) (lit "size"%string) = 5
  /\ Width (gather exTable [table_run exTable part1; table_run exTable part2]) (lit "other"%string) = 0
  /\ Width (table_run exTable whole) (lit "other"%string) = 9.
Proof.
  assert (HU : uint16_op (OpUpdate (Item := list str) (Val := str) (E := str) [(lit "size"%string, 5); (lit "other"%string, 9)]))
    by (repeat constructor; discriminate).
  split; [split; [repeat constructor; discriminate|repeat constructor]|].
  split; [constructor; [split; repeat constructor|constructor; [split; repeat constructor; discriminate|constructor]]|].
  split.
  { intros o. split.
    - intros [<-|[<-|[<-|[<-|[]]]]]; [exists part2|exists part1|exists part2|exists part1]; cbn; tauto.
    - intros (part & [<-|[<-|[]]] & Hi); cbn in Hi |- *; tauto. }
  split; [repeat constructor; exists exName; split; [left; reflexivity|reflexivity]|].
  repeat apply conj; vm_compute; reflexivity.
Qed.

(** Two tables with the same width, 0, for every name: one made by NewTable, one a
    struct literal without a map. *)
Lemma nil_refuted : exists t t' : Table (list str) str str, tSpec t = tSpec t'
  /\ (forall name, Width t name = Width t' name)
  /\ exists x, AsksColumns (Columns (tSpec t)) x /\ snd (perform t x) <> snd (perform t' x).
Proof.
  exists exTable, {| tSpec := exSpec; columnWidth := None |}. split; [reflexivity|]. split; [intros name; reflexivity|].
  exists (CUpdate [(lit "name"%string, 1)]). split; [exact Logic.I|]. vm_compute. discriminate.
Qed.

(** Tables that cannot be told apart, until both get the same further column. *)
Lemma add_refuted : exists t t' : Table (list str) str str, tSpec t = tSpec t' /\ Alike t t'
  /\ exists o, ~ Alike (table_step t o) (table_step t' o).
Proof.
  exists exTable, (fst (UpdateWidth (E := str) exTable [(lit "other"%string, 9)])). split; [reflexivity|]. split.
  - split; [split; vm_compute; discriminate|]. intros col Hc.
    destruct Hc as [Hc|[Hc|[]]]; injection Hc as <-; vm_compute; reflexivity.
  - exists (OpAdd (Some {| colGetter := None; colAlignment := None; colName := lit "other"%string; colTitle := []; colShortTitle := [] |})).
    intros [_ K]. specialize (K {| colGetter := None; colAlignment := None; colName := lit "other"%string; colTitle := []; colShortTitle := [] |}).
    assert (Hi : In (Some {| colGetter := None; colAlignment := None; colName := lit "other"%string; colTitle := []; colShortTitle := [] |})
      (Columns (tSpec (table_step exTable (OpAdd (Some {| colGetter := None; colAlignment := None; colName := lit "other"%string; colTitle := []; colShortTitle := [] |})))))).
    { right. right. left. reflexivity. }
    specialize (K Hi). vm_compute in K. discriminate.
Qed.

(** What is returned on the way does depend on the order: a row aligned before a
    wider one has been formatted is narrower. *)
Lemma order_refuted : exists (t : Table (list str) str str) x y,
  (exists a, answers t [x; y; CAlign exItem1] = [snd (perform t x); snd (perform t y); a]
          /\ answers t [y; x; CAlign exItem1] = [snd (perform t y); snd (perform t x); a])
  /\ nth_error (answers t [x; CAlign exItem1; y]) 1 <> nth_error (answers t [x; y; CAlign exItem1]) 2.
Proof.
  exists exTable, (CFormat exC exItem1), (CFormat exC exBad). split.
  - eexists. split; vm_compute; reflexivity.
  - vm_compute. discriminate.
Qed.
