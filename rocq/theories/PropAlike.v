(** * PropAlike: tables that cannot be told apart; formatting shared out between tables (C86). *)
From Coq Require Import Strings.String.
From Verif Require Import GoBase Runewidth Width AlignSpec Table Merge TableContract TableExamples MergeSpec MergeExamples
  AlikeSpec AlikeProofs AlikeCases.
Local Open Scope Z_scope.

(** Two tables over the same columns answer all calls alike, whatever is called one after
    the other, exactly if the widths of their columns agree. *)
Theorem C86_alike : forall (Item Val E : Type) (t t' : Table Item Val E), tSpec t = tSpec t' ->
  ((forall xs, Forall (AsksColumns (Columns (tSpec t))) xs -> answers t xs = answers t' xs) <-> Alike t t').
Proof. exact @alike_iff. Qed.
Print Assumptions C86_alike.

(** The order in which widths were recorded, and how often, cannot be seen afterwards. *)
Theorem C86_order : forall (Item Val E : Type) (spec : option (TableSpec Item Val E)) ops ops' xs,
  Forall uint16_op ops /\ Forall no_add ops -> Forall uint16_op ops' /\ Forall no_add ops' ->
  (forall o, In o ops <-> In o ops') ->
  Forall (AsksColumns (Columns (tSpec (NewTable spec)))) xs ->
  answers (table_run (NewTable spec) ops) xs = answers (table_run (NewTable spec) ops') xs.
Proof. exact @same_answers. Qed.
Print Assumptions C86_order.

(** The calls shared out among several tables, and the widths brought together afterwards. *)
Theorem C86_shared : forall (Item Val E : Type) (spec : option (TableSpec Item Val E)) parts ops xs,
  Forall uint16_op ops /\ Forall no_add ops ->
  Forall (fun part => Forall uint16_op part /\ Forall no_add part) parts ->
  (forall o, In o ops <-> exists part, In part parts /\ In o part) ->
  Forall (AsksColumns (Columns (tSpec (NewTable spec)))) xs ->
  answers (gather (NewTable spec) (map (table_run (NewTable spec)) parts)) xs
  = answers (table_run (NewTable spec) ops) xs.
Proof. exact @gathered_answers. Qed.
Print Assumptions C86_shared.

(** The rows are the same as well. *)
Theorem C86_rows : forall (Item Val E : Type) c item (t t' : Table Item Val E), tSpec t = tSpec t' ->
  columnWidth t <> None -> columnWidth t' <> None -> snd (FormatItem c t item) = snd (FormatItem c t' item).
Proof. exact @format_row. Qed.
Print Assumptions C86_rows.

Example C86_example : (Forall uint16_op whole /\ Forall no_add whole)
  /\ Forall (fun part => Forall uint16_op part /\ Forall no_add part) [part1; part2]
  /\ (forall o, In o whole <-> exists part, In part [part1; part2] /\ In o part)
  /\ Forall (AsksColumns (Columns (tSpec exTable))) asked
  /\ Width (table_run exTable part1) (lit "name"%string) = 6 /\ Width (table_run exTable part2) (lit "name"%string) = 16
  /\ Width (gather exTable [table_run exTable part1; table_run exTable part2]) (lit "name"%string) = 16
  /\ Width (gather exTable [table_run exTable part1; table_run exTable part2]) (lit "size"%string) = 5
  /\ Width (gather exTable [table_run exTable part1; table_run exTable part2]) (lit "other"%string) = 0
  /\ Width (table_run exTable whole) (lit "other"%string) = 9.
Proof. exact alike_example. Qed.

(** The widths are not all: a Table made without NewTable has no map. *)
Theorem C86_nil_refuted : exists t t' : Table (list str) str str, tSpec t = tSpec t'
  /\ (forall name, Width t name = Width t' name)
  /\ exists x, AsksColumns (Columns (tSpec t)) x /\ snd (perform t x) <> snd (perform t' x).
Proof. exact nil_refuted. Qed.
Print Assumptions C86_nil_refuted.

(** A column added later can bring a difference to light. *)
Theorem C86_add_refuted : exists t t' : Table (list str) str str, tSpec t = tSpec t' /\ Alike t t'
  /\ exists o, ~ Alike (table_step t o) (table_step t' o).
Proof. exact add_refuted. Qed.
Print Assumptions C86_add_refuted.

(** What is returned on the way depends on the order. *)
Theorem C86_order_refuted : exists (t : Table (list str) str str) x y,
  (exists a, answers t [x; y; CAlign exItem1] = [snd (perform t x); snd (perform t y); a]
          /\ answers t [y; x; CAlign exItem1] = [snd (perform t y); snd (perform t x); a])
  /\ nth_error (answers t [x; CAlign exItem1; y]) 1 <> nth_error (answers t [x; y; CAlign exItem1]) 2.
Proof. exact order_refuted. Qed.
Print Assumptions C86_order_refuted.
