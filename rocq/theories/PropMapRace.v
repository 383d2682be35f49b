(** * PropMapRace: one Table, several goroutines, and the runtime's check (C81). *)
From Coq Require Import Strings.String.
From Verif Require Import GoBase Runewidth ConditionSpec Width Table TableContract TableExamples TableRace TableRaceSpec
  MapRace MapRaceSpec MapRaceProofs MapRaceCases.
Local Open Scope Z_scope.

(** C81: the program can end with a fatal error exactly if one goroutine
    would, alone, change a width, and another looks at the widths at all. *)
Theorem C81_fatal : forall Item Val E A (t : Table Item Val E) m (ps : list (cprog Item E A)), columnWidth t = Some m ->
  (rexec m (rstart t ps) Aborted <->
   exists i j p q, i <> j /\ nth_error ps i = Some p /\ nth_error ps j = Some q /\ Changing t p /\ Touching t q).
Proof. exact @abort_iff. Qed.
Print Assumptions C81_fatal.

Example C81_fatal_example : columnWidth exTable = Some wempty /\ Changing exTable aligning /\ Touching exTable watching.
Proof. exact (conj eq_refl (conj aligning_changes watching_touches)). Qed.

(** Goroutines that would change nothing do not, and get the results they
    would get alone. *)
Theorem C81_unchanging : forall Item Val E A (t : Table Item Val E) m (ps : list (cprog Item E A)), columnWidth t = Some m ->
  Forall (Unchanging t) ps ->
  ~ rexec m (rstart t ps) Aborted /\
  forall m' ts seen, rexec m (rstart t ps) (Running m' ts seen) -> m' = m /\
    forall i p a, nth_error ps i = Some p -> nth_error ts i = Some (RAt (SRet a)) -> a = snd (in_turn t p).
Proof. exact @unchanging_together. Qed.
Print Assumptions C81_unchanging.

(** So any number may read. *)
Theorem C81_readers : forall Item Val E A (t : Table Item Val E) m (ps : list (cprog Item E A)), columnWidth t = Some m ->
  Forall ReadsOnly ps -> ~ rexec m (rstart t ps) Aborted.
Proof. exact @readers. Qed.
Print Assumptions C81_readers.

(** And after one goroutine has formatted all items, any number may format
    them again, align them, print headers. *)
Theorem C81_second_pass : forall Item Val E A c (spec : TableSpec Item Val E) items (ps : list (cprog Item E A)) m,
  columnWidth (table_run (NewTable (Some spec)) (map (OpFormat c) items)) = Some m -> Forall (FormatsOnly c items) ps ->
  ~ rexec m (rstart (table_run (NewTable (Some spec)) (map (OpFormat c) items)) ps) Aborted /\
  forall m' ts seen, rexec m (rstart (table_run (NewTable (Some spec)) (map (OpFormat c) items)) ps) (Running m' ts seen) -> m' = m /\
    forall i p a, nth_error ps i = Some p -> nth_error ts i = Some (RAt (SRet a)) ->
    a = snd (in_turn (table_run (NewTable (Some spec)) (map (OpFormat c) items)) p).
Proof. intros Item Val E A. exact (@second_pass Item Val E A). Qed.
Print Assumptions C81_second_pass.

Example C81_example : columnWidth (firstPass exC exSpec [exItem1; exItem2]) <> None /\ Forall (FormatsOnly exC [exItem1; exItem2]) work
  /\ snd (in_turn (firstPass exC exSpec [exItem1; exItem2]) aligning) = [lit "go.mod"%string; lit "   12"%string].
Proof. exact pass_example. Qed.

(** One goroutine alone is safe. *)
Theorem C81_alone : forall Item Val E A (t : Table Item Val E) m (p : cprog Item E A), columnWidth t = Some m -> ~ rexec m (rstart t [p]) Aborted.
Proof. exact @alone. Qed.
Print Assumptions C81_alone.

(** One formatting while another only asks for a width is not. *)
Theorem C81_one_writer_refuted : exists (p q : cprog (list str) str (list str)), ReadsOnly q /\ rexec wempty (rstart exTable [p; q]) Aborted.
Proof. exists aligning, watching. split; [constructor; intros; constructor|exact watched]. Qed.
Print Assumptions C81_one_writer_refuted.

(** Executions that get through are executions as in C62. *)
Theorem C81_got_through : forall Item Val E A (t : Table Item Val E) (ps : list (cprog Item E A)) m0 m ts seen,
  rexec m0 (rstart t ps) (Running m ts seen) -> sexec anyhow m0 (map (steps (Columns (tSpec t))) ps) m (map outside ts) seen.
Proof. exact @got_through. Qed.
Print Assumptions C81_got_through.
