(** * PropTableRace: goroutines sharing one Table (C62). *)
From Coq Require Import Strings.String.
From Verif Require Import GoBase Runewidth ConditionSpec Width AlignSpec Table TableContract TableExamples
  TableRace TableRaceSpec TableRaceProofs TableRaceCases RaceHalts.
Local Open Scope Z_scope.

(** C62: a recorded width is one that was there or one that was shown. *)
Theorem C62_bounds : forall Item Val E A (cols : list (option (Column Item Val E))) (ps : list (cprog Item E A)) m0 m ts seen name,
  sexec anyhow m0 (map (steps cols) ps) m ts seen -> m name = m0 name \/ In (name, m name) seen.
Proof. intros Item Val E A cols ps m0 m ts seen name. exact (exec_bounds anyhow m0 _ m ts seen name (clean_programs cols ps)). Qed.
Print Assumptions C62_bounds.

(** It is the largest when updates of the column do not overlap. *)
Theorem C62_exact : forall Item Val E A (cols : list (option (Column Item Val E))) (ps : list (cprog Item E A)) m0 m ts seen name,
  sexec (one_at_a_time name) m0 (map (steps cols) ps) m ts seen ->
  (forall w q, ~ In (SPut name w q) ts) -> IsMax (fun w => w = m0 name \/ In (name, w) seen) (m name).
Proof. intros Item Val E A cols ps m0 m ts seen name. exact (exec_exact name m0 _ m ts seen (clean_programs cols ps)). Qed.
Print Assumptions C62_exact.

(** So it is when one goroutine formats and the others only read. *)
Theorem C62_one_writer : forall Item Val E A (cols : list (option (Column Item Val E))) (ps1 ps2 : list (cprog Item E A)) p m0 m ts seen name,
  Forall ReadsOnly (ps1 ++ ps2) -> sexec anyhow m0 (map (steps cols) (ps1 ++ p :: ps2)) m ts seen ->
  (forall w q, ~ In (SPut name w q) ts) -> IsMax (fun w => w = m0 name \/ In (name, w) seen) (m name).
Proof. exact @one_writer. Qed.
Print Assumptions C62_one_writer.

(** The formatted rows do not depend on the others at all. *)
Theorem C62_rows : forall Item Val E c (t : Table Item Val E) m0 (ps : list (cprog Item E (list (outcome E (list str))))) m ts seen i items rows,
  columnWidth t <> None -> sexec anyhow m0 (map (steps (Columns (tSpec t))) ps) m ts seen ->
  nth_error ps i = Some (format_all c items []) -> nth_error ts i = Some (SRet rows) ->
  rows = map (fun item => snd (FormatItem c t item)) items.
Proof. intros Item Val E. exact (rows_anyhow anyhow). Qed.
Print Assumptions C62_rows.

(** Items shared out among goroutines: the widths of formatting them in turn. *)
Theorem C62_split : forall Item Val E c (spec : TableSpec Item Val E) (work : list (list Item)) m seen rows name,
  sexec each_apart wempty (map (fun items => steps (Columns spec) (format_all (E := E) c items [])) work) m (map SRet rows) seen ->
  m name = Width (table_run (NewTable (Some spec)) (map (OpFormat c) (List.concat work))) name.
Proof. intros Item Val E c spec work m seen rows name X. exact (split_items c spec work m _ seen rows X eq_refl name). Qed.
Print Assumptions C62_split.

(** One goroutine alone: the methods, called one after the other. *)
Theorem C62_alone : forall Item Val E A (p : cprog Item E A) (t : Table Item Val E) m, columnWidth t = Some m ->
  (exists m' seen, sexec anyhow m [steps (Columns (tSpec t)) p] m' [SRet (snd (in_turn t p))] seen) /\
  (forall m' a seen, sexec anyhow m [steps (Columns (tSpec t)) p] m' [SRet a] seen ->
     columnWidth (fst (in_turn t p)) = Some m' /\ a = snd (in_turn t p)).
Proof.
  intros Item Val E A p t m H. split.
  - destruct (alone_in_turn p t m H) as (m' & seen & _ & X). exact (ex_intro _ m' (ex_intro _ seen X)).
  - intros m' a seen. exact (alone_only p t m anyhow m' a seen H).
Qed.
Print Assumptions C62_alone.

(** No execution gets stuck. *)
Theorem C62_all_end : forall Item Val E A (cols : list (option (Column Item Val E))) (ps : list (cprog Item E A)) m0 m ts seen,
  sexec anyhow m0 (map (steps cols) ps) m ts seen ->
  exists m' results seen', sexec anyhow m0 (map (steps cols) ps) m' (map SRet results) seen' /\ List.length results = List.length ts.
Proof. intros Item Val E A cols ps m0 m ts seen. exact (all_end m0 _ m ts seen). Qed.
Print Assumptions C62_all_end.

(** None goes on for ever. *)
Theorem C62_halts : forall Item Val E A (cols : list (option (Column Item Val E))) (ps : list (cprog Item E A)) m0,
  ~ exists f, f O = (m0, map (steps cols) ps) /\ forall n, moves_on (f n) (f (S n)).
Proof. intros Item Val E A cols ps m0. exact (table_halts m0 _). Qed.
Print Assumptions C62_halts.

Example C62_example : exists m seen,
  sexec each_apart wempty (map (fun items => steps (Columns exSpec) (format_all exC items [])) [[exItem1]; [exItem2]]) m
    (map SRet [[Ok exItem1]; [Ok exItem2]]) seen /\
  m shortName = 6 /\ m (lit "size"%string) = 5.
Proof. exact apart_example. Qed.

(** Two goroutines formatting at once can leave a column narrower than its cells. *)
Theorem C62_lost_width_refuted : exists m seen,
  sexec anyhow wempty (map (steps exCols) two) m (map SRet [[Ok exItem1]; [Ok exItem2]]) seen /\
  In (shortName, 6) seen /\ m shortName = 1 /\
  align ALeft exC (lit "go.mod"%string) (m shortName) = lit "go.mod"%string /\
  align ALeft exC (lit "x"%string) (m shortName) = lit "x"%string.
Proof. exact lost_width. Qed.
Print Assumptions C62_lost_width_refuted.
