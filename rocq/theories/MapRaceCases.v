(** * MapRaceCases: a second pass over the items; one reader and one writer. *)
From Coq Require Import ZifyBool ZifyNat Strings.String.
From Verif Require Import GoBase CacheProofs Runewidth ConditionSpec Width Table TableContract TableOpsProofs TableExamples
  TableRace TableRaceSpec TableRaceProofs TableRaceCases MapRace MapRaceSpec MapRaceProofs.
Local Open Scope Z_scope.

Section Second.
Context {Item Val E : Type}.
Implicit Types (t : Table Item Val E).

Lemma shown_again (c : Condition) (cols : list (option (Column Item Val E))) (items : list Item) item name w : In item items ->
  Shown cols (map (OpFormat c) items ++ [OpFormat c item]) name w -> Shown cols (map (OpFormat c) items) name w.
Proof.
  intros Hin [|before l after w' e I|before c' it after pre col post vs v e e2 HA HC HN].
  - constructor.
  - exfalso. assert (I' : In (OpUpdate (Item := Item) (Val := Val) (E := E) l) (map (OpFormat c) items ++ [OpFormat c item])) by (rewrite e, in_app_iff; cbn [In]; auto).
    apply in_app_iff in I' as [I'|[I'|[]]]; [|discriminate]. apply in_map_iff in I' as (x & I' & _). discriminate.
  - assert (K : c' = c /\ In it items).
    { assert (I' : In (OpFormat (Val := Val) (E := E) c' it) (map (OpFormat c) items ++ [OpFormat c item])) by (rewrite e, in_app_iff; cbn [In]; auto).
      apply in_app_iff in I' as [I'|[I'|[]]].
      - apply in_map_iff in I' as (x & I' & Ix). injection I' as <- <-. auto.
      - injection I' as <- <-. auto. }
    destruct K as [-> K]. assert (Ea : added before = []).
    { assert (P : forall x, In x before -> exists y, x = OpFormat (Val := Val) (E := E) c y).
      { intros x Hx. assert (I' : In x (map (OpFormat c) items ++ [OpFormat c item])) by (rewrite e, in_app_iff; auto).
        apply in_app_iff in I' as [I'|[I'|[]]]; [apply in_map_iff in I' as (y & <- & _); eauto|subst; eauto]. }
      clear -P. induction before as [|x l IH]; [reflexivity|]. destruct (P x (or_introl eq_refl)) as (y & ->).
      cbn. apply IH. intros z Hz. apply P. right. exact Hz. }
    rewrite Ea in e2. apply in_split in K as (l1 & l2 & ->).
    eapply (shown_format _ _ _ (map (OpFormat c) l1) c it (map (OpFormat c) l2)); eauto.
    + rewrite map_app. reflexivity.
    + assert (Eb : added (map (OpFormat (Val := Val) (E := E) c) l1) = []) by (clear; induction l1; [reflexivity|exact IHl1]).
      rewrite Eb. exact e2.
Qed.

Definition firstPass (c : Condition) (spec : TableSpec Item Val E) (items : list Item) : Table Item Val E :=
  table_run (NewTable (Some spec)) (map (OpFormat c) items).

Lemma format_keeps_map c t m item : columnWidth t = Some m -> exists m', fst (FormatItem c t item) = set_width t m'.
Proof. intros H. destruct (format_runs c item (Columns (tSpec t)) t m [] (fun r => SRet r) H) as (m' & e & _). exists m'. exact e. Qed.

Lemma pass_map c spec items : exists m, columnWidth (firstPass c spec items) = Some m.
Proof.
  unfold firstPass, table_run. assert (G : exists m, columnWidth (NewTable (Some spec)) = Some m) by (exists wempty; reflexivity).
  revert G. generalize (NewTable (Some spec)). induction items as [|item items IH]; intros t (m & Hm); [cbn; eauto|].
  cbn [map fold_left]. apply IH. cbn [table_step]. destruct (format_keeps_map c t m item Hm) as (m' & ->). exists m'. reflexivity.
Qed.

Lemma again_same c spec items item name : In item items ->
  Width (fst (FormatItem c (firstPass c spec items) item)) name = Width (firstPass c spec items) name.
Proof.
  intros Hin. set (ops := map (OpFormat (Val := Val) (E := E) c) items).
  assert (U : forall l : list Item, Forall (uint16_op (Item := Item) (Val := Val) (E := E)) (map (OpFormat c) l)) by (intros l; apply Forall_map, Forall_forall; intros; exact Logic.I).
  assert (U2 : Forall uint16_op (ops ++ [OpFormat c item])) by (apply Forall_app; split; [apply U|repeat constructor]).
  assert (e : fst (FormatItem c (firstPass c spec items) item) = table_run (NewTable (Some spec)) (ops ++ [OpFormat c item])).
  { unfold firstPass, table_run. fold ops. rewrite fold_left_app. reflexivity. }
  rewrite e. destruct (history_max (Some spec) (ops ++ [OpFormat c item]) U2 name) as [H1 _].
  destruct (history_max (Some spec) ops (U items) name) as [_ H2].
  apply Z.le_antisymm; [|apply history_mono; exact U2].
  apply H2. apply shown_again with (item := item); auto.
Qed.

Lemma format_same_table c t m item : columnWidth t = Some m ->
  (forall name, Width (fst (FormatItem c t item)) name = Width t name) -> fst (FormatItem c t item) = t.
Proof.
  intros H HW. pose (p := CFormat (E := E) c item (fun r => CRet r)).
  assert (U : Unchanging t p) by exact HW.
  pose proof (unchanging_quiet t m p H U) as Q. pose proof (quiet_runs _ _ _ Q) as R.
  destruct (program_runs p t m H) as (m' & e & R'). pose proof (runs_det _ _ _ _ R _ _ R') as D.
  inversion D; subst; [|discriminate]. cbn [in_turn p fst] in e.
  destruct (format_keeps_map c t m' item H) as (m2 & E2). rewrite E2 in e |- *. cbn in e. injection e as ->.
  destruct t as [s w]. cbn in H. subst w. reflexivity.
Qed.

Lemma formats_only_same {A} c spec items (p : cprog Item E A) : FormatsOnly c items p ->
  fst (in_turn (firstPass c spec items) p) = firstPass c spec items.
Proof.
  destruct (pass_map c spec items) as (m & Hm).
  induction 1 as [a|name k H IH|item k Hin H IH|formatted k H IH|c' sep k H IH|margin k H IH]; cbn [in_turn]; auto.
  rewrite (format_same_table c (firstPass c spec items) m item Hm) by (intros; apply again_same, Hin). apply IH.
Qed.

Lemma second_pass {A} c spec items (ps : list (cprog Item E A)) m :
  columnWidth (firstPass c spec items) = Some m -> Forall (FormatsOnly c items) ps ->
  ~ rexec m (rstart (firstPass c spec items) ps) Aborted /\
  forall m' ts seen, rexec m (rstart (firstPass c spec items) ps) (Running m' ts seen) -> m' = m /\
    forall i p a, nth_error ps i = Some p -> nth_error ts i = Some (RAt (SRet a)) -> a = snd (in_turn (firstPass c spec items) p).
Proof.
  intros H F. apply unchanging_together; [exact H|]. eapply Forall_impl; [|exact F]. intros p Hp n. rewrite formats_only_same; auto.
Qed.
End Second.

Lemma readers {Item Val E A} (t : Table Item Val E) m (ps : list (cprog Item E A)) : columnWidth t = Some m -> Forall ReadsOnly ps ->
  ~ rexec m (rstart t ps) Aborted.
Proof. intros H F. apply unchanging_together; [exact H|]. eapply Forall_impl; [|exact F]. apply reads_only_unchanging. Qed.

Lemma alone {Item Val E A} (t : Table Item Val E) m (p : cprog Item E A) : columnWidth t = Some m -> ~ rexec m (rstart t [p]) Aborted.
Proof.
  intros H X. apply (abort_iff t m [p] H) in X as (i & j & p1 & q & Hij & Hi & Hj & _).
  assert (length [p] = 1%nat) by reflexivity.
  assert (i < 1)%nat by (change 1%nat with (length [p]); apply nth_error_Some; congruence).
  assert (j < 1)%nat by (change 1%nat with (length [p]); apply nth_error_Some; congruence). lia.
Qed.

(** Executions that get through are those of C62. *)
Lemma got_through {Item Val E A} (t : Table Item Val E) (ps : list (cprog Item E A)) m0 m ts seen :
  rexec m0 (rstart t ps) (Running m ts seen) -> sexec anyhow m0 (map (steps (Columns (tSpec t))) ps) m (map outside ts) seen.
Proof.
  intros X. unfold rstart in X. rewrite <- map_map in X. exact (sim _ _ _ X _ _ _ eq_refl).
Qed.

(** ** Examples *)

Definition aligning : cprog (list str) str (list str) := CFormat exC exItem1 (fun r => match r with Ok row => CAlign row (fun o => CRet (fst o)) | _ => CRet [] end).
Definition watching : cprog (list str) str (list str) := CWidth (lit "name"%string) (fun w => CRet (spaces w :: nil)).
Lemma aligning_changes : Changing exTable aligning.
Proof. exists (lit "name"%string). vm_compute. discriminate. Qed.
Lemma watching_touches : Touching exTable watching.
Proof. intros a. discriminate. Qed.
Lemma watched : rexec wempty (rstart exTable [aligning; watching]) Aborted.
Proof.
  apply (abort_iff exTable wempty [aligning; watching] eq_refl). exists 0%nat, 1%nat, aligning, watching.
  repeat split; auto using aligning_changes, watching_touches.
Qed.

Definition work : list (cprog (list str) str (list str)) := [aligning; watching; aligning].
Lemma work_only : Forall (FormatsOnly exC [exItem1; exItem2]) work.
Proof.
  assert (FA : FormatsOnly exC [exItem1; exItem2] aligning).
  { constructor; [left; reflexivity|]. intros [row| |]; try apply fo_ret. apply fo_align. intros. apply fo_ret. }
  assert (FW : FormatsOnly exC [exItem1; exItem2] watching) by (apply fo_width; intros; apply fo_ret).
  constructor; [exact FA|]. constructor; [exact FW|]. constructor; [exact FA|constructor].
Qed.
Lemma pass_example : columnWidth (firstPass exC exSpec [exItem1; exItem2]) <> None /\ Forall (FormatsOnly exC [exItem1; exItem2]) work
  /\ snd (in_turn (firstPass exC exSpec [exItem1; exItem2]) aligning) = [lit "go.mod"%string; lit "   12"%string].
Proof. split; [vm_compute; discriminate|]. split; [exact work_only|]. vm_compute. reflexivity. Qed.
