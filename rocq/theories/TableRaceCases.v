(** * TableRaceCases: the calls of one goroutine, lists of items, lost widths. *)
From Coq Require Import ZifyBool ZifyNat Permutation Strings.String.
From Verif Require Import GoBase CacheProofs Runewidth ConditionSpec Width AlignSpec Table TableContract TableOpsProofs TableExamples
  TableRace TableRaceSpec TableRaceProofs.
Local Open Scope Z_scope.

(** ** Alone *)
Inductive runs {A} : wmap -> sprog A -> wmap -> sprog A -> Prop :=
| ru_refl m t : runs m t m t
| ru_step m t m1 t1 more m2 t2 : sstep m t = Some (m1, t1, more) -> runs m1 t1 m2 t2 -> runs m t m2 t2.
Lemma runs_trans {A} m (t : sprog A) m1 t1 m2 t2 : runs m t m1 t1 -> runs m1 t1 m2 t2 -> runs m t m2 t2.
Proof. induction 1; auto. intros. econstructor; eauto. Qed.
Lemma runs_exec {A} m0 ts0 m (t : sprog A) m' t' b a seen : runs m t m' t' -> sexec anyhow m0 ts0 m (b ++ t :: a) seen ->
  exists seen', sexec anyhow m0 ts0 m' (b ++ t' :: a) seen'.
Proof.
  intros R. revert seen. induction R as [|m t m1 t1 more m2 t2 S R IH]; intros seen X; eauto.
  eapply IH. eapply se_step; eauto. exact Logic.I.
Qed.

(** Nothing else can come of one goroutine alone. *)
Lemma runs_ret {A} m (t : sprog A) m1 a : runs m t m1 (SRet a) -> forall P m2 b seen,
  sexec P m [t] m2 [SRet b] seen -> m2 = m1 /\ b = a.
Proof.
  assert (S1 : forall P m0 (t0 : sprog A) m2 ts seen, sexec P m0 [t0] m2 ts seen -> exists t2, ts = [t2] /\ runs m0 t0 m2 t2).
  { intros P m0 t0 m2 ts seen X. induction X as [|m' before u after seen m'' u' more X IH HP S].
    - exists t0. split; [reflexivity|constructor].
    - destruct IH as (t2 & e & R). destruct before as [|x [|y before]]; try discriminate. injection e as -> ->.
      exists u'. split; [reflexivity|]. eapply runs_trans; [exact R|]. econstructor; [exact S|constructor]. }
  assert (D : forall m (t : sprog A) m1 a m2 b, runs m t m1 (SRet a) -> runs m t m2 (SRet b) -> m2 = m1 /\ b = a).
  { clear. intros m t m1 a m2 b H. remember (SRet a) as u. revert Hequ. induction H as [m t|m t m1 t1 more m3 t3 S R IH]; intros Hu K; subst.
    - inversion K; subst; [auto|discriminate].
    - inversion K; subst; [discriminate|]. rewrite S in H. injection H as <- <- <-. auto. }
  intros H P m2 b seen X. destruct (S1 _ _ _ _ _ _ X) as (t2 & e & R). injection e as <-. eauto.
Qed.

(** Every goroutine can go on until it returns. *)
Lemma runs_on {A} (t : sprog A) : forall m, exists m' a, runs m t m' (SRet a).
Proof.
  induction t as [a|name k IH|name w p IH|name w p IH]; intros m.
  - exists m, a. constructor.
  - destruct (IH (m name) m) as (m' & a & R). exists m', a. econstructor; [reflexivity|exact R].
  - destruct (w >? m name) eqn:e.
    + destruct (IH (wset m name w)) as (m' & a & R). exists m', a. econstructor; [cbn [sstep]; rewrite e; reflexivity|].
      econstructor; [reflexivity|exact R].
    + destruct (IH m) as (m' & a & R). exists m', a. econstructor; [cbn [sstep]; rewrite e; reflexivity|exact R].
  - destruct (IH (wset m name w)) as (m' & a & R). exists m', a. econstructor; [reflexivity|exact R].
Qed.
Lemma all_end {A} m0 ts0 m (ts : list (sprog A)) seen : sexec anyhow m0 ts0 m ts seen ->
  exists m' rs seen', sexec anyhow m0 ts0 m' (map SRet rs) seen' /\ List.length rs = List.length ts.
Proof.
  enough (G : forall todo done m seen, sexec anyhow m0 ts0 m (map SRet done ++ todo) seen ->
     exists m' rs seen', sexec anyhow m0 ts0 m' (map SRet rs) seen' /\ List.length rs = (List.length done + List.length todo)%nat).
  { intros X. exact (G ts [] m seen X). }
  clear. induction todo as [|t todo IH]; intros done m seen X.
  - rewrite app_nil_r in X. exists m, done, seen. cbn [List.length]. split; [exact X|lia].
  - destruct (runs_on t m) as (m1 & a & R). destruct (runs_exec _ _ _ _ _ _ _ _ _ R X) as (seen1 & X1).
    destruct (IH (done ++ [a]) m1 seen1) as (m2 & rs & seen2 & X2 & L).
    + rewrite map_app, <- app_assoc. exact X1.
    + exists m2, rs, seen2. split; auto. rewrite L, app_length. cbn [List.length]. lia.
Qed.

Section Types.
Context {Item Val E A : Type}.
Notation Table := (Table Item Val E).
Notation Column := (Column Item Val E).

Lemma check_runs (t : Table) m name w (p : sprog A) : columnWidth t = Some m ->
  exists m', raise_width t name w = (set_width t m', Ok tt : outcome E unit) /\ runs m (SCheck name w p) m' p.
Proof.
  intros H. unfold raise_width. rewrite H. cbn [wread]. destruct (w >? m name) eqn:e.
  - exists (wset m name w). split; auto. econstructor; [cbn [sstep]; rewrite e; reflexivity|].
    econstructor; [reflexivity|]. constructor.
  - exists m. split; [unfold set_width; destruct t; cbn in *; subst; reflexivity|].
    econstructor; [cbn [sstep]; rewrite e; reflexivity|]. constructor.
Qed.

Lemma update_runs l (t : Table) m (p : sprog A) : columnWidth t = Some m ->
  exists m', fst (UpdateWidth (E := E) t l) = set_width t m' /\ runs m (updateS l p) m' p.
Proof.
  revert t m. induction l as [|[n w] l IH]; intros t m H; cbn [UpdateWidth updateS].
  - exists m. split; [destruct t; cbn in *; subst; reflexivity|constructor].
  - destruct (check_runs t m n w (updateS l p) H) as (m1 & e & R). rewrite e.
    destruct (IH (set_width t m1) m1 eq_refl) as (m2 & e2 & R2). exists m2. rewrite e2. split; [destruct t; reflexivity|].
    eapply runs_trans; eauto.
Qed.

Lemma format_runs c item cols (t : Table) m done (k : outcome E (list str) -> sprog A) : columnWidth t = Some m ->
  exists m', fst (formatItem_loop c t cols item done) = set_width t m' /\
    runs m (formatS c cols item done k) m' (k (snd (formatItem_loop c t cols item done))).
Proof.
  assert (St : forall (t : Table) m, columnWidth t = Some m -> t = set_width t m).
  { intros [s w] m0 H. cbn in *. subst. reflexivity. }
  revert t m done. induction cols as [|[col|] cols IH]; intros t m done H; cbn [formatItem_loop formatS].
  - exists m. split; [apply St, H|constructor].
  - destruct (colGetter col) as [g|]; [|exists m; split; [apply St, H|constructor]].
    destruct (getValue g item) as [v|e|r]; [|exists m; split; [apply St, H|constructor]..].
    destruct (getFormat g item v) as [f|e|r]; [|exists m; split; [apply St, H|constructor]..].
    destruct (check_runs t m (colName col) (vwidth c f) (formatS c cols item (done ++ [f]) k) H) as (m1 & e & R). rewrite e.
    destruct (IH (set_width t m1) m1 (done ++ [f]) eq_refl) as (m2 & e2 & R2). exists m2. rewrite e2.
    split; [destruct t; reflexivity|]. eapply runs_trans; eauto.
  - exists m. split; [apply St, H|constructor].
Qed.

Lemma get_runs m name (k : Z -> sprog A) : runs m (SGet name k) m (k (m name)).
Proof. econstructor; [reflexivity|constructor]. Qed.

Lemma align_runs cols (t : Table) m done todo (k : list str * outcome (Z * Z) (list str) -> sprog A) : columnWidth t = Some m ->
  runs m (alignS_loop cols done todo k) m (k (alignFormatted_loop t cols done todo)).
Proof.
  intros H. revert done todo. induction cols as [|[col|] cols IH]; intros done [|s todo]; cbn [alignS_loop alignFormatted_loop]; try constructor.
  destruct (colAlignment col) as [al|]; [|apply IH].
  replace (Width t (colName col)) with (m (colName col)) by (unfold Width; rewrite H; reflexivity).
  eapply runs_trans; [apply get_runs|]. apply IH.
Qed.
Lemma header_runs c sep cols (t : Table) m acc (k : outcome E str -> sprog A) : columnWidth t = Some m ->
  runs m (headerS c cols sep acc k) m (k (formatHeader_loop c t cols sep acc)).
Proof.
  intros H. revert acc. induction cols as [|[col|] cols IH]; intros acc; cbn [headerS formatHeader_loop]; try constructor.
  eapply runs_trans; [apply get_runs|].
  replace (padColumnHeader c t col) with (headerCell c col (m (colName col))); [apply IH|].
  unfold padColumnHeader, headerCell, Width. rewrite H. reflexivity.
Qed.
Lemma tableWidth_runs cols (t : Table) m w (k : outcome E Z -> sprog A) : columnWidth t = Some m ->
  runs m (tableWidthS_loop cols w k) m (k (tableWidth_loop t cols w)).
Proof.
  intros H. revert w. induction cols as [|[col|] cols IH]; intros w; cbn [tableWidthS_loop tableWidth_loop]; try constructor.
  replace (Width t (colName col)) with (m (colName col)) by (unfold Width; rewrite H; reflexivity).
  eapply runs_trans; [apply get_runs|]. apply IH.
Qed.

Lemma program_runs (p : cprog Item E A) (t : Table) m : columnWidth t = Some m ->
  exists m', columnWidth (fst (in_turn t p)) = Some m' /\
    runs m (steps (Columns (tSpec t)) p) m' (SRet (snd (in_turn t p))).
Proof.
  revert t m. induction p as [a|l p IH|name k IH|c item k IH|formatted k IH|c sep k IH|margin k IH]; intros t m H; cbn [in_turn steps].
  - exists m. split; [exact H|constructor].
  - destruct (update_runs l t m (steps (Columns (tSpec t)) p) H) as (m1 & e & R). rewrite e.
    destruct (IH (set_width t m1) m1 eq_refl) as (m2 & e2 & R2). exists m2. split; auto. eapply runs_trans; eauto.
  - destruct (IH (Width t name) t m H) as (m2 & e2 & R2). exists m2. split; auto.
    eapply runs_trans; [apply get_runs|]. replace (m name) with (Width t name) by (unfold Width; rewrite H; reflexivity). exact R2.
  - destruct (format_runs c item (Columns (tSpec t)) t m [] (fun r => steps (Columns (tSpec t)) (k r)) H) as (m1 & e & R).
    fold (FormatItem c t item) in e, R. rewrite e.
    destruct (IH (snd (FormatItem c t item)) (set_width t m1) m1 eq_refl) as (m2 & e2 & R2). exists m2. split; auto.
    eapply runs_trans; eauto.
  - destruct (IH (AlignFormattedItem t formatted) t m H) as (m2 & e2 & R2). exists m2. split; auto.
    eapply runs_trans; [|exact R2]. unfold alignS, AlignFormattedItem, ColumnCount.
    destruct (negb _); [constructor|]. exact (align_runs (Columns (tSpec t)) t m [] formatted _ H).
  - destruct (IH (FormatHeader c t sep) t m H) as (m2 & e2 & R2). exists m2. split; auto.
    eapply runs_trans; [|exact R2]. exact (header_runs c sep (Columns (tSpec t)) t m [] (fun r => steps (Columns (tSpec t)) (k r)) H).
  - destruct (IH (TableWidth t margin) t m H) as (m2 & e2 & R2). exists m2. split; auto.
    eapply runs_trans; [|exact R2]. exact (tableWidth_runs (Columns (tSpec t)) t m _ (fun r => steps (Columns (tSpec t)) (k r)) H).
Qed.

Lemma alone_only (p : cprog Item E A) (t : Table) m P m' a seen : columnWidth t = Some m ->
  sexec P m [steps (Columns (tSpec t)) p] m' [SRet a] seen ->
  columnWidth (fst (in_turn t p)) = Some m' /\ a = snd (in_turn t p).
Proof.
  intros H X. destruct (program_runs p t m H) as (m1 & e & R). destruct (runs_ret _ _ _ _ R _ _ _ _ X) as [-> ->]. auto.
Qed.
Lemma alone_in_turn (p : cprog Item E A) (t : Table) m : columnWidth t = Some m ->
  exists m' seen, columnWidth (fst (in_turn t p)) = Some m' /\
    sexec anyhow m [steps (Columns (tSpec t)) p] m' [SRet (snd (in_turn t p))] seen.
Proof.
  intros H. destruct (program_runs p t m H) as (m' & e & R).
  destruct (runs_exec m [steps (Columns (tSpec t)) p] m _ m' _ [] [] [] R (se_refl _ _ _)) as (seen & X). eauto.
Qed.
End Types.

(** ** The methods *)
Lemma clean_programs {Item Val E A} cols (ps : list (cprog Item E A)) : Forall Clean (map (steps (Val := Val) cols) ps).
Proof. apply Forall_map, Forall_forall. intros. apply steps_clean. Qed.

Lemma ends_format {Item Val E A} c (cols : list (option (Column Item Val E))) item done (k : _ -> sprog A) a (t : Table Item Val E) :
  columnWidth t <> None -> Ends (formatS c cols item done k) a -> Ends (k (snd (formatItem_loop c t cols item done))) a.
Proof.
  revert done t. induction cols as [|[col|] cols IH]; intros done t Ht; cbn [formatS formatItem_loop]; auto.
  destruct (colGetter col); auto. destruct (getValue _ _); auto. destruct (getFormat _ _ _) as [f|e|r]; auto. intros H.
  inversion H; subst. destruct (raise_ok t (colName col) (vwidth c f) Ht) as (t' & e & _ & Hm & _). rewrite e. apply IH; auto.
Qed.
Lemma ends_format_all {Item Val E} c (t : Table Item Val E) items acc a : columnWidth t <> None ->
  Ends (steps (Columns (tSpec t)) (format_all (E := E) c items acc)) a -> a = acc ++ map (fun item => snd (FormatItem c t item)) items.
Proof.
  intros Ht. revert acc. induction items as [|item items IH]; intros acc; cbn [format_all steps map].
  - intros H. inversion H. rewrite app_nil_r. reflexivity.
  - intros H. apply ends_format with (t := t) in H; auto. apply IH in H. rewrite H, <- app_assoc. reflexivity.
Qed.
Lemma rows_anyhow {Item Val E} P c (t : Table Item Val E) m0 (ps : list (cprog Item E (list (outcome E (list str))))) m ts seen i items rows :
  columnWidth t <> None -> sexec P m0 (map (steps (Columns (tSpec t))) ps) m ts seen ->
  nth_error ps i = Some (format_all c items []) -> nth_error ts i = Some (SRet rows) ->
  rows = map (fun item => snd (FormatItem c t item)) items.
Proof.
  intros Ht X Hp Hi. destruct (exec_ends P m0 _ m ts seen i _ rows X Hi (en_ret _)) as (t0 & e & H).
  rewrite nth_error_map, Hp in e. injection e as <-. apply (ends_format_all c t items [] rows Ht) in H. exact H.
Qed.

(** ** One goroutine that updates *)
Section OneWriter.
Context {A : Type}.
(** No comparison, no write. *)
Inductive Still : sprog A -> Prop :=
| sl_ret a : Still (SRet a)
| sl_get name k : (forall w, Still (k w)) -> Still (SGet name k).
Lemma still_exec P m0 b0 t0 a0 m ts seen : Forall Still (b0 ++ a0) -> sexec P m0 (b0 ++ t0 :: a0) m ts seen ->
  exists b t a, ts = b ++ t :: a /\ List.length b = List.length b0 /\ Forall Still (b ++ a).
Proof.
  intros H X. induction X as [|m before t after seen m' t' more X IH HP S].
  - exists b0, t0, a0. auto.
  - destruct IH as (b & u & a & e & L & F).
    assert (ST : forall x, Still t -> t' = x -> Still x).
    { intros x HS <-. inversion HS as [|n k HK e1]; subst; cbn [sstep] in S; [discriminate|]. injection S as <- <- <-. auto. }
    apply app_eq_app in e. destruct e as (l & [[e1 e2]|[e1 e2]]).
    + destruct l as [|y l]; cbn [app] in e2; injection e2 as e2 e3.
      * rewrite app_nil_r in e1. subst. exists b, t', after. auto.
      * subst y a. exists b, u, (l ++ t' :: after). rewrite e1, <- app_assoc. split; [reflexivity|]. split; auto.
        rewrite !Forall_app, !Forall_cons_iff in *. destruct F as (F1 & F2 & F3 & F4). eauto 10.
    + destruct l as [|y l]; cbn [app] in e2; injection e2 as e2 e3.
      * rewrite app_nil_r in e1. subst. eexists before, t', _. eauto.
      * subst y after. exists (before ++ t' :: l), u, a. rewrite <- app_assoc. split; [reflexivity|].
        subst b. split; [rewrite <- L, !app_length; reflexivity|].
        rewrite !Forall_app, !Forall_cons_iff in *. destruct F as ((F1 & F2 & F3) & F4). eauto 10.
Qed.
Lemma still_one_at_a_time name m b t a : Forall Still (b ++ a) -> one_at_a_time (A := A) name m (b ++ t :: a).
Proof.
  intros F. assert (K : forall i w p, nth_error (b ++ t :: a) i = Some (SPut name w p) -> i = List.length b).
  { intros i w p Hi. destruct (Nat.lt_trichotomy i (List.length b)) as [L|[L|L]]; auto; exfalso; rewrite Forall_app in F; destruct F as [F1 F2].
    - rewrite nth_error_app1 in Hi by auto. apply nth_error_In in Hi. rewrite Forall_forall in F1. specialize (F1 _ Hi). inversion F1.
    - rewrite nth_error_app2 in Hi by lia. destruct (i - List.length b)%nat as [|d] eqn:e; [lia|]. cbn in Hi. apply nth_error_In in Hi.
      rewrite Forall_forall in F2. specialize (F2 _ Hi). inversion F2. }
  intros i j w w' p p' Hi Hj. apply K in Hi, Hj. congruence.
Qed.
Lemma still_apart name m0 b0 t0 a0 m ts seen : Forall Still (b0 ++ a0) -> sexec anyhow m0 (b0 ++ t0 :: a0) m ts seen ->
  sexec (one_at_a_time name) m0 (b0 ++ t0 :: a0) m ts seen.
Proof.
  intros H X. induction X as [|m before t after seen m' t' more X IH HP S]; [constructor|].
  eapply se_step; eauto. destruct (still_exec _ _ _ _ _ _ _ _ H X) as (b & u & a & e & _ & F). rewrite e.
  apply still_one_at_a_time, F.
Qed.
End OneWriter.

Lemma reads_still {Item Val E A} cols (p : cprog Item E A) : ReadsOnly p -> Still (steps (Val := Val) cols p).
Proof.
  assert (L : forall cs done todo k, (forall r, Still (k r)) -> Still (alignS_loop (Item := Item) (Val := Val) (E := E) (A := A) cs done todo k)).
  { induction cs as [|[col|] cs IH]; intros done [|s todo] k H; cbn [alignS_loop]; auto.
    destruct (colAlignment col); auto. constructor. auto. }
  assert (H' : forall c sep cs acc k, (forall r, Still (k r)) -> Still (headerS (Item := Item) (Val := Val) (E := E) (A := A) c cs sep acc k)).
  { intros c sep. induction cs as [|[col|] cs IH]; intros acc k H; cbn [headerS]; auto. constructor. auto. }
  assert (T : forall cs w k, (forall r, Still (k r)) -> Still (tableWidthS_loop (Item := Item) (Val := Val) (E := E) (A := A) cs w k)).
  { induction cs as [|[col|] cs IH]; intros w k H; cbn [tableWidthS_loop]; auto. constructor. auto. }
  induction 1; cbn [steps]; auto.
  - constructor.
  - constructor. auto.
  - unfold alignS. destruct (negb _); auto.
  - apply T. auto.
Qed.

Lemma one_writer {Item Val E A} (cols : list (option (Column Item Val E))) (ps1 ps2 : list (cprog Item E A)) p m0 m ts seen name :
  Forall ReadsOnly (ps1 ++ ps2) -> sexec anyhow m0 (map (steps cols) (ps1 ++ p :: ps2)) m ts seen ->
  (forall w q, ~ In (SPut name w q) ts) -> IsMax (fun w => w = m0 name \/ In (name, w) seen) (m name).
Proof.
  intros H X N. pose proof (clean_programs cols (ps1 ++ p :: ps2)) as C. rewrite map_app in *. cbn [map] in *.
  eapply (exec_exact name m0); [exact C| |exact N]. apply still_apart; auto.
  rewrite <- map_app. apply Forall_map. eapply Forall_impl; [|exact H]. intros q. apply reads_still.
Qed.

(** ** Splitting the items among goroutines *)
Section Split.
Context {Item Val E : Type}.
Notation Column := (Column Item Val E).
Variable (c : Condition) (cols : list (option Column)).

(** The widths FormatItem compares. *)
Fixpoint offers (cs : list (option Column)) (item : Item) : list (str * Z) :=
  match cs with
  | Some col :: rest =>
    match cell item (Some col) with Ok v => (colName col, vwidth c v) :: offers rest item | _ => [] end
  | _ => []
  end.

Fixpoint left_over {A} (p : sprog A) : list (str * Z) :=
  match p with
  | SCheck name w p => (name, w) :: left_over p
  | SPut _ _ p => left_over p
  | _ => []
  end.
(** No width is read. *)
Inductive Blind {A} : sprog A -> Prop :=
| bl_ret a : Blind (SRet a)
| bl_check name w p : Blind p -> Blind (SCheck name w p)
| bl_put name w p : Blind p -> Blind (SPut name w p).

Lemma format_left {A} item (cs : list (option Column)) done (k : _ -> sprog A) rest : (forall r, left_over (k r) = rest) ->
  left_over (formatS c cs item done k) = offers cs item ++ rest.
Proof.
  intros H. revert done. induction cs as [|[col|] cs IH]; intros done; cbn [formatS offers cell]; auto.
  destruct (colGetter col); auto. destruct (getValue _ _); auto. destruct (getFormat _ _ _); auto. cbn [left_over app]. rewrite IH. reflexivity.
Qed.
Lemma format_blind {A} item (cs : list (option Column)) done (k : _ -> sprog A) : (forall r, Blind (k r)) -> Blind (formatS c cs item done k).
Proof.
  intros H. revert done. induction cs as [|[col|] cs IH]; intros done; cbn [formatS]; auto.
  destruct (colGetter col); auto. destruct (getValue _ _); auto. destruct (getFormat _ _ _); auto. constructor. auto.
Qed.
Lemma format_all_left items acc : left_over (steps cols (format_all (E := E) c items acc)) = flat_map (offers cols) items.
Proof.
  revert acc. induction items as [|item items IH]; intros acc; cbn [format_all steps flat_map]; auto.
  apply format_left. intros r. apply IH.
Qed.
Lemma format_all_blind items acc : Blind (steps cols (format_all (E := E) c items acc)).
Proof.
  revert acc. induction items as [|item items IH]; intros acc; cbn [format_all steps]; [constructor|].
  apply format_blind. intros r. apply IH.
Qed.

Lemma exec_left {A} P m0 ts0 m (ts : list (sprog A)) seen : Forall Blind ts0 -> sexec P m0 ts0 m ts seen ->
  Forall Blind ts /\ Permutation (flat_map left_over ts0) (seen ++ flat_map left_over ts).
Proof.
  intros B X. induction X as [|m before t after seen m' t' more X IH HP S]; [split; auto|].
  destruct IH as [B1 IH]. rewrite Forall_app, Forall_cons_iff in *. destruct B1 as (Ba & Bt & Bb).
  rewrite !flat_map_app in *. cbn [flat_map] in *.
  destruct Bt as [a|n w p Bp|n w p Bp]; cbn [sstep] in S; try discriminate; injection S as <- <- <-; cbn [left_over] in IH.
  - split; [split; auto; split; auto; destruct (w >? m n); [constructor|]; auto|].
    replace (left_over (if w >? m n then SPut n w p else p)) with (left_over p) by (destruct (w >? m n); reflexivity).
    rewrite IH. rewrite <- !app_assoc. apply Permutation_app_head. cbn [app].
    symmetry. apply Permutation_middle.
  - split; auto. rewrite app_nil_r. exact IH.
Qed.

Lemma offers_shown items name w : In (name, w) (flat_map (offers cols) items) <->
  exists before item after pre col post vs v, items = before ++ item :: after /\
    cols = pre ++ Some col :: post /\ AllOk (cell item) pre vs /\ cell item (Some col) = Ok v /\ colName col = name /\ w = vwidth c v.
Proof.
  assert (O : forall item cs, In (name, w) (offers cs item) <-> exists pre col post vs v,
     cs = pre ++ Some col :: post /\ AllOk (cell item) pre vs /\ cell item (Some col) = Ok v /\ colName col = name /\ w = vwidth c v).
  { intros item. induction cs as [|[col|] cs IH]; cbn [offers].
    - split; [intros []|]. intros (pre & col & post & vs & v & e & _). destruct pre; discriminate.
    - destruct (cell item (Some col)) as [v|e|r] eqn:Ec.
      + cbn [In]. rewrite IH. split.
        * intros [e|(pre & col' & post & vs & v' & e & Ho & R)].
          -- injection e as <- <-. exists [], col, cs, [], v. split; auto. split; [constructor|]. auto.
          -- exists (Some col :: pre), col', post, (v :: vs), v'. rewrite e. split; auto. split; [constructor; auto|]. auto.
        * intros (pre & col' & post & vs & v' & e & Ho & R). destruct pre as [|o pre]; cbn [app] in e; injection e as e1 e2.
          -- subst col'. left. destruct R as (R1 & <- & ->). congruence.
          -- right. subst o cs. inversion Ho; subst. exists pre, col', post, l', v'. auto.
      + split; [intros []|]. intros (pre & col' & post & vs & v' & e1 & Ho & R). destruct pre as [|o pre]; cbn [app] in e1; injection e1 as e1 e2.
        * subst col'. destruct R as (R1 & _). congruence.
        * subst o. inversion Ho; subst. congruence.
      + split; [intros []|]. intros (pre & col' & post & vs & v' & e1 & Ho & R). destruct pre as [|o pre]; cbn [app] in e1; injection e1 as e1 e2.
        * subst col'. destruct R as (R1 & _). congruence.
        * subst o. inversion Ho; subst. congruence.
    - split; [intros []|]. intros (pre & col & post & vs & v & e & Ho & _). destruct pre as [|o pre]; cbn [app] in e; injection e as e1 e2; [discriminate|].
      subst o. inversion Ho; subst. discriminate. }
  rewrite in_flat_map. split.
  - intros (item & Hi & Ho). apply O in Ho. destruct Ho as (pre & col & post & vs & v & R). apply in_split in Hi.
    destruct Hi as (b & a & ->). exists b, item, a, pre, col, post, vs, v. tauto.
  - intros (b & item & a & pre & col & post & vs & v & -> & R). exists item. split; [apply in_elt|]. apply O. exists pre, col, post, vs, v. exact R.
Qed.
End Split.

Lemma split_map {T U} (f : T -> U) l b y a : map f l = b ++ y :: a -> exists b' x a', l = b' ++ x :: a' /\ f x = y.
Proof.
  revert b. induction l as [|x l IH]; intros [|z b] H; cbn in H; try discriminate; injection H as H1 H2.
  - exists [], x, l. auto.
  - destruct (IH b H2) as (b' & x' & a' & -> & e). exists (x :: b'), x', a'. auto.
Qed.

Lemma exec_weaken {A} (P Q : wmap -> list (sprog A) -> Prop) m0 ts0 m ts seen :
  (forall m ts, P m ts -> Q m ts) -> sexec P m0 ts0 m ts seen -> sexec Q m0 ts0 m ts seen.
Proof. intros H X. induction X; [constructor|]. eapply se_step; eauto. Qed.

Lemma split_items {Item Val E} c (spec : TableSpec Item Val E) (work : list (list Item)) m ts seen rows :
  sexec each_apart wempty (map (fun items => steps (Columns spec) (format_all (E := E) c items [])) work) m ts seen ->
  ts = map SRet rows -> forall name,
  m name = Width (table_run (NewTable (Some spec)) (map (OpFormat c) (List.concat work))) name.
Proof.
  intros X0 -> name. assert (X := exec_weaken each_apart (one_at_a_time name) _ _ _ _ _ (fun m ts H => H name) X0). clear X0.
  set (ts0 := map (fun items => steps (Columns spec) (format_all (E := E) c items [])) work) in *.
  assert (B : Forall Blind ts0) by (apply Forall_map, Forall_forall; intros; apply format_all_blind).
  assert (C : Forall Clean ts0) by (apply Forall_map, Forall_forall; intros; apply steps_clean).
  destruct (exec_left _ _ _ _ _ _ B X) as [_ Pm].
  replace (flat_map left_over (map SRet rows)) with (@nil (str * Z)) in Pm by (clear; induction rows; auto).
  rewrite app_nil_r in Pm.
  assert (L : flat_map left_over ts0 = flat_map (offers c (Columns spec)) (List.concat work)).
  { unfold ts0. clear. induction work as [|items work IH]; cbn [map flat_map List.concat]; auto.
    rewrite flat_map_app, IH, format_all_left. reflexivity. }
  rewrite L in Pm.
  assert (M : IsMax (shown wempty seen name) (m name)).
  { eapply exec_exact; eauto. intros w p I. apply in_map_iff in I. destruct I as (x & e & _). discriminate. }
  pose proof (history_max (Some spec) (map (OpFormat c) (List.concat work))) as HM.
  specialize (HM ltac:(apply Forall_map, Forall_forall; intros; exact Logic.I) name).
  apply (IsMax_unique _ _ _ M). eapply IsMax_ext; [|exact HM]. intros w. unfold shown.
  replace (wempty name) with 0 by reflexivity.
  assert (I : In (name, w) seen <-> In (name, w) (flat_map (offers c (Columns spec)) (List.concat work))).
  { split; apply Permutation_in; [symmetry|]; exact Pm. }
  rewrite I, offers_shown. clear. generalize (List.concat work) as items. intros items.
  assert (AD : forall its, added (Item := Item) (Val := Val) (E := E) (map (OpFormat c) its) = []) by (induction its; auto).
  split.
  - intros H. inversion H as [e|before l after w' e Hl|before c' item after pre col post vs v e ec Ha Hc Hn].
    + auto.
    + exfalso. subst. clear - e. revert before e. induction items; intros [|? ?] e; cbn in e; try discriminate.
      injection e as _ e. eauto.
    + right. destruct (split_map _ _ _ _ _ e) as (b' & x & a' & -> & ex). injection ex as <- ->.
      exists b', item, a', pre, col, post, vs, v. repeat split; auto.
      assert (before = map (OpFormat c) (firstn (List.length before) (b' ++ item :: a'))) as Eb.
      { rewrite <- firstn_map, e, firstn_app, firstn_all, Nat.sub_diag. cbn [firstn]. rewrite app_nil_r. reflexivity. }
      rewrite Eb, AD, app_nil_r in ec. exact ec.
  - intros [->|(b & item & a & pre & col & post & vs & v & -> & ec & Ha & Hc & Hn & ->)]; [constructor|].
    eapply (shown_format _ _ _ (map (OpFormat c) b) c item (map (OpFormat c) a)); eauto.
    + rewrite map_app. reflexivity.
    + rewrite AD, app_nil_r. exact ec.
Qed.

(** ** A lost width *)
Definition two : list (cprog (list str) str (list (outcome str (list str)))) := [format_all exC [exItem1] []; format_all exC [exItem2] []].
Definition shortName : str := lit "name"%string.
Definition rest1 := SCheck (A := list (outcome str (list str))) (lit "size"%string) 2 (SRet [Ok exItem1]).
Definition rest2 := SCheck (A := list (outcome str (list str))) (lit "size"%string) 5 (SRet [Ok exItem2]).

Lemma lost_width : exists m seen,
  sexec anyhow wempty (map (steps exCols) two) m (map SRet [[Ok exItem1]; [Ok exItem2]]) seen /\
  In (shortName, 6) seen /\ m shortName = 1 /\
  align ALeft exC (lit "go.mod"%string) (m shortName) = lit "go.mod"%string /\
  align ALeft exC (lit "x"%string) (m shortName) = lit "x"%string.
Proof.
  assert (e1 : steps exCols (format_all (E := str) exC [exItem1] []) = SCheck shortName 6 rest1) by (vm_compute; reflexivity).
  assert (e2 : steps exCols (format_all (E := str) exC [exItem2] []) = SCheck shortName 1 rest2) by (vm_compute; reflexivity).
  unfold two. cbn [map]. rewrite e1, e2.
  set (m1 := wset wempty shortName 6). set (m2 := wset m1 shortName 1).
  set (m3 := wset m2 (lit "size"%string) 2). set (m4 := wset m3 (lit "size"%string) 5).
  eexists m4, _. split.
  - apply (se_step _ _ _ m3 [SRet [Ok exItem1]] (SPut (lit "size"%string) 5 (SRet [Ok exItem2])) []); [|exact Logic.I|reflexivity].
    apply (se_step _ _ _ m3 [SRet [Ok exItem1]] rest2 []); [|exact Logic.I|vm_compute; reflexivity].
    apply (se_step _ _ _ m2 [] (SPut (lit "size"%string) 2 (SRet [Ok exItem1])) [rest2]); [|exact Logic.I|reflexivity].
    apply (se_step _ _ _ m2 [] rest1 [rest2]); [|exact Logic.I|vm_compute; reflexivity].
    apply (se_step _ _ _ m1 [rest1] (SPut shortName 1 rest2) []); [|exact Logic.I|reflexivity].
    apply (se_step _ _ _ wempty [] (SPut shortName 6 rest1) [SPut shortName 1 rest2]); [|exact Logic.I|reflexivity].
    apply (se_step _ _ _ wempty [SPut shortName 6 rest1] (SCheck shortName 1 rest2) []); [|exact Logic.I|reflexivity].
    apply (se_step _ _ _ wempty [] (SCheck shortName 6 rest1) [SCheck shortName 1 rest2]); [|exact Logic.I|reflexivity].
    constructor.
  - vm_compute. auto.
Qed.

Lemma two_apart {A} m (t u : sprog A) : (forall n w p, t <> SPut n w p) \/ (forall n w p, u <> SPut n w p) -> each_apart m [t; u].
Proof.
  intros H n i j w w' p p' Hi Hj. destruct i as [|[|i]], j as [|[|j]]; cbn [nth_error] in *; auto; try (destruct i; discriminate);
    try (destruct j; discriminate); exfalso; destruct H as [H|H]; congruence.
Qed.
(** The same two goroutines, the second starting when the first has stored its name. *)
Lemma apart_example : exists m seen,
  sexec each_apart wempty (map (fun items => steps (Columns exSpec) (format_all exC items [])) [[exItem1]; [exItem2]]) m
    (map SRet [[Ok exItem1]; [Ok exItem2]]) seen /\
  m shortName = 6 /\ m (lit "size"%string) = 5.
Proof.
  assert (e1 : steps (Columns exSpec) (format_all (E := str) exC [exItem1] []) = SCheck shortName 6 rest1) by (vm_compute; reflexivity).
  assert (e2 : steps (Columns exSpec) (format_all (E := str) exC [exItem2] []) = SCheck shortName 1 rest2) by (vm_compute; reflexivity).
  cbn [map]. rewrite e1, e2.
  set (m1 := wset wempty shortName 6). set (m3 := wset m1 (lit "size"%string) 2). set (m4 := wset m3 (lit "size"%string) 5).
  assert (AP := @two_apart (list (outcome str (list str)))).
  eexists m4, _. split.
  - apply (se_step _ _ _ m3 [SRet [Ok exItem1]] (SPut (lit "size"%string) 5 (SRet [Ok exItem2])) []); [|apply AP; left; discriminate|reflexivity].
    apply (se_step _ _ _ m3 [SRet [Ok exItem1]] rest2 []); [|apply AP; left; discriminate|vm_compute; reflexivity].
    apply (se_step _ _ _ m1 [] (SPut (lit "size"%string) 2 (SRet [Ok exItem1])) [rest2]); [|apply AP; right; discriminate|reflexivity].
    apply (se_step _ _ _ m1 [] rest1 [rest2]); [|apply AP; left; discriminate|vm_compute; reflexivity].
    apply (se_step _ _ _ m1 [rest1] (SCheck shortName 1 rest2) []); [|apply AP; left; discriminate|vm_compute; reflexivity].
    apply (se_step _ _ _ wempty [] (SPut shortName 6 rest1) [SCheck shortName 1 rest2]); [|apply AP; right; discriminate|reflexivity].
    apply (se_step _ _ _ wempty [] (SCheck shortName 6 rest1) [SCheck shortName 1 rest2]); [|apply AP; left; discriminate|reflexivity].
    constructor.
  - vm_compute. auto.
Qed.
