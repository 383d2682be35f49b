(** * AlikeProofs: tables that cannot be told apart. *)
From Verif Require Import GoBase Runewidth Width Table Merge CacheProofs TableContract TableOpsProofs MergeSpec AlikeSpec.
From Coq Require Import ZifyBool ZifyNat.
Local Open Scope Z_scope.

Section Types.
Context {Item Val E : Type}.
Notation Tab := (Table Item Val E).
Notation Col := (Column Item Val E).

(** Tables over the same columns, alike for those in [cols]. *)
Definition On (cols : list (option Col)) (t t' : Tab) : Prop :=
  tSpec t = tSpec t' /\ (columnWidth t = None <-> columnWidth t' = None)
  /\ forall col, In (Some col) cols -> Width t (colName col) = Width t' (colName col).

Lemma on_raise_any cols t t' k w : On cols t t' -> columnWidth t <> None ->
  On cols (fst (raise_width (E := E) t k w)) (fst (raise_width (E := E) t' k w))
  /\ snd (raise_width (E := E) t k w) = snd (raise_width (E := E) t' k w).
Proof.
  intros (H1 & H2 & H3) Hn.
  destruct (columnWidth t) as [m|] eqn:Em; [|congruence].
  destruct (columnWidth t') as [m'|] eqn:Em'; [|exfalso; assert (Some m = None) by (apply H2; reflexivity); discriminate].
  unfold raise_width. rewrite Em, Em'. cbn [wread].
  assert (K : forall col, In (Some col) cols -> m (colName col) = m' (colName col)).
  { intros col Hc. specialize (H3 col Hc). unfold Width in H3. rewrite Em, Em' in H3. exact H3. }
  split; [|destruct (w >? m k), (w >? m' k); reflexivity].
  split; [destruct (w >? m k), (w >? m' k); exact H1|].
  split; [destruct (w >? m k), (w >? m' k); cbn; rewrite ?Em, ?Em'; split; discriminate|].
  intros col Hc. specialize (K col Hc). unfold Width.
  destruct (Z.gtb_spec w (m k)) as [L|L], (Z.gtb_spec w (m' k)) as [L'|L']; cbn [fst columnWidth set_width wread];
    rewrite ?Em, ?Em'; cbn [wread]; unfold wset; try (destruct (str_eqb_spec (colName col) k) as [Es|Es]; [subst k|]); auto; lia.
Qed.

Lemma on_nil_raise cols t t' k w : On cols t t' -> columnWidth t = None ->
  On cols (fst (raise_width (E := E) t k w)) (fst (raise_width (E := E) t' k w))
  /\ snd (raise_width (E := E) t k w) = snd (raise_width (E := E) t' k w).
Proof.
  intros (H1 & H2 & H3) Hn. pose proof (proj1 H2 Hn) as Hn'. unfold raise_width. rewrite Hn, Hn'. cbn [wread].
  destruct (w >? 0); (split; [|reflexivity]); (split; [exact H1|split; [split; auto|exact H3]]).
Qed.

Lemma on_raise_all cols t t' k w : On cols t t' ->
  On cols (fst (raise_width (E := E) t k w)) (fst (raise_width (E := E) t' k w))
  /\ snd (raise_width (E := E) t k w) = snd (raise_width (E := E) t' k w).
Proof.
  intros H. destruct (columnWidth t) eqn:Em; [apply on_raise_any|apply on_nil_raise]; auto; congruence.
Qed.

Lemma on_update cols l : forall t t', On cols t t' ->
  On cols (fst (UpdateWidth (E := E) t l)) (fst (UpdateWidth (E := E) t' l))
  /\ snd (UpdateWidth (E := E) t l) = snd (UpdateWidth (E := E) t' l).
Proof.
  induction l as [|[k w] l IH]; intros t t' H; [split; [exact H|reflexivity]|]. cbn [UpdateWidth].
  destruct (on_raise_all cols t t' k w H) as [K1 K2].
  destruct (raise_width t k w) as [t1 r1], (raise_width t' k w) as [t2 r2]. cbn [fst snd] in K1, K2. subst r2.
  destruct r1; [apply IH; exact K1|split; [exact K1|reflexivity]|split; [exact K1|reflexivity]].
Qed.

Lemma on_format all c item cols : forall done t t', On all t t' ->
  On all (fst (formatItem_loop c t cols item done)) (fst (formatItem_loop c t' cols item done))
  /\ snd (formatItem_loop c t cols item done) = snd (formatItem_loop c t' cols item done).
Proof.
  induction cols as [|[col|] cols IH]; intros done t t' H; cbn [formatItem_loop]; try (split; [exact H|reflexivity]).
  destruct (colGetter col) as [g|]; [|split; [exact H|reflexivity]].
  destruct (getValue g item) as [v| |]; try (split; [exact H|reflexivity]).
  destruct (getFormat g item v) as [s| |]; try (split; [exact H|reflexivity]).
  destruct (on_raise_all all t t' (colName col) (vwidth c s) H) as [K1 K2].
  destruct (raise_width t (colName col) (vwidth c s)) as [t1 r1], (raise_width t' (colName col) (vwidth c s)) as [t2 r2].
  cbn [fst snd] in K1, K2. subst r2.
  destruct r1; [apply IH; exact K1|split; [exact K1|reflexivity]|split; [exact K1|reflexivity]].
Qed.

(** Tables over the same columns whose widths agree for those in [cols]; one may have no map. *)
Definition Sees (cols : list (option Col)) (t t' : Tab) : Prop :=
  tSpec t = tSpec t' /\ forall col, In (Some col) cols -> Width t (colName col) = Width t' (colName col).
Lemma on_sees cols t t' : On cols t t' -> Sees cols t t'.
Proof. intros (H1 & _ & H3). split; assumption. Qed.

Lemma on_align cols : forall t t' done todo, Sees cols t t' ->
  alignFormatted_loop t cols done todo = alignFormatted_loop t' cols done todo.
Proof.
  induction cols as [|[col|] cols IH]; intros t t' done todo (H1 & H3); try reflexivity.
  destruct todo as [|s todo]; [reflexivity|]. cbn [alignFormatted_loop]. rewrite (H3 col) by (left; reflexivity).
  destruct (colAlignment col); apply IH; (split; [exact H1|]); intros; apply H3; right; auto.
Qed.

Lemma on_header c sep cols : forall t t' acc, Sees cols t t' ->
  formatHeader_loop (E := E) c t cols sep acc = formatHeader_loop c t' cols sep acc.
Proof.
  induction cols as [|[col|] cols IH]; intros t t' acc (H1 & H3); try reflexivity.
  cbn [formatHeader_loop]. unfold padColumnHeader. rewrite (H3 col) by (left; reflexivity).
  apply IH. split; [exact H1|]. intros; apply H3; right; auto.
Qed.

Lemma on_total cols : forall t t' w, Sees cols t t' ->
  tableWidth_loop (E := E) t cols w = tableWidth_loop t' cols w.
Proof.
  induction cols as [|[col|] cols IH]; intros t t' w (H1 & H3); try reflexivity.
  cbn [tableWidth_loop]. rewrite (H3 col) by (left; reflexivity).
  apply IH. split; [exact H1|]. intros; apply H3; right; auto.
Qed.

(** ** Merging *)
Lemma on_getWidth t t' colI groupI : Sees (Columns (tSpec t)) t t' -> getWidth_default t colI groupI = getWidth_default t' colI groupI.
Proof.
  intros (H1 & H3). unfold getWidth_default. rewrite <- H1. unfold index, at_index.
  destruct (colI <? 0); [reflexivity|]. destruct (nth_error (Columns (tSpec t)) (Z.to_nat colI)) as [[col|]|] eqn:En; try reflexivity.
  cbn [obind]. f_equal. apply H3. eapply nth_error_In; eauto.
Qed.

Lemma cells_loop_ext c gw gw' (cols : list (option Col)) item groupI : (forall i g, gw i g = gw' i g) -> forall colI,
  cells_loop (E := E) c gw cols item colI groupI = cells_loop c gw' cols item colI groupI.
Proof.
  intros Hg. induction cols as [|[col|] cols IH]; intros colI; try reflexivity. cbn [cells_loop].
  rewrite Hg, IH. reflexivity.
Qed.
Lemma groups_loop_ext n idx r r' gs : (forall i g, r i g = r' i g) ->
  groups_loop (E := E) n idx r gs = groups_loop n idx r' gs.
Proof. intros Hr. induction gs as [|g gs IH]; [reflexivity|]. cbn [groups_loop]. rewrite Hr, IH. reflexivity. Qed.
Lemma lines_loop_ext ok l l' ls : (forall i, l i = l' i) -> forall k acc,
  lines_loop (E := E) ok l ls k acc = lines_loop ok l' ls k acc.
Proof.
  intros Hl. induction ls as [|x ls IH]; intros k acc; [reflexivity|]. cbn [lines_loop]. rewrite Hl.
  destruct (l' x); try reflexivity. destruct (ok k); [apply IH|reflexivity].
Qed.
Lemma emit_ext c (t t' : Tab) items sep ok gc gw gw' pos : tSpec t = tSpec t' -> (forall i g, gw i g = gw' i g) ->
  emitLines c t items sep ok gc gw pos = emitLines c t' items sep ok gc gw' pos.
Proof.
  intros Hs Hg. unfold emitLines. apply lines_loop_ext. intros i. f_equal. apply groups_loop_ext. intros j g.
  unfold renderItem. rewrite Hs. destruct (fiGet items j); try reflexivity. cbn [obind]. f_equal. apply cells_loop_ext. exact Hg.
Qed.

Lemma initial_ext t t' maxWidth sep : Sees (Columns (tSpec t)) t t' ->
  initialGroupCount t maxWidth sep = initialGroupCount t' maxWidth sep.
Proof.
  intros H. unfold initialGroupCount, TableWidth. rewrite <- (proj1 H). f_equal. apply on_total. exact H.
Qed.
Lemma compactH_ext c (t t' : Tab) items maxWidth margin init : tSpec t = tSpec t' -> forall fuel extra ws,
  compactCalcH_loop fuel c t items maxWidth margin init extra ws = compactCalcH_loop fuel c t' items maxWidth margin init extra ws.
Proof.
  intros Hs. induction fuel as [|fuel IH]; intros extra ws; [reflexivity|]. cbn [compactCalcH_loop].
  unfold mergedRowsWidthH. rewrite Hs. destruct (widthsOf _ _ _ _ _); try reflexivity. rewrite IH. reflexivity.
Qed.
Lemma compactV_ext c (t t' : Tab) items maxWidth margin init : tSpec t = tSpec t' -> forall fuel extra ws,
  compactCalcV_loop fuel c t items maxWidth margin init extra ws = compactCalcV_loop fuel c t' items maxWidth margin init extra ws.
Proof.
  intros Hs. induction fuel as [|fuel IH]; intros extra ws; [reflexivity|]. cbn [compactCalcV_loop].
  unfold mergedRowsWidthV. rewrite Hs.
  destruct (if lineCountOf (fiLen items) (init + extra + 1) =? 0 then _ else _) as [[l|]| |]; try reflexivity.
  rewrite IH. reflexivity.
Qed.

Lemma on_merge m fuel c t t' ok items maxWidth sep compact : Sees (Columns (tSpec t)) t t' ->
  merge m fuel c t ok items maxWidth sep compact = merge m fuel c t' ok items maxWidth sep compact.
Proof.
  intros H. pose proof (proj1 H) as Hs. pose proof (fun i g => on_getWidth t t' i g H) as Hg.
  destruct m; cbn [merge].
  - unfold MergeRowsHorizontal. rewrite (initial_ext t t' maxWidth sep H).
    destruct (initialGroupCount t' maxWidth sep) as [gc| |]; try reflexivity. destruct compact.
    + rewrite (compactH_ext c t t') by exact Hs. destruct (compactCalcH_loop _ _ _ _ _ _ _ _ _) as [[[extra ws]| |]|]; try reflexivity.
      destruct (extra >? 0); apply emit_ext; auto. rewrite Hs. reflexivity.
    + apply emit_ext; auto.
  - unfold MergeRowsVertical. rewrite (initial_ext t t' maxWidth sep H).
    destruct (initialGroupCount t' maxWidth sep) as [gc| |]; try reflexivity. destruct compact.
    + rewrite (compactV_ext c t t') by exact Hs. destruct (compactCalcV_loop _ _ _ _ _ _ _ _ _) as [[[extra ws]| |]|]; try reflexivity.
      destruct (extra >? 0); apply emit_ext; auto. rewrite Hs. reflexivity.
    + apply emit_ext; auto.
Qed.

(** ** All calls *)
Lemma on_perform t t' x : On (Columns (tSpec t)) t t' -> AsksColumns (Columns (tSpec t)) x ->
  On (Columns (tSpec t)) (fst (perform t x)) (fst (perform t' x)) /\ snd (perform t x) = snd (perform t' x).
Proof.
  intros H Hx. pose proof (proj1 H) as Hs. destruct x; cbn [perform AsksColumns] in *.
  - destruct (on_update _ widths t t' H) as [K1 K2].
    destruct (UpdateWidth t widths), (UpdateWidth t' widths). cbn [fst snd] in *. subst. split; auto.
  - split; [exact H|]. destruct Hx as (col & Hc & <-). cbn [snd]. do 2 f_equal. apply H. exact Hc.
  - unfold FormatItem. rewrite <- Hs. destruct (on_format _ c item (Columns (tSpec t)) [] t t' H) as [K1 K2].
    destruct (formatItem_loop c t _ _ _), (formatItem_loop c t' _ _ _). cbn [fst snd] in *. subst. split; auto.
  - split; [exact H|]. unfold FormatItemBasic. rewrite Hs. reflexivity.
  - unfold AlignFormattedItem. rewrite <- Hs, (on_align _ t t' [] formatted (on_sees _ _ _ H)).
    destruct (negb _); [split; [exact H|reflexivity]|].
    destruct (alignFormatted_loop t' _ _ _). split; [exact H|reflexivity].
  - split; [exact H|]. unfold FormatHeader. cbn [snd]. f_equal. rewrite <- Hs. apply on_header, on_sees. exact H.
  - split; [exact H|]. unfold TableWidth. cbn [snd]. f_equal. rewrite <- Hs. apply on_total, on_sees. exact H.
  - split; [exact H|]. cbn [snd]. f_equal. apply on_merge, on_sees. exact H.
Qed.

Lemma raise_spec t k w : tSpec (fst (raise_width (E := E) t k w)) = tSpec (t : Tab).
Proof. unfold raise_width. destruct (w >? _); [|reflexivity]. destruct (columnWidth t); reflexivity. Qed.
Lemma update_tSpec l : forall t : Tab, tSpec (fst (UpdateWidth (E := E) t l)) = tSpec t.
Proof.
  induction l as [|[k w] l IH]; intros t; [reflexivity|]. cbn [UpdateWidth]. pose proof (raise_spec t k w) as K.
  destruct (raise_width t k w) as [t1 [| |]]; cbn [fst] in *; rewrite ?IH; exact K.
Qed.
Lemma format_tSpec c item cols : forall (t : Tab) done, tSpec (fst (formatItem_loop c t cols item done)) = tSpec t.
Proof.
  induction cols as [|[col|] cols IH]; intros t done; cbn [formatItem_loop]; try reflexivity.
  destruct (colGetter col) as [g|]; [|reflexivity]. destruct (getValue g item) as [v| |]; try reflexivity.
  destruct (getFormat g item v) as [s| |]; try reflexivity. pose proof (raise_spec t (colName col) (vwidth c s)) as K.
  destruct (raise_width t (colName col) (vwidth c s)) as [t1 [| |]]; cbn [fst] in *; rewrite ?IH; exact K.
Qed.
Lemma perform_tSpec (t : Tab) x : tSpec (fst (perform t x)) = tSpec t.
Proof.
  destruct x; cbn [perform]; try reflexivity.
  - pose proof (update_tSpec widths t) as K. destruct (UpdateWidth t widths). exact K.
  - pose proof (format_tSpec c item (Columns (tSpec t)) t []) as K. unfold FormatItem.
    destruct (formatItem_loop _ _ _ _ _). exact K.
  - destruct (AlignFormattedItem t formatted). reflexivity.
Qed.

Lemma alike_answers xs : forall t t' : Tab, tSpec t = tSpec t' -> Alike t t' ->
  Forall (AsksColumns (Columns (tSpec t))) xs -> answers t xs = answers t' xs.
Proof.
  induction xs as [|x xs IH]; intros t t' Hs [Ha Hb] HF; [reflexivity|]. inversion HF as [|? ? Hx HF']; subst.
  destruct (on_perform t t' x (conj Hs (conj Ha Hb)) Hx) as [K1 K2].
  pose proof (perform_tSpec t x) as S1. cbn [answers].
  destruct (perform t x) as [t1 a1], (perform t' x) as [t2 a2]. cbn [fst snd] in *. subst a2. f_equal.
  apply IH; [exact (proj1 K1)|split; [exact (proj1 (proj2 K1))|rewrite S1; exact (proj2 (proj2 K1))]|rewrite S1; exact HF'].
Qed.

Lemma answers_alike t t' : tSpec t = tSpec t' ->
  (forall xs, Forall (AsksColumns (Columns (tSpec t))) xs -> answers t xs = answers t' xs) -> Alike (t : Tab) t'.
Proof.
  intros Hs HA. split.
  - specialize (HA [CUpdate [([], 1 + Z.max (Width t []) (Width t' []))]] ltac:(repeat constructor)). unfold Width in HA.
    cbn [answers perform UpdateWidth] in HA. unfold raise_width in HA.
    destruct (columnWidth t) as [m|] eqn:Em, (columnWidth t') as [m'|] eqn:Em'; try (split; congruence); exfalso; cbn [wread] in HA.
    + destruct (Z.gtb_spec (1 + Z.max (m []) 0) (m [])); [|lia]. destruct (Z.gtb_spec (1 + Z.max (m []) 0) 0); [|lia]. discriminate HA.
    + destruct (Z.gtb_spec (1 + Z.max 0 (m' [])) (m' [])); [|lia]. destruct (Z.gtb_spec (1 + Z.max 0 (m' [])) 0); [|lia]. discriminate HA.
  - intros col Hc. specialize (HA [CWidth (colName col)]). cbn [answers perform] in HA.
    assert (K : Forall (AsksColumns (Columns (tSpec t))) [CWidth (colName col)]) by (constructor; [exists col; auto|constructor]).
    specialize (HA K). injection HA as HA. exact HA.
Qed.

Lemma alike_iff t t' : tSpec t = tSpec t' ->
  ((forall xs, Forall (AsksColumns (Columns (tSpec t))) xs -> answers t xs = answers t' xs) <-> Alike (t : Tab) t').
Proof. intros Hs. split; [apply answers_alike; exact Hs|intros H xs HF; apply alike_answers; auto]. Qed.

(** ** Histories that add no columns *)
Lemma run_tSpec ops : forall t : Tab, Forall no_add ops -> tSpec (table_run t ops) = tSpec t.
Proof.
  induction ops as [|o ops IH]; intros t HF; [reflexivity|]. inversion HF as [|? ? Ho HF']; subst.
  cbn [table_run fold_left]. change (fold_left table_step ops (table_step t o)) with (table_run (table_step t o) ops).
  rewrite IH by auto. destruct o; cbn [table_step]; [apply update_tSpec|apply format_tSpec|contradiction].
Qed.
Lemma no_added ops : Forall no_add ops -> added (Item := Item) (Val := Val) (E := E) ops = [].
Proof.
  induction 1 as [|o ops Ho _ IH]; [reflexivity|]. cbn [added flat_map]. fold (added ops). rewrite IH. destruct o; [reflexivity|reflexivity|contradiction].
Qed.

Lemma shown_incl cols0 ops ops' n w : Forall no_add ops -> Forall no_add ops' -> incl ops ops' ->
  Shown (Item := Item) (Val := Val) (E := E) cols0 ops n w -> Shown cols0 ops' n w.
Proof.
  intros HN HN' HI HS. destruct HS as [|before l after w -> Hl|before c item after pre col post vs v -> Hp Hok Hv Hn].
  - apply shown_zero.
  - assert (Hi : In (OpUpdate l) ops') by (apply HI, in_elt). apply in_split in Hi. destruct Hi as (b & a & Ho).
    eapply shown_update; eauto.
  - assert (Hi : In (OpFormat c item) ops') by (apply HI, in_elt). apply in_split in Hi. destruct Hi as (b & a & Ho).
    eapply shown_format; eauto. apply Forall_app in HN. rewrite (no_added before (proj1 HN)) in Hp.
    rewrite Ho in HN'. apply Forall_app in HN'. rewrite (no_added b (proj1 HN')). exact Hp.
Qed.

Section Histories.
Variable spec : option (TableSpec Item Val E).
Notation new := (NewTable spec).
Notation cols0 := (match spec with None => [] | Some s => Columns s end).
Definition fit (ops : list (table_op Item Val E)) := Forall uint16_op ops /\ Forall no_add ops.

Lemma incl_le ops ops' n : fit ops -> fit ops' -> incl ops ops' ->
  Width (table_run new ops) n <= Width (table_run new ops') n.
Proof.
  intros [U N] [U' N'] HI. apply (history_max spec ops' U' n). apply (shown_incl _ ops); auto. apply (history_max spec ops U n).
Qed.

Lemma run_nonnil ops : columnWidth (table_run new ops) <> None.
Proof.
  assert (K : forall t : Tab, columnWidth t <> None -> columnWidth (table_run t ops) <> None).
  { induction ops as [|o ops IH]; intros t H; [exact H|]. cbn [table_run fold_left]. apply IH.
    destruct o as [l|c item|col]; cbn [table_step].
    - destruct (update_spec l t H) as (t' & -> & _ & H' & _). exact H'.
    - destruct (FormatItem c t item) as [t' out] eqn:E0.
      destruct (FormatItem_spec c t item t' out H E0) as (pre & vs & _ & _ & H' & _). exact H'.
    - exact H. }
  apply K. cbn. congruence.
Qed.

(** The order of calls and how often they are made do not matter. *)
Lemma same_calls ops ops' : fit ops -> fit ops' -> (forall o, In o ops <-> In o ops') ->
  Alike (table_run new ops) (table_run new ops').
Proof.
  intros F F' HI. split; [split; intros K; exfalso; revert K; apply run_nonnil|]. intros col _.
  apply Z.le_antisymm; apply incl_le; auto; intros o; apply HI.
Qed.

Lemma widths_of_in (t : Tab) n w : In (n, w) (widths_of t) <->
  w = Width t n /\ exists col, In (Some col) (Columns (tSpec t)) /\ colName col = n.
Proof.
  unfold widths_of. rewrite in_flat_map. split.
  - intros ([col|] & Hc & Hi); [|contradiction]. destruct Hi as [Hi|[]]. injection Hi as <- <-. eauto.
  - intros (-> & col & Hc & <-). exists (Some col). split; [exact Hc|left; reflexivity].
Qed.

Lemma gather_run ts : forall t : Tab, gather t ts = table_run t (map (fun t' => OpUpdate (widths_of t')) ts).
Proof. induction ts as [|t' ts IH]; intros t; [reflexivity|]. cbn. apply IH. Qed.

Lemma new_columns : Columns (tSpec new) = cols0.
Proof. destruct spec; reflexivity. Qed.

Lemma gathered parts ops : fit ops -> Forall fit parts -> (forall o, In o ops <-> exists part, In part parts /\ In o part) ->
  Alike (gather new (map (table_run new) parts)) (table_run new ops).
Proof.
  intros F FP HI. rewrite gather_run. set (ops' := map _ _).
  assert (HU : Forall uint16_op ops').
  { unfold ops'. apply Forall_forall. intros o Ho. apply in_map_iff in Ho. destruct Ho as (t' & <- & Ht).
    apply in_map_iff in Ht. destruct Ht as (part & <- & Hp). cbn [uint16_op]. apply Forall_forall. intros [n w] Hw.
    apply widths_of_in in Hw. destruct Hw as [-> _]. cbn [snd]. rewrite Forall_forall in FP. apply run_table_range, FP, Hp. }
  assert (HN : Forall no_add ops').
  { unfold ops'. apply Forall_forall. intros o Ho. apply in_map_iff in Ho. destruct Ho as (t' & <- & Ht). exact Logic.I. }
  split; [split; intros K; exfalso; revert K; apply run_nonnil|].
  intros col Hc. rewrite run_tSpec in Hc by exact HN. set (n := colName col). rewrite Forall_forall in FP.
  destruct (history_max spec ops' HU n) as [S1 M1]. destruct (history_max spec ops (proj1 F) n) as [S2 M2].
  apply Z.le_antisymm.
  - apply M2. remember (Width (table_run new ops') n) as w eqn:Ew. clear Ew M1.
    destruct S1 as [|before l after w Ho Hl|before c item after pre col' post vs v Ho Hp Hok Hv Hn].
    + apply shown_zero.
    + assert (Hi : In (OpUpdate l) ops') by (rewrite Ho; apply in_elt). unfold ops' in Hi. apply in_map_iff in Hi.
      destruct Hi as (t' & El & Ht). injection El as <-. apply in_map_iff in Ht. destruct Ht as (part & <- & Hp).
      apply widths_of_in in Hl. destruct Hl as [-> _]. apply (shown_incl _ part).
      * exact (proj2 (FP part Hp)).
      * exact (proj2 F).
      * intros o Hi. apply HI. eauto.
      * apply (history_max spec part (proj1 (FP part Hp)) n).
    + exfalso. assert (Hi : In (OpFormat c item) ops') by (rewrite Ho; apply in_elt). unfold ops' in Hi. apply in_map_iff in Hi.
      destruct Hi as (t' & El & _). discriminate.
  - assert (K : exists part, In part parts /\ Width (table_run new ops) n <= Width (table_run new part) n
                 \/ Width (table_run new ops) n = 0).
    { remember (Width (table_run new ops) n) as w eqn:Ew. clear Ew M2 M1 S1.
      destruct S2 as [|before l after w Ho Hl|before c item after pre col' post vs v Ho Hp Hok Hv Hn].
      - exists []. right. reflexivity.
      - destruct (proj1 (HI (OpUpdate l))) as (part & Hp & Hi); [rewrite Ho; apply in_elt|]. exists part. left. split; [exact Hp|].
        apply (history_max spec part (proj1 (FP part Hp)) n). apply in_split in Hi. destruct Hi as (b & a & Hi).
        eapply shown_update; eauto.
      - destruct (proj1 (HI (OpFormat c item))) as (part & Hq & Hi); [rewrite Ho; apply in_elt|]. exists part. left. split; [exact Hq|].
        apply (history_max spec part (proj1 (FP part Hq)) n). apply in_split in Hi. destruct Hi as (b & a & Hi).
        eapply shown_format; eauto. destruct F as [_ NA]. rewrite Ho in NA. apply Forall_app in NA. rewrite (no_added _ (proj1 NA)) in Hp.
        destruct (FP part Hq) as [_ NB]. rewrite Hi in NB. apply Forall_app in NB. rewrite (no_added _ (proj1 NB)). exact Hp. }
    destruct K as (part & [[Hp Hle]|Hz]).
    + eapply Z.le_trans; [exact Hle|]. apply M1.
      assert (Hi : In (OpUpdate (widths_of (table_run new part))) ops').
      { unfold ops'. apply in_map_iff. exists (table_run new part). split; [reflexivity|]. apply in_map. exact Hp. }
      apply in_split in Hi. destruct Hi as (b & a & Hi). eapply shown_update; [exact Hi|]. apply widths_of_in. split; [reflexivity|].
      exists col. split; [|reflexivity]. rewrite run_tSpec by (exact (proj2 (FP part Hp))). exact Hc.
    + rewrite Hz. apply M1. apply shown_zero.
Qed.

Lemma gathered_answers parts ops xs : fit ops -> Forall fit parts ->
  (forall o, In o ops <-> exists part, In part parts /\ In o part) -> Forall (AsksColumns (Columns (tSpec new))) xs ->
  answers (gather new (map (table_run new) parts)) xs = answers (table_run new ops) xs.
Proof.
  intros F FP HI HX.
  assert (S1 : tSpec (gather new (map (table_run new) parts)) = tSpec new).
  { rewrite gather_run. apply run_tSpec. apply Forall_forall. intros o Ho. apply in_map_iff in Ho. destruct Ho as (t' & <- & _). exact Logic.I. }
  apply alike_answers; [rewrite S1, run_tSpec; [reflexivity|exact (proj2 F)]|apply gathered; auto|rewrite S1; exact HX].
Qed.

Lemma same_answers ops ops' xs : fit ops -> fit ops' -> (forall o, In o ops <-> In o ops') ->
  Forall (AsksColumns (Columns (tSpec new))) xs -> answers (table_run new ops) xs = answers (table_run new ops') xs.
Proof.
  intros F F' HI HX. apply alike_answers; [rewrite !run_tSpec; [reflexivity|exact (proj2 F')|exact (proj2 F)]|apply same_calls; auto|].
  rewrite run_tSpec by (exact (proj2 F)). exact HX.
Qed.
End Histories.

(** The row FormatItem returns does not depend on the widths. *)
Lemma format_row c item (t t' : Tab) : tSpec t = tSpec t' -> columnWidth t <> None -> columnWidth t' <> None ->
  snd (FormatItem c t item) = snd (FormatItem c t' item).
Proof.
  intros Hs. unfold FormatItem. rewrite <- Hs. generalize (@nil str). generalize (Columns (tSpec t)) as cols. clear Hs. intros cols. revert t t'.
  induction cols as [|[col|] cols IH]; intros t t' done H H'; cbn [formatItem_loop]; try reflexivity.
  destruct (colGetter col) as [g|]; [|reflexivity]. destruct (getValue g item) as [v| |]; try reflexivity.
  destruct (getFormat g item v) as [s| |]; try reflexivity. unfold raise_width.
  destruct (columnWidth t) as [m|] eqn:Em; [|congruence]. destruct (columnWidth t') as [m'|] eqn:Em'; [|congruence].
  destruct (_ >? _), (_ >? _); apply IH; cbn; congruence.
Qed.
End Types.
