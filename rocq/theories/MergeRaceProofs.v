(** * MergeRaceProofs: merging rows while widths change. *)
From Coq Require Import ZifyBool ZifyNat.
From Verif Require Import GoBase CacheProofs Runewidth Width AlignSpec Table Merge TableContract TableOpsProofs MergeSpec MergeLayout
  MergeRender MergeSearch TableRace TableRaceSpec TableRaceProofs TableRaceCases MergeRace MergeRaceSpec.
Local Open Scope Z_scope.

(** ** Programs *)
(** [a] is an end of [p] when reading [name] gives a [w] with [F name w]. *)
Inductive MayGive {A} (F : str -> Z -> Prop) : sprog A -> A -> Prop :=
| mg_ret a : MayGive F (SRet a) a
| mg_get name k w a : F name w -> MayGive F (k w) a -> MayGive F (SGet name k) a
| mg_check name w p a : MayGive F p a -> MayGive F (SCheck name w p) a
| mg_put name w p a : MayGive F p a -> MayGive F (SPut name w p) a.

Lemma mg_bind {A B} F (p : sprog A) (f : A -> sprog B) b : MayGive F (sbind p f) b -> exists a, MayGive F p a /\ MayGive F (f a) b.
Proof.
  induction p as [a|n k IH|n w p IH|n w p IH]; cbn [sbind]; intros X.
  - exists a. split; [constructor|auto].
  - inversion X; subst. destruct (IH w H3) as (a & X1 & X2). exists a. split; auto. econstructor; eauto.
  - inversion X; subst. destruct (IH H3) as (a & X1 & X2). exists a. split; auto. constructor; auto.
  - inversion X; subst. destruct (IH H3) as (a & X1 & X2). exists a. split; auto. constructor; auto.
Qed.
Lemma mg_is {A} F (a b : A) : MayGive F (SRet a) b -> b = a.
Proof. intros X. inversion X. auto. Qed.
Lemma mg_weaken {A} (F G : str -> Z -> Prop) (p : sprog A) a : (forall n w, F n w -> G n w) -> MayGive F p a -> MayGive G p a.
Proof. intros HF X. induction X; try (constructor; auto; fail). econstructor; eauto. Qed.

Lemma gives_mg {A} F (p : sprog A) a b : Gives p a -> MayGive F p b -> b = a.
Proof. intros G X. induction X; inversion G; subst; auto. Qed.
Lemma gives_rest {A} m (p : sprog A) a : Gives p a -> at_rest m p = a.
Proof. induction 1; cbn; auto. Qed.
Lemma gives_bind {A B} (p : sprog A) (f : A -> sprog B) a b : Gives p a -> Gives (f a) b -> Gives (sbind p f) b.
Proof. induction 1; cbn [sbind]; auto; constructor; auto. Qed.
Lemma gives_obind {E A B} (p : sprog (outcome E A)) o (f : A -> sprog (outcome E B)) (f' : A -> outcome E B) :
  Gives p o -> (forall a, Gives (f a) (f' a)) -> Gives (sobind p f) (obind o f').
Proof. intros G H. unfold sobind. eapply gives_bind; [exact G|]. destruct o; cbn [obind]; auto; constructor. Qed.
Lemma gives_map {E A B} (f : A -> sprog (outcome E B)) f' l : (forall a, Gives (f a) (f' a)) -> Gives (smap f l) (omap f' l).
Proof.
  intros H. induction l as [|a l IH]; cbn [smap omap]; [constructor|]. apply gives_obind; auto. intros b.
  apply gives_obind; auto. intros bs. constructor.
Qed.

Lemma rest_bind {A B} m (p : sprog A) (f : A -> sprog B) : at_rest m (sbind p f) = at_rest m (f (at_rest m p)).
Proof. induction p; cbn; auto. Qed.
Lemma rest_obind {E A B} m (p : sprog (outcome E A)) (f : A -> sprog (outcome E B)) :
  at_rest m (sobind p f) = obind (at_rest m p) (fun a => at_rest m (f a)).
Proof. unfold sobind. rewrite rest_bind. destruct (at_rest m p); reflexivity. Qed.
Lemma obind_ext {E A B} (o : outcome E A) (f g : A -> outcome E B) : (forall a, f a = g a) -> obind o f = obind o g.
Proof. intros H. destruct o; cbn; auto. Qed.
Lemma rest_map {E A B} m (f : A -> sprog (outcome E B)) f' l : (forall a, at_rest m (f a) = f' a) -> at_rest m (smap f l) = omap f' l.
Proof.
  intros H. induction l as [|a l IH]; cbn [smap omap]; [reflexivity|]. rewrite rest_obind, H. apply obind_ext. intros b.
  rewrite rest_obind, IH. reflexivity.
Qed.

(** ** Executions *)
Lemma exec_mg {A} (F : str -> Z -> Prop) m0 (ts0 : list (sprog A)) m ts seen i t a : Forall Clean ts0 ->
  sexec anyhow m0 ts0 m ts seen -> (forall n w, had m0 seen n w -> F n w) -> nth_error ts i = Some t -> MayGive F t a ->
  exists t0, nth_error ts0 i = Some t0 /\ MayGive F t0 a.
Proof.
  intros C X. revert t. induction X as [|m before t1 after seen m' t' more X IH HP S]; intros t HF Hi Ht; eauto.
  assert (HF' : forall n w, had m0 seen n w -> F n w).
  { intros n w [K|K]; apply HF; [left|right; apply in_app_iff]; auto. }
  destruct (Nat.eq_dec i (length before)) as [->|Hn].
  - rewrite nth_mid in Hi. injection Hi as <-. apply (IH t1 HF'); [apply nth_mid|].
    destruct t1 as [b|n k|n w p|n w p]; cbn [sstep] in S; try discriminate; injection S as <- <- <-.
    + econstructor; [|exact Ht]. apply HF'. exact (exec_bounds anyhow m0 ts0 m _ seen n C X).
    + constructor. destruct (w >? m n); auto. inversion Ht; auto.
    + constructor. auto.
  - rewrite (nth_other before t' t1) in Hi by auto. eauto.
Qed.

Lemma exec_keeps {A} m0 (ts0 : list (sprog A)) m ts seen : Forall Clean ts0 ->
  sexec anyhow m0 ts0 m ts seen -> (forall n w, In (n, w) seen -> w <= m0 n) -> m = m0 /\ Forall Clean ts.
Proof.
  intros C X. induction X as [|m before t1 after seen m' t' more X IH HP S]; intros HF; auto.
  destruct IH as (-> & C1). { intros n w K. apply HF, in_app_iff. auto. }
  rewrite Forall_app, Forall_cons_iff in *. destruct C1 as (Ca & Ct & Cb).
  destruct Ct as [a|n k Ck|n w p Cp]; cbn [sstep] in S; try discriminate; injection S as <- <- <-; auto.
  assert (w <= m0 n) by (apply HF, in_app_iff; right; left; auto).
  destruct (Z.gtb_spec w (m0 n)); [lia|]. auto.
Qed.
Lemma exec_rest {A} m0 (ts0 : list (sprog A)) m ts seen i t : Forall Clean ts0 ->
  sexec anyhow m0 ts0 m ts seen -> (forall n w, In (n, w) seen -> w <= m0 n) -> nth_error ts i = Some t ->
  exists t0, nth_error ts0 i = Some t0 /\ at_rest m0 t0 = at_rest m0 t.
Proof.
  intros C X. revert t. induction X as [|m before t1 after seen m' t' more X IH HP S]; intros t HF Hi; eauto.
  assert (HF' : forall n w, In (n, w) seen -> w <= m0 n). { intros n w K. apply HF, in_app_iff. auto. }
  destruct (exec_keeps _ _ _ _ _ C X HF') as (-> & C1).
  destruct (Nat.eq_dec i (length before)) as [->|Hn].
  - rewrite nth_mid in Hi. injection Hi as <-. destruct (IH t1 HF' (nth_mid _ _ _)) as (t0 & e & R). exists t0. split; auto. rewrite R.
    destruct t1 as [b|n k|n w p|n w p]; cbn [sstep] in S; try discriminate; injection S as <- <- <-; auto.
    destruct (w >? m0 n); auto.
  - rewrite (nth_other before t' t1) in Hi by auto. eauto.
Qed.

(** ** Widths at rest *)
Section Rest.
Context {Item Val E : Type}.
Context {c : Condition} {t : Table Item Val E} {m0 : wmap} {items : SItemList E} {plain : FormattedItemList E}.
Hypothesis Hm : columnWidth t = Some m0.
Hypothesis HL : siLen items = fiLen plain.
Hypothesis HG : forall i, at_rest m0 (siGet items i) = fiGet plain i.
Notation cols := (Columns (tSpec t)).

Lemma rest_tableWidth {A} cs w (k : outcome E Z -> sprog A) :
  at_rest m0 (tableWidthS_loop cs w k) = at_rest m0 (k (tableWidth_loop t cs w)).
Proof.
  revert w. induction cs as [|[col|] cs IH]; intros w; cbn [tableWidthS_loop tableWidth_loop at_rest]; auto.
  rewrite IH. unfold Width. rewrite Hm. reflexivity.
Qed.
Lemma rest_groupCount maxWidth sep : at_rest m0 (groupCountS cols maxWidth sep) = initialGroupCount t maxWidth sep.
Proof. unfold groupCountS, tableWidthS. rewrite rest_tableWidth. reflexivity. Qed.

(** The widths read. *)
Definition source_is (src : source) (getWidth : Z -> Z -> outcome E Z) : Prop :=
  forall colI groupI, at_rest m0 (getWidthS src cols colI groupI) = getWidth colI groupI.
Lemma source_recorded : source_is Recorded (getWidth_default t).
Proof.
  intros colI groupI. unfold getWidthS, getWidth_default. rewrite rest_obind. apply obind_ext. intros [col|]; [|reflexivity].
  cbn. rewrite Hm. reflexivity.
Qed.
Lemma source_found n cw : source_is (Found n cw) (getWidth_compact n cw).
Proof. intros colI groupI. reflexivity. Qed.

Lemma rest_emit src getWidth sep ok gc pos : source_is src getWidth ->
  at_rest m0 (emitS c cols items sep ok gc src pos) = emitLines c t plain sep ok gc getWidth pos.
Proof.
  intros HS.
  assert (Cells : forall cs item colI groupI,
    at_rest m0 (cellsS c src cols cs item colI groupI) = cells_loop c getWidth cs item colI groupI).
  { induction cs as [|[col|] cs IH]; intros item colI groupI; cbn [cellsS cells_loop]; auto.
    rewrite rest_obind. apply obind_ext. intros txt. rewrite rest_obind, HS. apply obind_ext. intros w.
    rewrite rest_obind, IH. apply obind_ext. reflexivity. }
  assert (R : forall i groupI, at_rest m0 (renderS c cols items src i groupI) = renderItem c t plain getWidth i groupI).
  { intros i groupI. unfold renderS, renderItem. rewrite rest_obind, HG. apply obind_ext. intros item.
    rewrite rest_obind, Cells. apply obind_ext. reflexivity. }
  assert (G : forall idx groups, at_rest m0 (groupsS (fiLen plain) idx (renderS c cols items src) groups)
    = groups_loop (fiLen plain) idx (renderItem c t plain getWidth) groups).
  { intros idx. induction groups as [|g groups IH]; cbn [groupsS groups_loop]; auto.
    destruct (_ >=? _); auto. rewrite rest_obind, R. apply obind_ext. intros b. rewrite rest_obind, IH. apply obind_ext. reflexivity. }
  assert (L : forall line (line' : Z -> outcome E str) ls k acc, (forall l, at_rest m0 (line l) = line' l) ->
    at_rest m0 (linesS ok line ls k acc) = lines_loop ok line' ls k acc).
  { intros line line' ls k acc HL'. revert k acc. induction ls as [|l ls IH]; intros k acc; cbn [linesS lines_loop]; auto.
    rewrite rest_bind, HL'. destruct (line' l); auto. destruct (ok k); auto. }
  unfold emitS, emitLines. rewrite HL. apply L. intros l. rewrite rest_obind, G. apply obind_ext. reflexivity.
Qed.

Lemma rest_widths n idxs gc : at_rest m0 (widthsS c items n idxs gc) = widthsOf c plain n idxs gc.
Proof.
  assert (M : forall colI js mw, at_rest m0 (maxCellS c items colI js mw) = maxCell c plain colI js mw).
  { intros colI. induction js as [|j js IH]; intros mw; cbn [maxCellS maxCell]; auto. rewrite rest_obind, HG. apply obind_ext. intros item.
    rewrite rest_obind. apply obind_ext. intros txt. apply IH. }
  unfold widthsS, widthsOf. rewrite rest_obind.
  erewrite rest_map; [apply obind_ext; reflexivity|]. intros g. cbv beta. apply rest_map. intros colI. apply M.
Qed.
Lemma rest_mergedH g : at_rest m0 (mergedHS c cols items g) = obind (mergedRowsWidthH c t plain g) (fun l => Ok (Some l)).
Proof. unfold mergedHS, mergedRowsWidthH. rewrite rest_obind, rest_widths, HL. apply obind_ext. reflexivity. Qed.
Lemma rest_mergedV g : at_rest m0 (mergedVS c cols items g) = mergedRowsWidthV c t plain g.
Proof.
  unfold mergedVS, mergedRowsWidthV. rewrite HL. destruct (_ =? 0); auto. destruct (_ >? _); auto.
  rewrite rest_obind, rest_widths. apply obind_ext. reflexivity.
Qed.

Lemma rest_calc m fuel maxWidth margin g0 extra cw :
  at_rest m0 (calcS fuel (match m with H => mergedHS c cols items | V => mergedVS c cols items end) (u16 (slen cols)) maxWidth margin g0 extra cw)
  = calc m fuel c t plain maxWidth margin g0 extra cw.
Proof.
  revert extra cw. induction fuel as [|f IH]; intros extra cw; [destruct m; reflexivity|].
  cbn [calcS]. rewrite rest_bind. destruct m; cbn [calc compactCalcH_loop compactCalcV_loop] in *.
  - rewrite rest_mergedH. destruct (mergedRowsWidthH _ _ _ _); cbn [obind at_rest]; auto. unfold ColumnCount. destruct (_ >? _); auto.
  - rewrite rest_mergedV. destruct (mergedRowsWidthV _ _ _ _) as [[l|]|e|r]; cbn [at_rest]; auto. unfold ColumnCount. destruct (_ >? _); auto.
Qed.

Lemma rest_merge m fuel ok maxWidth sep compact :
  at_rest m0 (mergeS m fuel c cols ok items maxWidth sep compact) = merge m fuel c t ok plain maxWidth sep compact.
Proof.
  pose proof (rest_calc m) as HC.
  destruct m; cbn [mergeS merge]; unfold MergeRowsHorizontalS, MergeRowsVerticalS, mergeRowsS, MergeRowsHorizontal, MergeRowsVertical;
    cbn [calc] in HC; rewrite rest_bind, rest_groupCount; (destruct (initialGroupCount _ _ _) as [g0|e|r]; [|reflexivity..]);
    (destruct compact; [|apply rest_emit, source_recorded]); rewrite rest_bind, HC;
    (match goal with |- context [match ?x with Some _ => _ | None => _ end] => destruct x as [[[extra cw]|e|r]|] end; [|reflexivity..]);
    (destruct (extra >? 0); [apply rest_emit, source_found|apply rest_emit, source_recorded]).
Qed.
End Rest.

Lemma merge_still {Item Val E A} (t : Table Item Val E) m0 (ts0 : list (sprog A)) m1 ts seen i (f : run E -> A) a
    m fuel c ok items plain maxWidth sep compact :
  columnWidth t = Some m0 -> Forall Clean ts0 -> sexec anyhow m0 ts0 m1 ts seen -> (forall n w, In (n, w) seen -> w <= m0 n) ->
  nth_error ts0 i = Some (sbind (mergeS m fuel c (Columns (tSpec t)) ok items maxWidth sep compact) (fun r => SRet (f r))) ->
  nth_error ts i = Some (SRet a) ->
  siLen items = fiLen plain -> (forall i, at_rest m0 (siGet items i) = fiGet plain i) ->
  a = f (merge m fuel c t ok plain maxWidth sep compact).
Proof.
  intros Hm C X HS H0 Hi HL HG. destruct (exec_rest _ _ _ _ _ i (SRet a) C X HS Hi) as (t0 & e & R).
  rewrite H0 in e. injection e as <-. cbn [at_rest] in R. rewrite <- R, rest_bind. cbn [at_rest]. f_equal.
  apply rest_merge; auto.
Qed.

(** ** Any widths *)
Section Any.
Context {Item Val E : Type}.
Context {c : Condition} {t : Table Item Val E} {cols : list (Column Item Val E)} {items : SItemList E}
  {plain : FormattedItemList E} {rows : list (list str)} {F : str -> Z -> Prop}.
Hypothesis HP : Printable t cols plain rows.
Hypothesis HS : Steady items plain.
Notation ocols := (map Some cols).
Notation OneOf := (Forall2 (fun (col : Column Item Val E) w => F (colName col) w)).

Lemma columns_are : Columns (tSpec t) = ocols.
Proof. apply (pr_columns _ _ _ _ HP). Qed.
Lemma items_len : siLen items = Z.of_nat (length rows).
Proof. destruct HS as [-> _]. destruct HP as [_ [K _] _]. exact K. Qed.
Lemma items_get i row : nth_error rows i = Some row -> Gives (siGet items (Z.of_nat i)) (Ok row).
Proof. intros Hi. destruct HS as [_ G]. destruct HP as [_ [_ K] _]. rewrite <- (K i row Hi). apply G. Qed.

Lemma mg_obind {A B} (p : sprog (outcome E A)) (f : A -> sprog (outcome E B)) o : MayGive F (sobind p f) o ->
  exists r, MayGive F p r /\ match r with Ok a => MayGive F (f a) o | Err e => o = Err e | Panic x => o = Panic x end.
Proof.
  intros X. apply mg_bind in X. destruct X as (r & X1 & X2). exists r. split; auto.
  destruct r; [exact X2|apply mg_is in X2; exact X2..].
Qed.

(** The estimate. *)
Lemma mg_tableWidth {A} cs w (k : outcome E Z -> sprog A) a : MayGive F (tableWidthS_loop (map Some cs) w k) a ->
  exists es, OneOf cs es /\ MayGive F (k (Ok (fold_left (fun acc w => u16 (acc + w)) es w))) a.
Proof.
  revert w. induction cs as [|col cs IH]; intros w X; cbn [map tableWidthS_loop] in X.
  - exists []. split; [constructor|exact X].
  - inversion X as [|n q w0 a0 Fw X1| |]; subst. destruct (IH _ X1) as (es & H1 & H2). exists (w0 :: es). split; [constructor; auto|exact H2].
Qed.
Lemma mg_groupCount maxWidth sep o : MayGive F (groupCountS ocols maxWidth sep) o ->
  exists es, OneOf cols es /\
    o = if reckoned_with cols es sep mod 65536 =? 0 then Panic DivideByZero else Ok (estimate_with cols es sep maxWidth).
Proof.
  intros X. unfold groupCountS, tableWidthS in X. apply mg_tableWidth in X. destruct X as (es & H1 & X). exists es. split; auto.
  apply mg_is in X. subst o. rewrite fold_u16. cbn [obind].
  assert (Ed : u16 (u16 (u16 (u16 (slen ocols) - 1) * u16 (slen sep) + zsum es) + u16 (slen sep))
    = reckoned_with cols es sep mod 65536).
  { unfold u16, reckoned_with, slen. rewrite map_length. rewrite Zplus_mod_idemp_l, Zplus_mod_idemp_r.
    generalize (Z.of_nat (length cols)) as n, (Z.of_nat (length sep)) as s. intros n s.
    replace ((n mod 65536 - 1) mod 65536 * (s mod 65536) + zsum es + s) with ((n mod 65536 - 1) mod 65536 * (s mod 65536) + (zsum es + s)) by lia.
    rewrite <- Zplus_mod_idemp_l, Zmult_mod_idemp_r, Zmult_mod_idemp_l, Zplus_mod_idemp_l.
    replace ((n mod 65536 - 1) * s + (zsum es + s)) with (n mod 65536 * s + zsum es) by lia.
    rewrite <- Zplus_mod_idemp_l, Zmult_mod_idemp_l, Zplus_mod_idemp_l. f_equal. lia. }
  rewrite Ed. destruct (_ =? 0) eqn:E0; [reflexivity|].
  assert (En : u16 (clampWidth maxWidth + u16 (slen sep)) = (effective maxWidth + slen sep) mod 65536).
  { rewrite clamp_effective. unfold u16. rewrite Zplus_mod_idemp_r. reflexivity. }
  rewrite En. unfold estimate_with. f_equal.
  destruct (Z.ltb_spec ((effective maxWidth + slen sep) mod 65536 / (reckoned_with cols es sep mod 65536)) 1); lia.
Qed.
Lemma estimate_with_pos es sep maxWidth : 1 <= estimate_with cols es sep maxWidth.
Proof. unfold estimate_with. lia. Qed.

(** The lines, with recorded widths. *)
Lemma mg_cells item k : forall cs (i : nat) o, (i + length cs <= length item)%nat ->
  (forall j, nth_error ocols (i + j) = nth_error (map Some cs) j) ->
  MayGive F (cellsS c Recorded ocols (map Some cs) item (Z.of_nat i) k) o ->
  exists ws, OneOf cs ws /\ o = Ok (cells c cs ws (skipn i item)).
Proof.
  induction cs as [|col cs IH]; intros i o Hi Hc X; cbn [map cellsS] in X.
  - apply mg_is in X. exists []. split; [constructor|]. rewrite X. reflexivity.
  - destruct (skipn i item) as [|s rest] eqn:Es.
    { exfalso. pose proof (skipn_length i item) as L. rewrite Es in L. cbn in L, Hi. lia. }
    assert (Hs : nth_error item i = Some s).
    { pose proof (nth_skipn i item 0) as K. rewrite Es, Nat.add_0_r in K. symmetry. exact K. }
    assert (Hrest : skipn (S i) item = rest).
    { apply nth_ext. intros j. pose proof (nth_skipn i item (S j)) as K. rewrite Es in K. cbn [nth_error] in K.
      rewrite K, nth_skipn. f_equal. lia. }
    apply mg_obind in X. destruct X as (r & X1 & X). apply mg_is in X1. rewrite (index_nat _ _ _ Hs) in X1. subst r.
    apply mg_obind in X. destruct X as (r & X1 & X). unfold getWidthS in X1. apply mg_obind in X1. destruct X1 as (r1 & X1 & X2).
    apply mg_is in X1. pose proof (Hc 0%nat) as H0. rewrite Nat.add_0_r in H0. cbn [map nth_error] in H0.
    rewrite (index_nat _ _ _ H0) in X1. subst r1. inversion X2 as [|n q w a0 Fw X3 e1 e2| |]. subst. apply mg_is in X3. subst r.
    apply mg_obind in X. destruct X as (r & X1 & X). replace (Z.of_nat i + 1) with (Z.of_nat (S i)) in X1 by lia.
    apply IH in X1.
    + destruct X1 as (ws & H1 & ->). apply mg_is in X. exists (w :: ws). split; [constructor; auto|]. rewrite X. reflexivity.
    + cbn in Hi. lia.
    + intros j. specialize (Hc (S j)). cbn [map nth_error] in Hc. rewrite <- Hc. f_equal. lia.
Qed.

Lemma mg_render i k row o : nth_error rows i = Some row -> MayGive F (renderS c ocols items Recorded (Z.of_nat i) k) o ->
  exists ws, OneOf cols ws /\ o = Ok (block c cols ws row).
Proof.
  intros Hrow X. unfold renderS in X. apply mg_obind in X. destruct X as (r & X1 & X).
  apply (gives_mg _ _ _ _ (items_get i row Hrow)) in X1. subst r.
  apply mg_obind in X. destruct X as (r & X1 & X). change 0 with (Z.of_nat 0) in X1.
  pose proof (pr_long _ _ _ _ HP) as HL. rewrite Forall_forall in HL. specialize (HL row (nth_error_In _ _ Hrow)).
  apply mg_cells in X1; auto. destruct X1 as (ws & H1 & ->). apply mg_is in X. exists ws. split; auto.
Qed.

Lemma blocks_from_ext W W' s line : (forall k, (s <= k)%nat -> W k = W' k) -> blocks_from c cols W s line = blocks_from c cols W' s line.
Proof.
  revert s. induction line as [|row line IH]; intros s Hw; [reflexivity|]. cbn [blocks_from]. rewrite (Hw s) by lia.
  f_equal. apply IH. intros. apply Hw. lia.
Qed.
Lemma mg_groups (p : nat -> nat) (P : Z -> Z) : (forall k, P (Z.of_nat k) = Z.of_nat (p k)) -> forall n s o,
  MayGive F (groupsS (siLen items) P (renderS c ocols items Recorded) (map Z.of_nat (seq s n))) o ->
  exists W, (forall k, (s <= k < s + length (picks p (seq s n) rows))%nat -> OneOf cols (W k)) /\
  o = Ok (blocks_from c cols W s (picks p (seq s n) rows) ++ if (length (picks p (seq s n) rows) <? n)%nat then [[]] else []).
Proof.
  intros Hpos. induction n as [|n IH]; intros s o X.
  - apply mg_is in X. subst o. exists (fun _ => []). split; [cbn; lia|reflexivity].
  - cbn [seq map groupsS picks] in *. rewrite Hpos in X. rewrite items_len in X at 1.
    destruct (nth_error rows (p s)) as [row|] eqn:Er.
    + pose proof (nth_some_lt _ _ _ Er). destruct (Z.geb_spec (Z.of_nat (p s)) (Z.of_nat (length rows))); [lia|].
      apply mg_obind in X. destruct X as (r & X1 & X). apply (mg_render _ _ row) in X1; auto. destruct X1 as (ws & H1 & ->).
      apply mg_obind in X. destruct X as (r & X1 & X). apply IH in X1. destruct X1 as (W & H2 & ->). apply mg_is in X. subst o.
      exists (fun k => if (k =? s)%nat then ws else W k). split.
      * intros k Hk. cbn [length] in Hk. destruct (Nat.eqb_spec k s); auto. apply H2. lia.
      * cbn [blocks_from app length]. rewrite Nat.eqb_refl. f_equal. f_equal. f_equal. apply blocks_from_ext. intros k Hk.
        destruct (Nat.eqb_spec k s); [lia|reflexivity].
    + apply nth_error_None in Er. destruct (Z.geb_spec (Z.of_nat (p s)) (Z.of_nat (length rows))); [|lia].
      apply mg_is in X. subst o. exists (fun _ => []). split; [cbn; lia|reflexivity].
Qed.

Lemma printed_from_ext sep g Ws Ws' l lines : (forall k, (l <= k)%nat -> Ws k = Ws' k) ->
  printed_from c cols sep g Ws l lines = printed_from c cols sep g Ws' l lines.
Proof.
  revert l. induction lines as [|line lines IH]; intros l Hw; [reflexivity|]. cbn [printed_from]. rewrite (Hw l) by lia.
  f_equal. apply IH. intros. apply Hw. lia.
Qed.
Lemma mg_emit sep m g r : (1 <= g)%nat ->
  MayGive F (emitS c ocols items sep (fun _ => true) (Z.of_nat g) Recorded (zpos m (Z.of_nat g))) r ->
  exists Ws, Possible F cols (layout_lines m g rows) Ws /\
    r = {| written := printed_from c cols sep g Ws 0 (layout_lines m g rows); stop := Finished |}.
Proof.
  intros Hg X. unfold emitS in X. rewrite items_len, lineCountOf_nat in X by auto. unfold layout_lines.
  set (L := lineCount (length rows) g) in *. rewrite !zrange_nat in X. rewrite <- items_len in X.
  assert (K : forall n s k acc r,
    MayGive F (linesS (fun _ => true) (fun lineI =>
       sobind (groupsS (siLen items) (zpos m (Z.of_nat g) (Z.of_nat L) lineI) (renderS c ocols items Recorded) (map Z.of_nat (seq 0 g)))
         (fun blocks => SRet (Ok (GoBase.join sep blocks)))) (map Z.of_nat (seq s n)) k acc) r ->
    exists Ws, (forall l j row, get2 (map (fun l => picks (pos m g L l) (seq 0 g) rows) (seq s n)) l j = Some row -> OneOf cols (Ws (s + l)%nat j)) /\
      r = {| written := acc ++ printed_from c cols sep g Ws s (map (fun l => picks (pos m g L l) (seq 0 g) rows) (seq s n)); stop := Finished |}).
  { clear X r. induction n as [|n IH]; intros s k acc r X.
    - apply mg_is in X. subst r. exists (fun _ _ => []). split; [|cbn; rewrite app_nil_r; reflexivity].
      intros [|l] j row K; discriminate.
    - cbn [seq map linesS] in X. apply mg_bind in X. destruct X as (o & X1 & X). apply mg_obind in X1. destruct X1 as (o1 & X1 & X2).
      apply mg_groups with (p := pos m g L s) in X1; [|intros j; destruct m; cbn [zpos pos]; lia]. destruct X1 as (W & H1 & ->).
      apply mg_is in X2. subst o. apply IH in X. destruct X as (Ws & H2 & ->).
      exists (fun l => if (l =? s)%nat then W else Ws l). split.
      + intros [|l] j row Hr; cbn [seq map get2 nth_error] in Hr.
        * rewrite Nat.add_0_r, Nat.eqb_refl. apply H1. unfold get2 in Hr. cbn [nth_error] in Hr. apply nth_some_lt in Hr. lia.
        * destruct (Nat.eqb_spec (s + S l) s); [lia|]. replace (s + S l)%nat with (S s + l)%nat by lia. eapply H2. exact Hr.
      + cbn [seq map printed_from]. rewrite <- app_assoc. cbn [app]. rewrite Nat.eqb_refl. f_equal. f_equal.
        f_equal. apply printed_from_ext. intros l Hl. destruct (Nat.eqb_spec l s); [lia|reflexivity]. }
  apply K in X. destruct X as (Ws & H1 & ->). exists Ws. split; [|reflexivity].
  intros l j row Hr. apply (H1 l j row) in Hr. exact Hr.
Qed.

(** The search, and the lines with the widths found: whatever the recorded widths. *)
Lemma gives_widths n idxs gc : Gives (widthsS c items n idxs gc) (widthsOf c plain n idxs gc).
Proof.
  destruct HS as [_ HG].
  assert (M : forall colI js mw, Gives (maxCellS c items colI js mw) (maxCell c plain colI js mw)).
  { intros colI. induction js as [|j js IH]; intros mw; cbn [maxCellS maxCell]; [constructor|]. apply gives_obind; auto. intros item.
    apply gives_obind; [constructor|]. intros txt. apply IH. }
  unfold widthsS, widthsOf. apply gives_obind; [|constructor].
  apply gives_map. intros g. apply gives_map. intros colI. apply M.
Qed.
Lemma gives_mergedH g : Gives (mergedHS c (Columns (tSpec t)) items g) (obind (mergedRowsWidthH c t plain g) (fun l => Ok (Some l))).
Proof.
  unfold mergedHS, mergedRowsWidthH. destruct HS as [HL _]. rewrite HL. apply gives_obind; [apply gives_widths|]. constructor.
Qed.
Lemma gives_mergedV g : Gives (mergedVS c (Columns (tSpec t)) items g) (mergedRowsWidthV c t plain g).
Proof.
  unfold mergedVS, mergedRowsWidthV. destruct HS as [HL _]. rewrite HL. destruct (_ =? 0); [constructor|]. destruct (_ >? _); [constructor|].
  apply gives_obind; [apply gives_widths|]. constructor.
Qed.
Lemma gives_calc m fuel maxWidth margin g0 extra cw :
  Gives (calcS fuel (match m with H => mergedHS c (Columns (tSpec t)) items | V => mergedVS c (Columns (tSpec t)) items end)
           (u16 (slen (Columns (tSpec t)))) maxWidth margin g0 extra cw)
    (calc m fuel c t plain maxWidth margin g0 extra cw).
Proof.
  revert extra cw. induction fuel as [|f IH]; intros extra cw; [destruct m; constructor|].
  cbn [calcS]. destruct m; cbn [calc compactCalcH_loop compactCalcV_loop] in *.
  - eapply gives_bind; [apply gives_mergedH|]. destruct (mergedRowsWidthH _ _ _ _); cbn [obind]; try constructor. unfold ColumnCount.
    destruct (_ >? _); [constructor|apply IH].
  - eapply gives_bind; [apply gives_mergedV|]. destruct (mergedRowsWidthV _ _ _ _) as [[l|]|e|r]; try constructor. unfold ColumnCount.
    destruct (_ >? _); [constructor|apply IH].
Qed.
Lemma gives_emit n cw sep ok gc pos :
  Gives (emitS c (Columns (tSpec t)) items sep ok gc (Found n cw) pos) (emitLines c t plain sep ok gc (getWidth_compact n cw) pos).
Proof.
  destruct HS as [HL HG].
  assert (Cells : forall cs item colI groupI,
    Gives (cellsS c (Found n cw) (Columns (tSpec t)) cs item colI groupI) (cells_loop c (getWidth_compact n cw) cs item colI groupI)).
  { induction cs as [|[col|] cs IH]; intros item colI groupI; cbn [cellsS cells_loop]; try constructor.
    apply gives_obind; [constructor|]. intros txt. apply gives_obind; [constructor|]. intros w.
    apply gives_obind; [apply IH|]. constructor. }
  assert (R : forall i groupI, Gives (renderS c (Columns (tSpec t)) items (Found n cw) i groupI)
     (renderItem c t plain (getWidth_compact n cw) i groupI)).
  { intros i groupI. unfold renderS, renderItem. apply gives_obind; [apply HG|]. intros item.
    apply gives_obind; [apply Cells|]. constructor. }
  assert (G : forall idx groups, Gives (groupsS (fiLen plain) idx (renderS c (Columns (tSpec t)) items (Found n cw)) groups)
    (groups_loop (fiLen plain) idx (renderItem c t plain (getWidth_compact n cw)) groups)).
  { intros idx. induction groups as [|g groups IH]; cbn [groupsS groups_loop]; [constructor|].
    destruct (_ >=? _); [constructor|]. apply gives_obind; [apply R|]. intros b. apply gives_obind; [apply IH|]. constructor. }
  assert (L : forall line (line' : Z -> outcome E str) ls k acc, (forall l, Gives (line l) (line' l)) ->
    Gives (linesS ok line ls k acc) (lines_loop ok line' ls k acc)).
  { intros line line' ls k acc HL'. revert k acc. induction ls as [|l ls IH]; intros k acc; cbn [linesS lines_loop]; [constructor|].
    eapply gives_bind; [apply HL'|]. destruct (line' l); [|constructor..]. destruct (ok k); [apply IH|constructor]. }
  unfold emitS, emitLines. rewrite HL. apply L. intros l. apply gives_obind; [apply G|]. constructor.
Qed.

Lemma printed_const sep g W l lines : printed_from c cols sep g (fun _ => W) l lines = printed c cols sep W g lines.
Proof. revert l. induction lines as [|line lines IH]; intros l; [reflexivity|]. cbn. rewrite IH. reflexivity. Qed.

(** What is left to do after the estimate. *)
Definition after (m : mode) (fuel : nat) (maxWidth : Z) (sep : str) (compact : bool) (gc : Z) : sprog (run E) :=
  if compact then
    sbind (calcS fuel (match m with H => mergedHS c ocols items | V => mergedVS c ocols items end) (u16 (slen ocols)) (clampWidth maxWidth)
             (u16 (slen sep)) gc 0 []) (fun r =>
    match r with
    | None => SRet {| written := []; stop := Running |}
    | Some (Panic p) => SRet {| written := []; stop := Panicked p |}
    | Some (Err e) => SRet {| written := []; stop := Failed e |}
    | Some (Ok (extra, cellWidth)) =>
      if extra >? 0
      then emitS c ocols items sep (fun _ => true) (gc + extra) (Found (slen ocols) cellWidth) (zpos m (gc + extra))
      else emitS c ocols items sep (fun _ => true) gc Recorded (zpos m gc)
    end)
  else emitS c ocols items sep (fun _ => true) gc Recorded (zpos m gc).
Lemma merge_is m fuel maxWidth sep compact : mergeS m fuel c ocols (fun _ => true) items maxWidth sep compact =
  sbind (groupCountS ocols maxWidth sep) (fun o =>
  match o with
  | Panic p => SRet {| written := []; stop := Panicked p |}
  | Err e => SRet {| written := []; stop := Failed e |}
  | Ok gc => after m fuel maxWidth sep compact gc
  end).
Proof. destruct m; reflexivity. Qed.

Lemma after_outcome m fuel maxWidth sep compact g0 r : (1 <= g0)%nat ->
  MayGive F (after m fuel maxWidth sep compact (Z.of_nat g0)) r -> Printed F fuel c cols sep maxWidth m rows compact g0 r.
Proof.
  intros Hg0 X. unfold after in X.
  assert (Plain : MayGive F (emitS c ocols items sep (fun _ => true) (Z.of_nat g0) Recorded (zpos m (Z.of_nat g0))) r ->
    exists lines Ws, Layout m g0 rows lines /\
      r = {| written := printed_from c cols sep g0 Ws 0 lines; stop := Finished |} /\ Possible F cols lines Ws).
  { intros Y. apply mg_emit in Y; auto. destruct Y as (Ws & Y1 & Y2). exists (layout_lines m g0 rows), Ws. split; auto.
    apply layout_ok; auto. }
  destruct compact.
  2:{ right. destruct (Plain X) as (lines & Ws & K1 & K2 & K3). exists g0, lines, Ws. auto 8. }
  apply mg_bind in X. destruct X as (o & X1 & X). rewrite <- columns_are in X1.
  apply (gives_mg _ _ _ _ (gives_calc m fuel _ _ _ _ _)) in X1.
  pose proof (calc_spec HP (c := c) m sep maxWidth g0 Hg0 fuel 0 []) as HC. change (Z.of_nat 0) with 0 in HC. rewrite <- X1 in HC. clear X1.
  destruct HC as [[-> K2]|(extra & K1 & -> & K3 & K4)].
  - left. split; auto. apply mg_is in X. split; auto. intros g Hg. apply acceptable_spec; [lia|]. apply K2. lia.
  - right. assert (HSe : Search c cols sep maxWidth m rows g0 (g0 + extra)%nat).
    { split; [lia|]. split.
      - intros g' Hg'. apply acceptable_spec; [lia|]. apply K3. lia.
      - rewrite acceptable_spec by lia. replace (S (g0 + extra)) with (g0 + extra + 1)%nat by lia. rewrite K4. discriminate. }
    destruct (Z.gtb_spec (Z.of_nat extra) 0) as [L|L].
    + destruct (Nat.eqb_spec 0 extra); [lia|]. replace (Z.of_nat g0 + Z.of_nat extra) with (Z.of_nat (g0 + extra)) in X by lia.
      rewrite <- columns_are in X. apply (gives_mg _ _ _ _ (gives_emit _ _ _ _ _ _)) in X.
      pose proof (emit_ok HP (c := c) (fun _ => true) sep m (g0 + extra)%nat _ _ ltac:(lia) (reads_compact HP (c := c) m (g0 + extra)%nat ltac:(lia))) as HE.
      unfold ColumnCount in HE. rewrite HE, write_all, map_map in X.
      exists (g0 + extra)%nat, (layout_lines m (g0 + extra) rows), (fun _ => gwidths cols c m rows (g0 + extra)).
      split; auto. split; [apply layout_ok; lia|]. split; [rewrite printed_const; exact X|]. right. split; [lia|].
      exists (gwidths cols c m rows (g0 + extra)). split; auto. apply gwidths_ok. lia.
    + assert (extra = 0)%nat as -> by lia. rewrite Nat.add_0_r in HSe. destruct (Plain X) as (lines & Ws & Y1 & Y2 & Y3).
      exists g0, lines, Ws. auto 8.
Qed.

Lemma merge_outcome m fuel maxWidth sep compact r :
  MayGive F (mergeS m fuel c ocols (fun _ => true) items maxWidth sep compact) r ->
  Outcome F fuel c cols sep maxWidth m rows compact r.
Proof.
  intros X. rewrite merge_is in X. apply mg_bind in X. destruct X as (o & X1 & X). apply mg_groupCount in X1.
  destruct X1 as (es & H1 & ->). exists es. split; auto.
  destruct (Z.eqb_spec (reckoned_with cols es sep mod 65536) 0) as [Hr|Hr].
  { left. split; auto. apply mg_is in X. exact X. }
  right. split; auto. pose proof (estimate_with_pos es sep maxWidth) as Hp.
  assert (exists g0, Z.of_nat g0 = estimate_with cols es sep maxWidth /\ (1 <= g0)%nat) as (g0 & Eg & Hg0).
  { exists (Z.to_nat (estimate_with cols es sep maxWidth)). lia. }
  exists g0. split; auto. rewrite <- Eg in X. apply after_outcome; auto.
Qed.
End Any.

Lemma merge_any {Item Val E A} (t : Table Item Val E) m0 (ts0 : list (sprog A)) m1 ts seen i (f : run E -> A) a
    m fuel c cols items plain rows maxWidth sep compact :
  Printable t cols plain rows -> Steady items plain -> Forall Clean ts0 -> sexec anyhow m0 ts0 m1 ts seen ->
  nth_error ts0 i = Some (sbind (mergeS m fuel c (map Some cols) (fun _ => true) items maxWidth sep compact) (fun r => SRet (f r))) ->
  nth_error ts i = Some (SRet a) ->
  exists r, a = f r /\ Outcome (had m0 seen) fuel c cols sep maxWidth m rows compact r.
Proof.
  intros HP HS C X H0 Hi. destruct (exec_mg (had m0 seen) _ _ _ _ _ i (SRet a) a C X (fun n w K => K) Hi (mg_ret _ _)) as (t0 & e & R).
  rewrite H0 in e. injection e as <-. apply mg_bind in R. destruct R as (r & R1 & R2). apply mg_is in R2. exists r. split; auto.
  eapply merge_outcome; eauto.
Qed.
