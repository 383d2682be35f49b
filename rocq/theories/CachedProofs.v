(** * CachedProofs: measuring through the shared cache changes nothing. *)
From Verif Require Import GoBase Runewidth Width Table Merge Concurrent CacheSpec CacheProofs Cached CachedSpec.
From Coq Require Import ZifyBool ZifyNat.
Local Open Scope Z_scope.

(** ** Values of compound programs *)
Lemma value_bind {A B} w (p : prog A) (f : A -> prog B) : value w (bind p f) = value w (f (value w p)).
Proof. induction p as [a|s k IH]; cbn [bind value]; auto. Qed.

Lemma value_pbind {E A B} w (p : prog (outcome E A)) (f : A -> prog (outcome E B)) :
  value w (pbind p f) = obind (value w p) (fun a => value w (f a)).
Proof. unfold pbind. rewrite value_bind. destruct (value w p); reflexivity. Qed.

Lemma obind_ext {E A B} (m : outcome E A) (f g : A -> outcome E B) : (forall a, f a = g a) -> obind m f = obind m g.
Proof. intros H. destruct m; cbn; auto. Qed.

Lemma omap_ext_all {E A B} (f g : A -> outcome E B) l : (forall a, f a = g a) -> omap f l = omap g l.
Proof. intros H. induction l as [|a l IH]; cbn [omap]; [reflexivity|]. rewrite H, IH. reflexivity. Qed.

Lemma value_pmap {E A B} w (f : A -> prog (outcome E B)) l : value w (pmap f l) = omap (fun a => value w (f a)) l.
Proof.
  induction l as [|a l IH]; cbn [pmap omap]; [reflexivity|]. rewrite value_pbind. apply obind_ext. intros b.
  rewrite value_pbind, IH. reflexivity.
Qed.

Lemma effect_first {A B} w ok n (p : prog A) (f : A -> wprog B) : effect w ok n (first p f) = effect w ok n (f (value w p)).
Proof. induction p as [a|s k IH]; cbn [first value effect]; auto. Qed.

(** ** The functions *)
Section Functions.
Context {Item Val E : Type}.
Variable c : Condition.
Notation w := (vwidth c).
Notation PC := (PColumn Item Val E).

Lemma width_plain (t : PTable Item Val E) t' name : IsPlain w t t' -> Width t' name = widthP t name.
Proof. intros [_ Hw]. unfold Width, widthP. rewrite Hw. reflexivity. Qed.

Lemma formatBasic_value (cols : list (option PC)) item sep : forall i acc,
  value w (formatBasicP_loop cols item sep i acc) = formatItemBasic_loop (map (option_map (plainColumn w)) cols) item sep i acc.
Proof.
  induction cols as [|[col|] cols IH]; intros i acc; [reflexivity| |reflexivity].
  cbn [map option_map formatBasicP_loop formatItemBasic_loop plainColumn colGetter colName].
  destruct (pcGetter col) as [g|]; [|reflexivity]. cbn [option_map]. rewrite value_pbind. apply obind_ext. intros v. apply IH.
Qed.

Lemma raise_plain (t : PTable Item Val E) t' k n : IsPlain w t t' ->
  exists t1, raise_width t' k n = (t1, snd (raiseP t k n)) /\ IsPlain w (fst (raiseP t k n)) t1 /\ tSpec t1 = tSpec t'
    /\ ptColumns (fst (raiseP t k n)) = ptColumns t.
Proof.
  intros [Hc Hw]. unfold raise_width, raiseP, widthP. rewrite Hw. destruct (n >? wread (ptWidth t) k).
  - destruct (ptWidth t) as [m|] eqn:E0.
    + eexists. repeat split; auto.
    + exists t'. cbn [fst snd]. repeat split; auto. congruence.
  - exists t'. cbn [fst snd]. repeat split; auto.
Qed.

Lemma formatItem_value (cols : list (option PC)) item : forall t t' done, IsPlain w t t' ->
  exists t1, formatItem_loop c t' (map (option_map (plainColumn w)) cols) item done = (t1, snd (value w (formatItemP_loop t cols item done)))
    /\ IsPlain w (fst (value w (formatItemP_loop t cols item done))) t1 /\ tSpec t1 = tSpec t'.
Proof.
  induction cols as [|[col|] cols IH]; intros t t' done Ht.
  1,3: exists t'; cbn; auto.
  cbn [map option_map formatItemP_loop formatItem_loop plainColumn colGetter colName].
  destruct (pcGetter col) as [g|]; cbn [option_map]; [|exists t'; cbn; auto].
  rewrite value_bind. cbn [plainGetter getValue getFormat].
  destruct (value w (pgValue g item)) as [v|e|p]; [|exists t'; cbn; auto..].
  rewrite value_bind. destruct (value w (pgFormat g item v)) as [s|e|p]; [|exists t'; cbn; auto..].
  cbn [value]. destruct (raise_plain t t' (pcName col) (w s) Ht) as (t1 & E1 & Ht1 & Es & _). rewrite E1.
  destruct (raiseP t (pcName col) (w s)) as [t2 [u|e|p]]; cbn [fst snd] in *.
  - destruct (IH t2 t1 (done ++ [s]) Ht1) as (t3 & E3 & H3 & Es3). exists t3. repeat split; auto; [apply H3|apply H3|congruence].
  - exists t1. cbn. auto.
  - exists t1. cbn. auto.
Qed.

Lemma FormatItem_value (t : PTable Item Val E) t' item : IsPlain w t t' ->
  exists t1, FormatItem c t' item = (t1, snd (value w (formatItemP t item)))
    /\ IsPlain w (fst (value w (formatItemP t item))) t1 /\ tSpec t1 = tSpec t'.
Proof. intros Ht. unfold FormatItem, formatItemP. rewrite (proj1 Ht). apply formatItem_value, Ht. Qed.

Lemma FormatItemBasic_value (t : PTable Item Val E) t' item sep : IsPlain w t t' ->
  FormatItemBasic t' item sep = value w (formatBasicP t item sep).
Proof. intros Ht. unfold FormatItemBasic, formatBasicP. rewrite (proj1 Ht), formatBasic_value. reflexivity. Qed.

Lemma alignItem_value (t : PTable Item Val E) t' (cols : list (option PC)) : IsPlain w t t' -> forall done todo,
  alignFormatted_loop t' (map (option_map (plainColumn w)) cols) done todo = value w (alignItemP_loop t cols done todo).
Proof.
  intros Ht. induction cols as [|[col|] cols IH]; intros done todo; [reflexivity| |reflexivity].
  cbn [map option_map alignFormatted_loop alignItemP_loop]. destruct todo as [|s todo]; [reflexivity|].
  cbn [plainColumn colAlignment colName]. destruct (pcAlignment col) as [al|]; cbn [option_map]; [|apply IH].
  rewrite value_bind, (width_plain t t' _ Ht). apply IH.
Qed.

Lemma slen_map {X Y} (f : X -> Y) l : slen (map f l) = slen l.
Proof. unfold slen. rewrite map_length. reflexivity. Qed.

Lemma AlignFormattedItem_value (t : PTable Item Val E) t' row : IsPlain w t t' ->
  AlignFormattedItem t' row = value w (alignItemP t row).
Proof.
  intros Ht. unfold AlignFormattedItem, alignItemP, ColumnCount. rewrite (proj1 Ht), slen_map.
  destruct (negb _); [reflexivity|]. apply alignItem_value, Ht.
Qed.

Lemma padHeader_value (t : PTable Item Val E) t' col : IsPlain w t t' ->
  padColumnHeader c t' (plainColumn w col) = value w (padHeaderP t col).
Proof.
  intros Ht. unfold padColumnHeader, padHeaderP. cbn [plainColumn colName colTitle colShortTitle]. rewrite (width_plain t t' _ Ht).
  destruct (_ =? 0); reflexivity.
Qed.

Lemma header_value (t : PTable Item Val E) t' (cols : list (option PC)) sep : IsPlain w t t' -> forall acc,
  formatHeader_loop (E := E) c t' (map (option_map (plainColumn w)) cols) sep acc = value w (headerP_loop t cols sep acc).
Proof.
  intros Ht. induction cols as [|[col|] cols IH]; intros acc; [reflexivity| |reflexivity].
  cbn [map option_map formatHeader_loop headerP_loop]. rewrite value_bind, (padHeader_value t t' col Ht). apply IH.
Qed.

Lemma FormatHeader_value (t : PTable Item Val E) t' sep : IsPlain w t t' ->
  FormatHeader (E := E) c t' sep = value w (headerP t sep).
Proof. intros Ht. unfold FormatHeader, headerP. rewrite (proj1 Ht). apply header_value, Ht. Qed.

Lemma tableWidth_plain (t : PTable Item Val E) t' (cols : list (option PC)) : IsPlain w t t' -> forall n,
  tableWidth_loop (E := E) t' (map (option_map (plainColumn w)) cols) n = tableWidthP_loop t cols n.
Proof.
  intros Ht. induction cols as [|[col|] cols IH]; intros n; [reflexivity| |reflexivity].
  cbn [map option_map tableWidth_loop tableWidthP_loop plainColumn colName]. rewrite (width_plain t t' _ Ht). apply IH.
Qed.

Lemma groupCount_plain (t : PTable Item Val E) t' n sep : IsPlain w t t' -> initialGroupCount t' n sep = groupCountP t n sep.
Proof.
  intros Ht. unfold initialGroupCount, groupCountP, TableWidth, tableWidthP, ColumnCount. rewrite (proj1 Ht), slen_map.
  rewrite (tableWidth_plain t t' _ Ht). reflexivity.
Qed.

Lemma index_map {X Y} (f : X -> Y) l i : @index E Y (map f l) i = obind (@index E X l i) (fun x => Ok (f x)).
Proof.
  unfold index, at_index. destruct (i <? 0); [reflexivity|]. rewrite nth_error_map. destruct (nth_error l _); reflexivity.
Qed.

Lemma getWidth_plain (t : PTable Item Val E) t' i j : IsPlain w t t' -> getWidth_default t' i j = getWidthP_default t i j.
Proof.
  intros [Hc Hw]. unfold getWidth_default, getWidthP_default. rewrite Hc, Hw, index_map.
  destruct (index (ptColumns t) i) as [[col|]|e|p]; reflexivity.
Qed.

Lemma cells_value (cols : list (option PC)) gw gw' item gi : (forall i j, gw i j = gw' i j) -> forall ci,
  cells_loop c gw (map (option_map (plainColumn w)) cols) item ci gi = value w (cellsP gw' cols item ci gi).
Proof.
  intros Hg. induction cols as [|[col|] cols IH]; intros ci; [reflexivity| |reflexivity].
  cbn [map option_map cells_loop cellsP plainColumn colAlignment]. rewrite <- Hg.
  destruct (index item ci) as [txt|e|p]; [|reflexivity..]. cbn [obind].
  destruct (gw ci gi) as [n|e|p]; [|reflexivity..]. cbn [obind].
  rewrite value_bind, value_pbind, IH. apply obind_ext. intros cells.
  destruct (pcAlignment col); reflexivity.
Qed.

Lemma render_value (t : PTable Item Val E) t' items gw gw' i j : IsPlain w t t' -> (forall i j, gw i j = gw' i j) ->
  renderItem c t' (plainItems w items) gw i j = value w (renderP t items gw' i j).
Proof.
  intros Ht Hg. unfold renderItem, renderP. rewrite value_pbind. cbn [plainItems fiGet]. apply obind_ext. intros item.
  rewrite value_pbind, (proj1 Ht), (cells_value _ gw gw' item j Hg). reflexivity.
Qed.

Lemma groups_value itemN idx (render : Z -> Z -> outcome E str) renderP gs : (forall i j, render i j = value w (renderP i j)) ->
  groups_loop itemN idx render gs = value w (groupsP itemN idx renderP gs).
Proof.
  intros Hr. induction gs as [|g gs IH]; [reflexivity|]. cbn [groups_loop groupsP]. destruct (_ >=? _); [reflexivity|].
  rewrite value_pbind, Hr. apply obind_ext. intros b. rewrite value_pbind, IH. reflexivity.
Qed.

Lemma lines_effect ok line lineP ls : (forall i, line i = value w (lineP i)) -> forall k acc,
  lines_loop (E := E) ok line ls k acc
  = {| written := acc ++ fst (effect w ok k (linesP lineP ls)); stop := snd (effect w ok k (linesP lineP ls)) |}.
Proof.
  intros Hl. induction ls as [|l ls IH]; intros k acc; cbn [lines_loop linesP]; [cbn; rewrite app_nil_r; reflexivity|].
  rewrite effect_first, <- Hl. destruct (line l) as [txt|e|p]; [|cbn; rewrite app_nil_r; reflexivity..].
  cbn [effect]. destruct (ok k).
  - rewrite IH. destruct (effect w ok (S k) (linesP lineP ls)) as [out a]. cbn [fst snd]. rewrite <- app_assoc. reflexivity.
  - cbn. rewrite app_nil_r. reflexivity.
Qed.

Lemma emit_effect ok (t : PTable Item Val E) t' items sep gc gw gw' pos : IsPlain w t t' -> (forall i j, gw i j = gw' i j) ->
  emitLines c t' (plainItems w items) sep ok gc gw pos
  = {| written := fst (effect w ok 0 (emitP t items sep gc gw' pos)); stop := snd (effect w ok 0 (emitP t items sep gc gw' pos)) |}.
Proof.
  intros Ht Hg. unfold emitLines, emitP. cbn [plainItems fiLen].
  rewrite (lines_effect ok _ (fun lineI => pbind (groupsP (piLen items) (pos (lineCountOf (piLen items) gc) lineI) (renderP t items gw') (zrange gc))
                         (fun blocks => Ret (Ok (join sep blocks))))).
  - reflexivity.
  - intros i. rewrite value_pbind. rewrite (groups_value _ _ _ (renderP t items gw')); [reflexivity|].
    intros a b. apply render_value; auto.
Qed.

Lemma maxCell_value items ci idxs : forall mw, maxCell c (plainItems w items) ci idxs mw = value w (@maxCellP E items ci idxs mw).
Proof.
  induction idxs as [|i idxs IH]; intros mw; [reflexivity|]. cbn [maxCell maxCellP]. rewrite value_pbind. cbn [plainItems fiGet].
  apply obind_ext. intros item. destruct (index item ci); cbn [obind value]; [apply IH|reflexivity..].
Qed.

Lemma widths_value items colN idxs gc : widthsOf c (plainItems w items) colN idxs gc = value w (@widthsP E items colN idxs gc).
Proof.
  unfold widthsOf, widthsP. rewrite value_pbind, value_pmap.
  rewrite (omap_ext_all _ (fun g => value w (pmap (fun ci => maxCellP items ci (idxs g) 0) (zrange colN)))); [reflexivity|].
  intros g. rewrite value_pmap. apply omap_ext_all. intros ci. apply maxCell_value.
Qed.

Lemma mergedH_value (t : PTable Item Val E) t' items gc : IsPlain w t t' ->
  mergedRowsWidthH c t' (plainItems w items) gc = value w (mergedWidthsHP t items gc).
Proof.
  intros Ht. unfold mergedRowsWidthH, mergedWidthsHP, ColumnCount. rewrite (proj1 Ht), slen_map. apply widths_value.
Qed.

Lemma mergedV_value (t : PTable Item Val E) t' items gc : IsPlain w t t' ->
  mergedRowsWidthV c t' (plainItems w items) gc = value w (mergedWidthsVP t items gc).
Proof.
  intros Ht. unfold mergedRowsWidthV, mergedWidthsVP, ColumnCount. rewrite (proj1 Ht), slen_map. cbn [plainItems fiLen].
  destruct (_ =? 0); [reflexivity|]. destruct (_ >? _); [reflexivity|]. rewrite value_pbind, <- widths_value. reflexivity.
Qed.

Lemma compactH_value fuel (t : PTable Item Val E) t' items mw mg gi : IsPlain w t t' -> forall extra cw,
  compactCalcH_loop fuel c t' (plainItems w items) mw mg gi extra cw = value w (compactHP fuel t items mw mg gi extra cw).
Proof.
  intros Ht. induction fuel as [|f IH]; intros extra cw; [reflexivity|]. cbn [compactCalcH_loop compactHP].
  rewrite value_bind, (mergedH_value t t' items _ Ht). unfold ColumnCount. rewrite (proj1 Ht), slen_map.
  destruct (value w (mergedWidthsHP t items _)) as [l|e|p]; [|reflexivity..].
  destruct (_ >? _); [reflexivity|]. apply IH.
Qed.

Lemma compactV_value fuel (t : PTable Item Val E) t' items mw mg gi : IsPlain w t t' -> forall extra cw,
  compactCalcV_loop fuel c t' (plainItems w items) mw mg gi extra cw = value w (compactVP fuel t items mw mg gi extra cw).
Proof.
  intros Ht. induction fuel as [|f IH]; intros extra cw; [reflexivity|]. cbn [compactCalcV_loop compactVP].
  rewrite value_bind, (mergedV_value t t' items _ Ht). unfold ColumnCount. rewrite (proj1 Ht), slen_map.
  destruct (value w (mergedWidthsVP t items _)) as [[l|]|e|p]; [|reflexivity..].
  destruct (_ >? _); [reflexivity|]. apply IH.
Qed.

Lemma mergeH_effect fuel ok (t : PTable Item Val E) t' items mw sep compact : IsPlain w t t' ->
  MergeRowsHorizontal fuel c t' ok (plainItems w items) mw sep compact
  = {| written := fst (effect w ok 0 (mergeHP fuel t items mw sep compact));
       stop := snd (effect w ok 0 (mergeHP fuel t items mw sep compact)) |}.
Proof.
  intros Ht. unfold MergeRowsHorizontal, mergeHP. rewrite (groupCount_plain t t' _ _ Ht).
  destruct (groupCountP t mw sep) as [gc|e|p]; [|reflexivity..].
  destruct compact.
  - rewrite effect_first, (compactH_value _ t t' _ _ _ _ Ht).
    destruct (value w (compactHP _ _ _ _ _ _ _ _)) as [[[extra cw]|e|p]|]; [|reflexivity..].
    unfold ColumnCount. rewrite (proj1 Ht), slen_map. destruct (extra >? 0).
    + rewrite (emit_effect ok t t' items sep _ _ _ _ Ht (fun _ _ => eq_refl)). reflexivity.
    + rewrite (emit_effect ok t t' items sep _ _ _ _ Ht (fun i j => getWidth_plain t t' i j Ht)). reflexivity.
  - rewrite (emit_effect ok t t' items sep _ _ _ _ Ht (fun i j => getWidth_plain t t' i j Ht)). reflexivity.
Qed.

Lemma mergeV_effect fuel ok (t : PTable Item Val E) t' items mw sep compact : IsPlain w t t' ->
  MergeRowsVertical fuel c t' ok (plainItems w items) mw sep compact
  = {| written := fst (effect w ok 0 (mergeVP fuel t items mw sep compact));
       stop := snd (effect w ok 0 (mergeVP fuel t items mw sep compact)) |}.
Proof.
  intros Ht. unfold MergeRowsVertical, mergeVP. rewrite (groupCount_plain t t' _ _ Ht).
  destruct (groupCountP t mw sep) as [gc|e|p]; [|reflexivity..].
  destruct compact.
  - rewrite effect_first, (compactV_value _ t t' _ _ _ _ Ht).
    destruct (value w (compactVP _ _ _ _ _ _ _ _)) as [[[extra cw]|e|p]|]; [|reflexivity..].
    unfold ColumnCount. rewrite (proj1 Ht), slen_map. destruct (extra >? 0).
    + rewrite (emit_effect ok t t' items sep _ _ _ _ Ht (fun _ _ => eq_refl)). reflexivity.
    + rewrite (emit_effect ok t t' items sep _ _ _ _ Ht (fun i j => getWidth_plain t t' i j Ht)). reflexivity.
  - rewrite (emit_effect ok t t' items sep _ _ _ _ Ht (fun i j => getWidth_plain t t' i j Ht)). reflexivity.
Qed.
End Functions.

(** ** One goroutine on its own *)
Definition good (c : Condition) (m : cache) : Prop := all_entries (fun s w => w = vwidth c s) m.

Lemma cached_effect {A} c ok m n (p : wprog A) m' out a : cached c ok m n p m' out a -> good c m ->
  effect (vwidth c) ok n p = (out, a) /\ good c m'.
Proof.
  induction 1 as [m n a|m n s k keep m' out a H IH|m n txt k m' out a H IH|m n p keep m' out a H IH]; intros Hm.
  - split; auto.
  - destruct (visualWidth_ok (fun s w => w = vwidth c s) c keep m s (fun _ => eq_refl) Hm) as [Hs Hm']. cbn [effect].
    rewrite <- Hs. apply IH, Hm'.
  - cbn [effect]. destruct (IH Hm) as [E Hm']. rewrite E. auto.
  - apply IH. apply entries_evict, Hm.
Qed.

Lemma cached_total {A} c ok (p : wprog A) : forall m n, exists m' out a, cached c ok m n p m' out a.
Proof.
  induction p as [a|s k IH|txt k IH]; intros m n.
  - repeat econstructor.
  - destruct (IH (fst (visualWidth c (fun _ => true) m s)) (snd (visualWidth c (fun _ => true) m s)) n) as (m' & out & a & H).
    exists m', out, a. econstructor. exact H.
  - destruct (IH (ok n) m (S n)) as (m' & out & a & H). eexists _, _, _. econstructor. exact H.
Qed.

(** ** Goroutines *)
Section Machine.
Context {A : Type}.
Variable c : Condition.
Notation w := (vwidth c).

(** The rest of the program when the pending visualWidth returns what it should. *)
Definition remaining (x : gstate A) : wprog A :=
  match x with GRun p => p | GGot s _ k => k (w s) | GStored v k => k v end.
Definition state_ok (x : gstate A) : Prop :=
  match x with GGot s v _ => v = 0 \/ v = w s | _ => True end.
Definition gok (p : wprog A) (ok : nat -> bool) (g : goroutine A) : Prop :=
  gWriteOK g = ok /\ state_ok (gAt g)
  /\ effect w ok 0 p = (gOut g ++ fst (effect w ok (gWrites g) (remaining (gAt g))),
                        snd (effect w ok (gWrites g) (remaining (gAt g)))).

(** Steps left. *)
Definition steps_left (g : goroutine A) : nat :=
  match gAt g with
  | GRun p => length_of w (gWriteOK g) (gWrites g) p
  | GGot s _ k => 2 + length_of w (gWriteOK g) (gWrites g) (k (w s))
  | GStored v k => 1 + length_of w (gWriteOK g) (gWrites g) (k v)
  end.

Lemma gstep_ok m g m' g' p ok : gstep c (m, g) (m', g') -> good c m -> gok p ok g ->
  good c m' /\ gok p ok g' /\ (S (steps_left g') <= steps_left g)%nat.
Proof.
  intros Hs Hm (Ho & Hst & He). unfold gok, steps_left. inversion Hs; subst; cbn [at_state gAt gOut gWrites gWriteOK];
    match goal with K : gAt g = _ |- _ => rewrite K in * end; cbn [remaining state_ok] in *.
  - split; [exact Hm|]. split; [|cbn [length_of]; lia]. split; [reflexivity|]. split; [|exact He].
    destruct (cache_get _ s) eqn:E; [right|left; reflexivity]. exact (entries_get (fun s w => w = vwidth c s) _ _ _ Hm E).
  - destruct Hst as [->| ->]; [lia|]. split; [exact Hm|]. split; [|cbn [length_of]; lia]. auto.
  - split; [apply entries_set; auto|]. split; [|cbn [length_of]; lia]. auto.
  - split; [exact Hm|]. split; [|cbn [length_of]; lia]. auto.
  - split; [exact Hm|]. split; [|cbn [length_of]; lia]. split; [reflexivity|]. split; [exact I|].
    rewrite He. cbn [effect]. destruct (effect w _ (S (gWrites g)) (k (gWriteOK g (gWrites g)))) as [out a]. cbn [fst snd].
    destruct (gWriteOK g (gWrites g)); [rewrite <- app_assoc|]; reflexivity.
Qed.

Definition total_left (gs : list (goroutine A)) : nat := list_sum (map steps_left gs).

Lemma gexec_ok (work : list (wprog A * (nat -> bool))) n m gs : gexec c (started work) n (m, gs) ->
  good c m /\ Forall2 (fun '(p, ok) g => gok p ok g) work gs
  /\ (n + total_left gs <= total_left (snd (started work)))%nat.
Proof.
  intros H. remember (started work) as x eqn:Ex. remember (m, gs) as y eqn:Ey. revert m gs Ey.
  induction H as [x|x n m m' before g g' after H IH Hs|x n m gs keep H IH]; intros m0 gs0 Ey; subst.
  - injection Ey as <- <-. split; [constructor|]. split.
    + induction work as [|[p ok] work IHw]; cbn [map]; constructor; auto.
      split; [reflexivity|]. split; [exact I|]. cbn. destruct (effect _ _ _ _); reflexivity.
    + apply Nat.le_refl.
  - injection Ey as <- <-. destruct (IH eq_refl _ _ eq_refl) as (Hm & Hg & Hn).
    apply Forall2_app_inv_r in Hg. destruct Hg as (w1 & w2 & H1 & H2 & ->).
    inversion H2 as [|[p ok] g0 w3 gs3 Hp Hrest]; subst.
    destruct (gstep_ok _ _ _ _ _ _ Hs Hm Hp) as (Hm' & Hp' & Hle). split; [exact Hm'|]. split.
    + apply Forall2_app; auto.
    + unfold total_left in *. rewrite !map_app in *. cbn [map] in *. rewrite !list_sum_app in *. cbn [list_sum fold_right] in *.
      unfold list_sum in *. cbn [fold_right] in *. lia.
  - injection Ey as <- <-. destruct (IH eq_refl _ _ eq_refl) as (Hm & Hg & Hn). split; [apply entries_evict, Hm|]. auto.
Qed.

Lemma gresults (work : list (wprog A * (nat -> bool))) n m gs i p ok g : gexec c (started work) n (m, gs) ->
  nth_error work i = Some (p, ok) -> nth_error gs i = Some g ->
  exists more a, effect w ok 0 p = (gOut g ++ more, a)
    /\ forall b, gAt g = GRun (WRet b) -> more = [] /\ b = a.
Proof.
  intros H Hw Hg. destruct (gexec_ok _ _ _ _ H) as (_ & HF & _).
  assert (K : gok p ok g).
  { clear H. revert i Hw Hg. induction HF as [|[p0 ok0] g0 l1 l2 H0 HF IH]; intros [|i] Hw Hg; try discriminate; cbn in Hw, Hg.
    - injection Hw as -> ->. injection Hg as ->. exact H0.
    - exact (IH i Hw Hg). }
  destruct K as (_ & _ & He). eexists _, _. split; [exact He|]. intros b Hb. rewrite Hb. cbn. auto.
Qed.

Lemma gprogress m (g : goroutine A) : (forall b, gAt g <> GRun (WRet b)) -> exists m' g', gstep c (m, g) (m', g').
Proof.
  intros Hn. destruct (gAt g) as [[a|s k|txt k]|s v k|v k] eqn:E.
  - congruence.
  - eexists _, _. eapply g_get; eauto.
  - eexists _, _. eapply g_write; eauto.
  - destruct (Z_gt_dec v 0); eexists _, _; [eapply g_hit|eapply g_set]; eauto.
  - eexists _, _. eapply g_ret; eauto.
Qed.

Lemma finished_dec (gs : list (goroutine A)) :
  {Forall (fun g : goroutine A => exists b, gAt g = GRun (WRet b)) gs} + {exists before g after, gs = before ++ g :: after /\ forall b, gAt g <> GRun (WRet b)}.
Proof.
  induction gs as [|g gs IH]; [left; constructor|].
  destruct (gAt g) as [[a|s k|txt k]|s v k|v k] eqn:E.
  1: { destruct IH as [IH|IH].
       - left. constructor; eauto.
       - right. destruct IH as (b & g0 & l & -> & Hg). exists (g :: b), g0, l. auto. }
  all: right; exists [], g, gs; split; [reflexivity|intros b; rewrite E; discriminate].
Qed.

Lemma gfinishes (work : list (wprog A * (nat -> bool))) n m gs : gexec c (started work) n (m, gs) ->
  exists n' m' gs', gexec c (started work) n' (m', gs') /\ Forall (fun g : goroutine A => exists b, gAt g = GRun (WRet b)) gs'.
Proof.
  remember (total_left gs) as k eqn:Ek. revert n m gs Ek. induction k as [k IH] using (well_founded_induction lt_wf). intros n m gs -> H.
  destruct (finished_dec gs) as [Hf|(before & g & after & -> & Hg)]; [eauto|].
  destruct (gprogress m g Hg) as (m' & g' & Hs).
  pose proof (ge_step c _ _ _ _ _ _ _ _ H Hs) as H'.
  eapply (IH _); [|reflexivity|exact H'].
  destruct (gexec_ok _ _ _ _ H) as (Hm & HF & _). apply Forall2_app_inv_r in HF. destruct HF as (w1 & w2 & H1 & H2 & ->).
  inversion H2 as [|[p ok] g0 w3 gs3 Hp Hrest]; subst. destruct (gstep_ok _ _ _ _ _ _ Hs Hm Hp) as (_ & _ & Hle).
  unfold total_left. rewrite !map_app, !list_sum_app. cbn [map list_sum fold_right]. unfold list_sum. cbn [fold_right]. lia.
Qed.

Lemma gbounded (work : list (wprog A * (nat -> bool))) n m gs : gexec c (started work) n (m, gs) ->
  (n <= list_sum (map (fun '(p, ok) => length_of w ok 0 p) work))%nat.
Proof.
  intros H. destruct (gexec_ok _ _ _ _ H) as (_ & _ & Hn). cbn [started snd] in Hn. unfold total_left in Hn.
  rewrite map_map in Hn.
  replace (map (fun x => steps_left (let '(p, ok) := x in gstart p ok)) work) with (map (fun '(p, ok) => length_of w ok 0 p) work) in Hn; [lia|].
  apply map_ext. intros [p ok]. reflexivity.
Qed.
End Machine.

Lemma merge_goroutine {Item Val E} c work n m gs i ok g fuel (t : PTable Item Val E) t' items mw sep compact p r :
  IsPlain (vwidth c) t t' ->
  p = mergeHP fuel t items mw sep compact /\ r = MergeRowsHorizontal fuel c t' ok (plainItems (vwidth c) items) mw sep compact
  \/ p = mergeVP fuel t items mw sep compact /\ r = MergeRowsVertical fuel c t' ok (plainItems (vwidth c) items) mw sep compact ->
  gexec c (started work) n (m, gs) -> nth_error work i = Some (p, ok) -> nth_error gs i = Some g ->
  (exists more, written r = gOut g ++ more) /\ forall st, gAt g = GRun (WRet st) -> written r = gOut g /\ stop r = st.
Proof.
  intros Ht Hp H Hw Hg. destruct (gresults c work n m gs i p ok g H Hw Hg) as (more & a & Ef & Hf).
  assert (K : written r = gOut g ++ more /\ stop r = a).
  { destruct Hp as [[-> ->]|[-> ->]]; [rewrite (mergeH_effect c fuel ok t t' items mw sep compact Ht)|rewrite (mergeV_effect c fuel ok t t' items mw sep compact Ht)];
      rewrite Ef; cbn; auto. }
  destruct K as [K1 K2]. split; [eauto|]. intros st Hst. destruct (Hf st Hst) as [-> ->]. rewrite app_nil_r in K1. auto.
Qed.
