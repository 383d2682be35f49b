(** * WordProofs: machine integers make no difference within bounds. *)
From Verif Require Import GoBase Runewidth Width Table Merge MergeSpec MergeWord.
From Coq Require Import ZifyBool ZifyNat.
Local Open Scope Z_scope.

Lemma wrap_small half x : 0 < half -> - half <= x < half -> wrap half x = x.
Proof. intros H1 H2. unfold wrap. rewrite Z.mod_small by lia. lia. Qed.

Lemma zrange_in n i : In i (zrange n) <-> 0 <= i < n.
Proof.
  unfold zrange. rewrite in_map_iff. split.
  - intros (k & <- & Hk). apply in_seq in Hk. lia.
  - intros Hi. exists (Z.to_nat i). split; [lia|]. apply in_seq. lia.
Qed.
Lemma zrange_cons n : 0 < n -> zrange n = 0 :: map (fun k => k + 1) (zrange (n - 1)).
Proof.
  intros Hn. unfold zrange. replace (Z.to_nat n) with (S (Z.to_nat (n - 1))) by lia. cbn [seq map]. f_equal.
  rewrite <- seq_shift, !map_map. apply map_ext. intros k. lia.
Qed.
Lemma steps_cons from to_ step : 0 < step -> steps from to_ step = if from <? to_ then from :: steps (from + step) to_ step else [].
Proof.
  intros Hs. unfold steps. set (n := (to_ - from + step - 1) / step).
  destruct (Z.ltb_spec from to_) as [L|L].
  - assert (Hn : 0 < n) by (apply Z.div_str_pos; lia). rewrite zrange_cons by exact Hn. cbn [map]. rewrite Z.mul_0_r, Z.add_0_r. f_equal.
    rewrite map_map. replace ((to_ - (from + step) + step - 1) / step) with (n - 1).
    + apply map_ext. intros k. lia.
    + unfold n. replace (to_ - from + step - 1) with ((to_ - (from + step) + step - 1) + 1 * step) by lia. rewrite Z.div_add by lia. lia.
  - assert (Hn : n <= 0).
    { unfold n. destruct (Z.eq_dec (to_ - from) 0) as [->|]; [rewrite Z.div_small; lia|]. assert ((to_ - from + step - 1) / step < 1); [apply Z.div_lt_upper_bound; lia|lia]. }
    unfold zrange. replace (Z.to_nat n) with 0%nat by lia. reflexivity.
Qed.
Lemma stepsW_steps half fuel : forall i to_ step, 0 < half -> 0 < step -> 0 <= i -> to_ + step < half -> to_ - i <= Z.of_nat fuel ->
  stepsW half fuel i to_ step = steps i to_ step.
Proof.
  induction fuel as [|f IH]; intros i to_ step Hh Hs Hi Ht Hf; rewrite steps_cons by exact Hs; cbn [stepsW].
  - destruct (Z.ltb_spec i to_); [lia|reflexivity].
  - destruct (Z.ltb_spec i to_) as [L|L]; [|reflexivity]. f_equal. rewrite wrap_small by lia. apply IH; lia.
Qed.

Section WithTypes.
Context {Item Val E : Type}.

Lemma cells_ext c (gw gw' : Z -> Z -> outcome E Z) (cols : list (option (Column Item Val E))) item groupI : forall i, 
  (forall j, i <= j < i + slen cols -> gw j groupI = gw' j groupI) ->
  cells_loop c gw cols item i groupI = cells_loop c gw' cols item i groupI.
Proof.
  induction cols as [|[col|] cols IH]; intros i He; cbn [cells_loop]; try reflexivity.
  unfold slen in *. cbn [length] in He. rewrite (He i) by lia. rewrite (IH (i + 1)) by (intros; apply He; lia). reflexivity.
Qed.
Lemma groups_ext itemN (p p' : Z -> Z) (r r' : Z -> Z -> outcome E str) gs :
  (forall g, In g gs -> p g = p' g /\ (0 <= p g -> r (p g) g = r' (p g) g)) -> (forall g, In g gs -> 0 <= p g) ->
  groups_loop itemN p r gs = groups_loop itemN p' r' gs.
Proof.
  induction gs as [|g gs IH]; intros He Hp; cbn [groups_loop]; [reflexivity|]. destruct (He g (or_introl eq_refl)) as [E1 E2].
  rewrite <- E1. destruct (p g >=? itemN); [reflexivity|]. rewrite E2 by (apply Hp; left; reflexivity).
  rewrite IH; [reflexivity|intros; apply He; right; assumption|intros; apply Hp; right; assumption].
Qed.
Lemma lines_ext ok (f f' : Z -> outcome E str) ls : forall k acc, (forall l, In l ls -> f l = f' l) -> lines_loop ok f ls k acc = lines_loop ok f' ls k acc.
Proof.
  induction ls as [|l ls IH]; intros k acc He; cbn [lines_loop]; [reflexivity|]. rewrite (He l) by (left; reflexivity).
  destruct (f' l); try reflexivity. destruct (ok k); [|reflexivity]. apply IH. intros. apply He. right. assumption.
Qed.
Lemma omap_ext {A B} (f f' : A -> outcome E B) l : (forall a, In a l -> f a = f' a) -> omap f l = omap f' l.
Proof.
  induction l as [|a l IH]; intros He; cbn [omap]; [reflexivity|]. rewrite (He a) by (left; reflexivity). rewrite IH by (intros; apply He; right; assumption). reflexivity.
Qed.

Lemma initial_bounds (t : Table Item Val E) maxWidth sep g : initialGroupCount t maxWidth sep = Ok g -> 1 <= g <= 65535.
Proof.
  unfold initialGroupCount. destruct (TableWidth t (u16 (slen sep))) as [tw|e|p]; cbn [obind]; try discriminate.
  destruct (Z.eqb_spec (u16 (tw + u16 (slen sep))) 0) as [|Hd]; [discriminate|]. intros K. injection K as <-.
  set (d := u16 (tw + u16 (slen sep))) in *. set (a := u16 (clampWidth maxWidth + u16 (slen sep))).
  assert (0 < d) by (unfold d, u16 in *; pose proof (Z.mod_pos_bound (tw + slen sep mod 65536) 65536); lia).
  assert (0 <= a < 65536) by (apply Z.mod_pos_bound; lia). assert (0 <= a / d <= a) by (split; [apply Z.div_pos; lia|apply Z.div_le_upper_bound; nia]).
  destruct (Z.ltb_spec (a / d) 1); lia.
Qed.

Section Bounds.
Context (half maxCap B : Z) (t : Table Item Val E) (items : FormattedItemList E).
Let N := fiLen items.
Let colN := ColumnCount (tSpec t).
Hypothesis HN : 0 <= N.
Hypothesis HB : 1 <= B.
Hypothesis Hhalf : N + B < half.
Hypothesis HcolB : B * colN < half.
Hypothesis HcapC : B * colN <= maxCap.
Hypothesis HcapB : B <= maxCap.

Lemma colN_nonneg : 0 <= colN.
Proof. unfold colN, ColumnCount, slen. lia. Qed.

Lemma make_ok n : 0 <= n <= maxCap -> make (E := E) maxCap n = Ok tt.
Proof. intros Hn. unfold make. destruct (n <? 0) eqn:E1; [lia|]. destruct (maxCap <? n) eqn:E2; [lia|]. reflexivity. Qed.

Lemma lineCount_bounds g : 1 <= g -> let L := lineCountOf N g in (1 <= N -> 1 <= L /\ (L - 1) * g <= N - 1) /\ 0 <= L <= N + 1.
Proof.
  intros Hg L. unfold L, lineCountOf. destruct (Z.eq_dec N 0) as [->|Hn].
  - split; [lia|]. destruct (Z.eq_dec g 1) as [->|]; [cbn; lia|]. change (0 - 1) with (- (1)). rewrite Z.quot_opp_l, (Z.quot_small 1) by lia. lia.
  - rewrite Z.quot_div_nonneg by lia. pose proof (Z.mul_div_le (N - 1) g ltac:(lia)). pose proof (Z.div_pos (N - 1) g). 
    split; [intros _; split; [lia|nia]|]. nia.
Qed.
Lemma lineCountW_ok g : 1 <= g <= B -> lineCountW half N g = lineCountOf N g.
Proof.
  intros Hg. pose proof (lineCount_bounds g ltac:(lia)) as [_ HL]. unfold lineCountW. unfold lineCountOf in *. rewrite (wrap_small half (N - 1)) by lia. apply wrap_small; lia.
Qed.

Lemma emitW c sep ok g gw gw' pos pos' : 1 <= g <= B ->
  (forall i k, 0 <= i < colN -> 0 <= k < g -> gw i k = gw' i k) ->
  (forall l k, 0 <= l < lineCountOf N g -> 0 <= k < g -> pos (lineCountOf N g) l k = pos' (lineCountOf N g) l k /\ 0 <= pos (lineCountOf N g) l k) ->
  emitLinesW half maxCap c t items sep ok g gw pos = emitLines c t items sep ok g gw' pos'.
Proof.
  intros Hg Hgw Hpos. unfold emitLinesW, emitLines. fold N. rewrite lineCountW_ok by exact Hg. apply lines_ext. intros l Hl. apply zrange_in in Hl.
  rewrite make_ok by lia. cbn [obind]. rewrite (groups_ext N (pos (lineCountOf N g) l) (pos' (lineCountOf N g) l) (renderItem c t items gw) (renderItem c t items gw')); [reflexivity| |].
  - intros k Hk. apply zrange_in in Hk. split; [apply Hpos; lia|]. intros _. unfold renderItem. destruct (fiGet items _); cbn [obind]; try reflexivity.
    rewrite (cells_ext c gw gw'); [reflexivity|]. intros j Hj. apply Hgw; [|lia]. unfold colN, ColumnCount. lia.
  - intros k Hk. apply zrange_in in Hk. apply Hpos; lia.
Qed.

Lemma mergedHW c g : 1 <= g <= B -> mergedRowsWidthHW half maxCap c t items g = mergedRowsWidthH c t items g.
Proof.
  intros Hg. pose proof colN_nonneg as Hc. unfold mergedRowsWidthHW, mergedRowsWidthH. fold colN. fold N.
  assert (Hgc : 0 <= g * colN <= B * colN) by nia. rewrite wrap_small by lia. rewrite make_ok by lia. cbn [obind]. unfold widthsOf.
  rewrite (omap_ext _ (fun groupI => omap (fun colI => maxCell c items colI (steps groupI N g) 0) (zrange colN)) (zrange g)); [reflexivity|].
  intros k Hk. apply zrange_in in Hk. rewrite (stepsW_steps half (Z.to_nat N)) by lia. reflexivity.
Qed.
Lemma mergedVW c g : 2 <= g <= B -> mergedRowsWidthVW half maxCap c t items g = mergedRowsWidthV c t items g.
Proof.
  intros Hg. pose proof colN_nonneg as Hc. unfold mergedRowsWidthVW, mergedRowsWidthV. fold colN. fold N. rewrite lineCountW_ok by lia.
  pose proof (lineCount_bounds g ltac:(lia)) as [HL1 HL2]. set (L := lineCountOf N g) in *. rewrite (wrap_small half (N - 1)) by lia.
  destruct (Z.eqb_spec L 0) as [|HL0]; [reflexivity|].
  assert (Hq : - half <= Z.quot (N - 1) L + 1 < half).
  { destruct (Z.eq_dec N 0) as [->|]; [|rewrite Z.quot_div_nonneg by lia; pose proof (Z.div_pos (N - 1) L); pose proof (Z.div_le_upper_bound (N - 1) L N); nia].
    change (0 - 1) with (- (1)). rewrite Z.quot_opp_l by lia. rewrite Z.quot_div_nonneg by lia. pose proof (Z.div_pos 1 L). pose proof (Z.div_le_upper_bound 1 L 1). lia. }
  rewrite (wrap_small half _ ltac:(lia) Hq). destruct (Z.gtb_spec g (Z.quot (N - 1) L + 1)) as [|Hw]; [reflexivity|].
  assert (Hgc : 0 <= g * colN <= B * colN) by nia. rewrite wrap_small by lia. rewrite make_ok by lia. cbn [obind].
  assert (HgL : g * L <= N + g).
  { destruct (Z.eq_dec N 0) as [E0|]; [|destruct HL1; nia]. assert (L <= 1) by lia. nia. }
  unfold widthsOf.
  rewrite (omap_ext _ (fun groupI => omap (fun colI => maxCell c items colI
     (steps (groupI * L) (if (groupI + 1) * L >? N then N else (groupI + 1) * L) 1) 0) (zrange colN)) (zrange g)); [reflexivity|].
  intros k Hk. apply zrange_in in Hk. rewrite (wrap_small half (k + 1)) by lia. assert (0 <= k * L /\ (k + 1) * L <= g * L) by nia. rewrite (wrap_small half ((k + 1) * L)) by nia.
  rewrite (wrap_small half (k * L)) by nia. cbv zeta. rewrite stepsW_steps; [reflexivity|lia|lia|lia|destruct (Z.gtb_spec ((k + 1) * L) N); lia|destruct (Z.gtb_spec ((k + 1) * L) N); lia].
Qed.

Lemma calcHW c maxWidth margin g0 fuel : 1 <= g0 -> forall extra cw, 0 <= extra -> g0 + extra + Z.of_nat fuel <= B ->
  compactCalcHW_loop half maxCap fuel c t items maxWidth margin g0 extra cw = compactCalcH_loop fuel c t items maxWidth margin g0 extra cw.
Proof.
  intros Hg. induction fuel as [|f IH]; intros extra cw He Hf; cbn [compactCalcHW_loop compactCalcH_loop]; [reflexivity|].
  rewrite (wrap_small half (g0 + extra)), (wrap_small half (g0 + extra + 1)), (wrap_small half (extra + 1)) by lia. rewrite mergedHW by lia.
  destruct (mergedRowsWidthH c t items (g0 + extra + 1)); try reflexivity. destruct (_ >? maxWidth); [reflexivity|]. apply IH; lia.
Qed.
Lemma calcVW c maxWidth margin g0 fuel : 1 <= g0 -> forall extra cw, 0 <= extra -> g0 + extra + Z.of_nat fuel <= B ->
  compactCalcVW_loop half maxCap fuel c t items maxWidth margin g0 extra cw = compactCalcV_loop fuel c t items maxWidth margin g0 extra cw.
Proof.
  intros Hg. induction fuel as [|f IH]; intros extra cw He Hf; cbn [compactCalcVW_loop compactCalcV_loop]; [reflexivity|].
  rewrite (wrap_small half (g0 + extra)), (wrap_small half (g0 + extra + 1)), (wrap_small half (extra + 1)) by lia. rewrite mergedVW by lia.
  destruct (mergedRowsWidthV c t items (g0 + extra + 1)) as [[l|]|e|p]; try reflexivity. destruct (_ >? maxWidth); [reflexivity|]. apply IH; lia.
Qed.
Lemma calcH_extra c maxWidth margin g0 fuel : forall extra cw x cw', 
  compactCalcH_loop fuel c t items maxWidth margin g0 extra cw = Some (Ok (x, cw')) -> extra <= x < extra + Z.of_nat fuel.
Proof.
  induction fuel as [|f IH]; intros extra cw x cw' K; cbn [compactCalcH_loop] in K; [discriminate|].
  destruct (mergedRowsWidthH c t items (g0 + extra + 1)); try discriminate. destruct (_ >? maxWidth); [injection K as <- _; lia|]. apply IH in K. lia.
Qed.
Lemma calcV_extra c maxWidth margin g0 fuel : forall extra cw x cw', 
  compactCalcV_loop fuel c t items maxWidth margin g0 extra cw = Some (Ok (x, cw')) -> extra <= x < extra + Z.of_nat fuel.
Proof.
  induction fuel as [|f IH]; intros extra cw x cw' K; cbn [compactCalcV_loop] in K; [discriminate|].
  destruct (mergedRowsWidthV c t items (g0 + extra + 1)) as [[l|]|e|p]; try discriminate; [destruct (_ >? maxWidth); [injection K as <- _; lia|apply IH in K; lia]|injection K as <- _; lia].
Qed.

Lemma pos_bounds l k g : 1 <= g <= B -> 0 <= l < lineCountOf N g -> 0 <= k < g ->
  0 <= l * g + k < half /\ l * g < half /\ 0 <= k * lineCountOf N g + l < half /\ k * lineCountOf N g < half.
Proof.
  intros Hg Hl Hk. pose proof (lineCount_bounds g ltac:(lia)) as [H1 H2]. set (L := lineCountOf N g) in *.
  destruct (Z.eq_dec N 0) as [E0|Hn].
  - assert (l = 0) by lia. assert (L = 1) by lia. subst l. rewrite H0 in *. lia.
  - destruct H1 as [H1 H3]; [lia|]. assert (l * g <= N - 1) by nia. assert (k * L <= (g - 1) * L) by nia. nia.
Qed.

Theorem word_same m fuel c ok maxWidth sep compact : 65535 + Z.of_nat fuel <= B ->
  match m with H => MergeRowsHorizontalW half maxCap | V => MergeRowsVerticalW half maxCap end fuel c t ok items maxWidth sep compact
  = merge m fuel c t ok items maxWidth sep compact.
Proof.
  intros Hf. destruct m; unfold merge, MergeRowsHorizontalW, MergeRowsVerticalW, MergeRowsHorizontal, MergeRowsVertical;
    destruct (initialGroupCount t maxWidth sep) as [g|e|p] eqn:Eg; try reflexivity; apply initial_bounds in Eg; cbv zeta.
  - assert (Fin : forall gc gw gw', 1 <= gc <= B -> (forall i k, 0 <= i < colN -> 0 <= k < gc -> gw i k = gw' i k) ->
      emitLinesW half maxCap c t items sep ok gc gw (fun lineCount lineI groupI => wrap half (wrap half (lineI * gc) + groupI))
      = emitLines c t items sep ok gc gw' (fun lineCount lineI groupI => lineI * gc + groupI)).
    { intros gc gw gw' Hgc He. apply emitW; [exact Hgc|exact He|]. intros l k Hl Hk. destruct (pos_bounds l k gc Hgc Hl Hk) as (P1 & P2 & P3 & P4).
      rewrite (wrap_small half (l * gc)), wrap_small by nia. split; [reflexivity|lia]. }
    destruct compact; [|apply Fin; [lia|reflexivity]]. rewrite calcHW by lia.
    destruct (compactCalcH_loop fuel c t items (clampWidth maxWidth) (u16 (slen sep)) g 0 []) as [[[x cw]|e|p]|] eqn:Ec; try reflexivity.
    apply calcH_extra in Ec. rewrite (wrap_small half (g + x)) by lia. destruct (x >? 0); [|apply Fin; [lia|reflexivity]].
    apply Fin; [lia|]. intros i k Hi Hk. unfold getWidth_compactW, getWidth_compact. fold colN. assert (0 <= k * colN + i < (g + x) * colN) by nia.
    assert (0 <= k * colN) by nia. assert ((g + x) * colN <= B * colN) by nia. rewrite (wrap_small half (k * colN)), wrap_small by lia. reflexivity.
  - assert (Fin : forall gc gw gw', 1 <= gc <= B -> (forall i k, 0 <= i < colN -> 0 <= k < gc -> gw i k = gw' i k) ->
      emitLinesW half maxCap c t items sep ok gc gw (fun lineCount lineI groupI => wrap half (wrap half (groupI * lineCount) + lineI))
      = emitLines c t items sep ok gc gw' (fun lineCount lineI groupI => groupI * lineCount + lineI)).
    { intros gc gw gw' Hgc He. apply emitW; [exact Hgc|exact He|]. intros l k Hl Hk. destruct (pos_bounds l k gc Hgc Hl Hk) as (P1 & P2 & P3 & P4).
      rewrite (wrap_small half (k * lineCountOf N gc)), wrap_small by nia. split; [reflexivity|lia]. }
    destruct compact; [|apply Fin; [lia|reflexivity]]. rewrite calcVW by lia.
    destruct (compactCalcV_loop fuel c t items (clampWidth maxWidth) (u16 (slen sep)) g 0 []) as [[[x cw]|e|p]|] eqn:Ec; try reflexivity.
    apply calcV_extra in Ec. rewrite (wrap_small half (g + x)) by lia. destruct (x >? 0); [|apply Fin; [lia|reflexivity]].
    apply Fin; [lia|]. intros i k Hi Hk. unfold getWidth_compactW, getWidth_compact. fold colN. assert (0 <= k * colN + i < (g + x) * colN) by nia.
    assert (0 <= k * colN) by nia. assert ((g + x) * colN <= B * colN) by nia. rewrite (wrap_small half (k * colN)), wrap_small by lia. reflexivity.
Qed.
End Bounds.

(** ** A search without end *)
Section Endless.
Context (half maxCap : Z) (t : Table Item Val E) (items : FormattedItemList E) (c : Condition).
Let N := fiLen items.
Let colN := ColumnCount (tSpec t).
Hypothesis HN : 0 <= N.
Hypothesis Hcol : 1 <= colN.
Hypothesis Hcap : 65536 * colN <= maxCap.
Hypothesis Hhalf : N + maxCap + colN < half.

Lemma endless_loop maxWidth margin g0 : 1 <= g0 -> forall fuel extra cw, 0 <= extra -> g0 + extra <= maxCap / colN -> maxCap / colN - (g0 + extra) < Z.of_nat fuel ->
  (forall f, compactCalcH_loop f c t items maxWidth margin g0 extra cw = None) ->
  compactCalcHW_loop half maxCap fuel c t items maxWidth margin g0 extra cw = Some (Panic BadCapacity).
Proof.
  intros Hg. induction fuel as [|f IH]; intros extra cw He Hb Hf Hn; [lia|].
  pose proof (Z.mul_div_le maxCap colN ltac:(lia)) as K1. pose proof (Z.mul_succ_div_gt maxCap colN ltac:(lia)) as K2. set (G := maxCap / colN) in *.
  assert (G <= maxCap) by nia. cbn [compactCalcHW_loop]. rewrite (wrap_small half (g0 + extra)), (wrap_small half (g0 + extra + 1)), (wrap_small half (extra + 1)) by lia.
  destruct (Z.eq_dec (g0 + extra) G) as [EG|NG].
  - unfold mergedRowsWidthHW. fold colN. rewrite EG. rewrite wrap_small by nia. unfold make. replace (_ || _)%bool with true; [reflexivity|]. symmetry. apply orb_true_iff. right. nia.
  - rewrite (mergedHW half maxCap G) by (fold N; fold colN; nia).
    pose proof (fun f => Hn (S f)) as Hn'. cbn [compactCalcH_loop] in Hn'.
    destruct (mergedRowsWidthH c t items (g0 + extra + 1)) as [l|e|p]; [|discriminate (Hn' 0%nat)|discriminate (Hn' 0%nat)].
    destruct (_ >? maxWidth); [discriminate (Hn' 0%nat)|]. apply IH; [lia|lia|lia|exact Hn'].
Qed.

Theorem endless ok maxWidth sep :
  (forall fuel, stop (MergeRowsHorizontal fuel c t ok items maxWidth sep true) = Running) ->
  exists rounds, forall fuel, (rounds <= fuel)%nat ->
  MergeRowsHorizontalW half maxCap fuel c t ok items maxWidth sep true = {| written := []; stop := Panicked BadCapacity |}.
Proof.
  intros Hrun. exists (S (Z.to_nat maxCap)). intros fuel Hfu.
  unfold MergeRowsHorizontal, MergeRowsHorizontalW in *. destruct (initialGroupCount t maxWidth sep) as [g|e|p] eqn:Eg; [|discriminate (Hrun 0%nat)|discriminate (Hrun 0%nat)].
  apply initial_bounds in Eg. cbv zeta in *. 
  assert (Hnone : forall f, compactCalcH_loop f c t items (clampWidth maxWidth) (u16 (slen sep)) g 0 [] = None).
  { intros f. specialize (Hrun f). destruct (compactCalcH_loop f c t items (clampWidth maxWidth) (u16 (slen sep)) g 0 []) as [[[x cw]|e|p]|]; try discriminate; [|reflexivity].
    exfalso. assert (L : forall gw pos gc, stop (emitLines c t items sep ok gc gw pos) <> Running).
    { intros gw pos gc. unfold emitLines. generalize (zrange (lineCountOf (fiLen items) gc)), 0%nat, (@nil str). clear. intros ls. induction ls as [|l ls IH]; intros k acc; cbn [lines_loop]; [discriminate|].
      destruct (obind _ _); try discriminate. destruct (ok k); [apply IH|discriminate]. }
    destruct (x >? 0); exact (L _ _ _ Hrun). }
  assert (Hq : 65535 <= maxCap / colN <= maxCap) by (split; [apply Z.div_le_lower_bound; nia|apply Z.div_le_upper_bound; nia]).
  rewrite (endless_loop (clampWidth maxWidth) (u16 (slen sep)) g ltac:(lia) fuel 0 [] ltac:(lia) ltac:(lia) ltac:(lia) Hnone). reflexivity.
Qed.
End Endless.
End WithTypes.
