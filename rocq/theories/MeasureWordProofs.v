(** * MeasureWordProofs: measuring with machine integers. *)
From Verif Require Import GoBase Utf8 Utf8Proofs IntervalSpec Pointwise TableProofs PropConst GraphemeData EastAsianData EmojiData RuneWidthData
  Uniseg GraphemeSpec UnisegProofs Runewidth ConditionSpec RunewidthSpec RunewidthProofs RuneTheory StringWidthProofs Regex EscapeSpec RegexProofs
  Width ScanProofs WidthProofs MergeWord WordProofs MeasureWord.
From Coq Require Import ZifyBool ZifyNat.
Local Open Scope Z_scope.
Ltac Zify.zify_post_hook ::= idtac.

(** ** Wrapping *)
Lemma wrap_ex half x : 0 < half -> exists k, wrap half x = x + k * (2 * half).
Proof.
  intros H0. unfold wrap. exists (- ((x + half) / (2 * half))).
  pose proof (Z.div_mod (x + half) (2 * half) ltac:(lia)) as K. lia.
Qed.
Lemma wrap_shift half x k : 0 < half -> wrap half (x + k * (2 * half)) = wrap half x.
Proof.
  intros H0. unfold wrap. replace (x + k * (2 * half) + half) with (x + half + k * (2 * half)) by lia.
  rewrite Z.mod_add by lia. reflexivity.
Qed.
Lemma wrap_add half a b : 0 < half -> wrap half (wrap half a + b) = wrap half (a + b).
Proof.
  intros H0. destruct (wrap_ex half a H0) as (k & ->). replace (a + k * (2 * half) + b) with (a + b + k * (2 * half)) by lia.
  apply wrap_shift, H0.
Qed.
Lemma wrap_shl half a n : 0 < half -> 0 <= n -> wrap half (Z.shiftl (wrap half a) n) = wrap half (Z.shiftl a n).
Proof.
  intros H0 Hn. rewrite !Z.shiftl_mul_pow2 by auto. destruct (wrap_ex half a H0) as (k & ->).
  replace ((a + k * (2 * half)) * 2 ^ n) with (a * 2 ^ n + (k * 2 ^ n) * (2 * half)) by ring. apply wrap_shift, H0.
Qed.
Lemma wrap_u16 half k x : 31 <= k -> half = 2 ^ k -> u16 (wrap half x) = u16 x.
Proof.
  intros Hk ->. assert (H0 : 0 < 2 ^ k) by (apply Z.pow_pos_nonneg; lia). destruct (wrap_ex (2 ^ k) x H0) as (j & ->).
  unfold u16. replace (2 ^ k) with (2 ^ (k - 16) * 65536).
  - replace (x + j * (2 * (2 ^ (k - 16) * 65536))) with (x + (j * 2 * 2 ^ (k - 16)) * 65536) by ring. apply Z.mod_add. lia.
  - change 65536 with (2 ^ 16). rewrite <- Z.pow_add_r by lia. f_equal. lia.
Qed.
Lemma half_large half k : 31 <= k -> half = 2 ^ k -> 2147483648 <= half.
Proof. intros Hk ->. change 2147483648 with (2 ^ 31). apply Z.pow_le_mono_r; lia. Qed.

Section Half.
Context (half : Z).

(** ** Searching *)
Lemma searchW d r : 0 < half -> 2 * slen d < half -> forall fuel from to_, 0 <= from -> from <= slen d -> 0 <= to_ <= slen d ->
  propertySearchW_loop half fuel d r from to_ = propertySearch_loop fuel d r from to_.
Proof.
  intros H0 Hd. induction fuel as [|f IH]; intros from to_ H1 H2 H3; [reflexivity|].
  cbn [propertySearchW_loop propertySearch_loop]. destruct (Z.gtb_spec to_ from) as [Hlt|]; [|reflexivity].
  rewrite (wrap_small half (from + to_)) by lia. rewrite Z.quot_div_nonneg by lia. set (m := (from + to_) / 2).
  assert (Hm : from <= m < to_).
  { unfold m. split; [apply Z.div_le_lower_bound; lia|apply Z.div_lt_upper_bound; lia]. }
  clearbody m. destruct (at_index d m) as [((lo, hi), p)|]; [|reflexivity].
  destruct (r <? lo); [apply IH; lia|]. destruct (r >? hi); [|reflexivity]. rewrite wrap_small by lia. apply IH; lia.
Qed.

Lemma propW d r : 0 < half -> 2 * slen d < half -> Sorted (spans d) -> propertyW half d r = Some (property d r).
Proof.
  intros H0 Hd Hs. unfold propertyW, property. rewrite searchW; auto; try (pose proof (slen_nonneg d); lia).
  fold (propertySearch d r). destruct (propertySearch_spec d r Hs) as (a & b & p & -> & _). reflexivity.
Qed.

Lemma inTableW_loopE t r : 0 < half -> 2 * slen t < half -> forall fuel bot top, 0 <= bot -> bot <= slen t -> -1 <= top < slen t ->
  inTableW_loop half fuel t r bot top = inTable_loop fuel t r bot top.
Proof.
  intros H0 Ht. induction fuel as [|f IH]; intros bot top H1 H2 H3; [reflexivity|].
  cbn [inTableW_loop inTable_loop]. destruct (Z.geb_spec top bot) as [Hle|]; [|reflexivity].
  rewrite (wrap_small half (bot + top)) by lia. rewrite Z.shiftr_div_pow2 by lia. change (2 ^ 1) with 2. set (m := (bot + top) / 2).
  assert (Hm : bot <= m <= top).
  { unfold m. split; [apply Z.div_le_lower_bound; lia|apply Z.div_le_upper_bound; lia]. }
  clearbody m. destruct (at_index t m) as [(a, b)|]; [|reflexivity].
  destruct (b <? r); [rewrite wrap_small by lia; apply IH; lia|].
  destruct (a >? r); [rewrite wrap_small by lia; apply IH; lia|reflexivity].
Qed.
Lemma inTableWE r t : 0 < half -> 2 * slen t < half -> t <> [] -> Sorted t -> inTableW half r t = Some (inTable r t).
Proof.
  intros H0 Ht Hne Hs. destruct (inTable_go_spec t r Hne Hs) as (res & E & _). unfold inTable. rewrite E.
  unfold inTableW, inTable_go in *. destruct t as [|(a, b) t']; [congruence|]. destruct (r <? a); [exact E|].
  rewrite <- E. rewrite wrap_small by (rewrite slen_cons in *; pose proof (slen_nonneg t'); lia).
  rewrite inTableW_loopE; auto; pose proof (slen_nonneg ((a, b) :: t')); rewrite ?slen_cons in *; pose proof (slen_nonneg t'); lia.
Qed.

(** ** The package's tables *)
Lemma dict_sizes : 2 * slen graphemeCodePoints < 2147483648 /\ 2 * slen eastAsianWidth < 2147483648 /\ 2 * slen emojiPresentation < 2147483648.
Proof. vm_compute. repeat split. Qed.
Lemma table_sizes t : In t rw_tables -> 2 * slen t < 2147483648.
Proof.
  assert (K : forallb (fun t => 2 * slen t <? 2147483648) rw_tables = true) by (vm_compute; reflexivity).
  rewrite forallb_forall in K. intros Ht. apply K in Ht. lia.
Qed.
Lemma inTable_rw r t : 2147483648 <= half -> In t rw_tables -> inTableW half r t = Some (inTable r t).
Proof.
  intros Hh Ht. destruct (rw_tables_compact t Ht) as [Hne Hc]. pose proof (table_sizes t Ht).
  apply inTableWE; auto; try lia. apply Compact_Sorted, Hc.
Qed.
Lemma inTables_rw r ts : 2147483648 <= half -> (forall t, In t ts -> In t rw_tables) -> inTablesW half r ts = Some (inTables r ts).
Proof.
  intros Hh. induction ts as [|t ts IH]; intros Ht; [reflexivity|]. cbn [inTablesW inTables].
  rewrite inTable_rw by (auto; apply Ht; left; reflexivity). destruct (inTable r t); [reflexivity|]. apply IH. intros u Hu. apply Ht. right. exact Hu.
Qed.
Lemma tables_rw ea st r : 2147483648 <= half -> RuneWidth_tablesW half ea st r = Some (RuneWidth_tables ea st r).
Proof.
  intros Hh. unfold RuneWidth_tablesW, RuneWidth_tables, caseW.
  rewrite !inTables_rw by (auto; unfold rw_tables; cbn [In]; intuition (subst; auto 10)).
  rewrite !inTable_rw by (auto; unfold rw_tables; cbn [In]; auto 10).
  generalize (inTables r [tbl_nonprint; tbl_combining]) (inTable r tbl_narrow) (inTables r [tbl_ambiguous; tbl_doublewidth])
    (inTables r [tbl_ambiguous; tbl_emoji; tbl_narrow]) (inTable r tbl_doublewidth). intros b1 b2 b3 b4 b5.
  destruct ea; cbn [negb].
  - destruct b1; [reflexivity|]. destruct b2; [reflexivity|]. destruct b3; [reflexivity|].
    destruct st; cbn [negb andb]; [reflexivity|]. destruct b4; reflexivity.
  - destruct (r <? 32); [reflexivity|]. destruct (_ || _); [reflexivity|]. destruct (r <? 768); [reflexivity|].
    destruct b2; [reflexivity|]. destruct b1; [reflexivity|]. destruct b5; reflexivity.
Qed.
Lemma runeW c r : 2147483648 <= half -> Reachable c -> RuneWidthW half c r = Some (RuneWidth c r).
Proof.
  intros Hh Hc. unfold RuneWidthW, RuneWidth. destruct ((r <? 0) || (r >? 1114111)) eqn:Er; [reflexivity|].
  destruct (Z.ltb_spec 0 (slen (combinedLut c))) as [Hl|_]; [|apply tables_rw; auto].
  assert (Hne : combinedLut c <> []) by (intros E; rewrite E in Hl; cbn in Hl; lia).
  pose proof (lut_index_in_range c r Hc Hne ltac:(lia)) as Hi. unfold at_index.
  assert (Hn : 0 <= Z.shiftr r 1) by (apply Z.shiftr_nonneg; lia).
  destruct (Z.ltb_spec (Z.shiftr r 1) 0) as [Hb|_]; [lia|].
  destruct (nth_error (combinedLut c) (Z.to_nat (Z.shiftr r 1))) as [b|] eqn:E.
  - rewrite (nth_error_nth _ _ 0 E). reflexivity.
  - apply nth_error_None in E. lia.
Qed.

(** ** Segmentation *)
Lemma gpropW r : 2147483648 <= half -> propertyW half graphemeCodePoints r = Some (property graphemeCodePoints r).
Proof. intros Hh. pose proof dict_sizes. apply propW; [lia|lia|apply grapheme_sorted]. Qed.
Lemma gprop_small r : 0 <= property graphemeCodePoints r < 1024.
Proof.
  change (property graphemeCodePoints r) with (gprop r). rewrite gprop_lookup.
  pose proof (lookup_in graphemeCodePoints r (fun p => (0 <=? p) && (p <? 1024)) eq_refl) as K. cbv beta in K.
  assert (E : forallb (fun e => (0 <=? snd e) && (snd e <? 1024)) graphemeCodePoints = true) by (vm_compute; reflexivity).
  specialize (K E). lia.
Qed.
Lemma transW st r : 2147483648 <= half -> transitionGraphemeStateW half st r = Some (transitionGraphemeState st r).
Proof.
  intros Hh. unfold transitionGraphemeStateW, transitionGraphemeState. rewrite gpropW by auto. destruct (transition st _). reflexivity.
Qed.
Lemma uniW r g : 2147483648 <= half -> uniRuneWidthW half r g = Some (uniRuneWidth r g).
Proof.
  intros Hh. unfold uniRuneWidthW, uniRuneWidth. pose proof dict_sizes as (_ & D1 & D2).
  rewrite (propW emojiPresentation), (propW eastAsianWidth) by (auto using emoji_sorted, eastAsian_sorted; lia).
  repeat match goal with |- (if ?b then _ else _) = _ => destruct b; [reflexivity|] end. reflexivity.
Qed.
Lemma step_widthWE fp w r prop : 2147483648 <= half ->
  step_widthW half fp (wrap half w) r prop = Some (wrap half (step_width fp w r prop)).
Proof.
  intros Hh. unfold step_widthW, step_width. rewrite uniW by auto.
  destruct (r =? vs16); [rewrite wrap_small by lia; reflexivity|].
  destruct (_ && _); [rewrite wrap_add by lia; reflexivity|].
  destruct (fp =? _); [|reflexivity]. destruct (r =? vs15); rewrite wrap_small by lia; reflexivity.
Qed.
Lemma stateW p : 2147483648 <= half -> 0 <= p < 1024 -> wrap half (Z.shiftl p shiftPropState) = Z.shiftl p shiftPropState.
Proof.
  intros Hh Hp. apply wrap_small; [lia|]. unfold shiftPropState. rewrite Z.shiftl_mul_pow2 by lia. change (2 ^ 21) with 2097152. lia.
Qed.

Definition wrapWidth (x : str * str * Z * Z) : str * str * Z * Z :=
  let '(a, b, w, st) := x in (a, b, wrap half w, st).

Lemma dsize s : 0 <= snd (DecodeRune s) <= slen s.
Proof.
  destruct s as [|b s]; [cbn; lia|]. pose proof (DecodeRune_size (b :: s) ltac:(discriminate)). lia.
Qed.
Lemma sliceFrom_ok s n : 0 <= n <= slen s -> sliceFrom s n = Some (drop n s).
Proof. intros Hn. unfold sliceFrom. destruct (Z.leb_spec 0 n); [|lia]. destruct (Z.leb_spec n (slen s)); [|lia]. reflexivity. Qed.
Lemma sliceTo_ok s n : 0 <= n <= slen s -> sliceTo s n = Some (take n s).
Proof. intros Hn. unfold sliceTo. destruct (Z.leb_spec 0 n); [|lia]. destruct (Z.leb_spec n (slen s)); [|lia]. reflexivity. Qed.
Lemma drop_len (s : str) n : 0 <= n <= slen s -> slen (drop n s) = slen s - n.
Proof. intros Hn. unfold drop, slen in *. rewrite skipn_length. lia. Qed.

Lemma step_loopWE fuel : 2147483648 <= half -> forall s len gs fp w, slen s < half -> 0 <= len <= slen s ->
  step_loopW half fuel s (drop len s) len gs fp (wrap half w) = option_map wrapWidth (step_loop fuel s (drop len s) len gs fp w).
Proof.
  intros Hh. induction fuel as [|f IH]; intros s len gs fp w Hs Hl; [reflexivity|]. cbn [step_loopW step_loop].
  pose proof (dsize (drop len s)) as Hd. rewrite drop_len in Hd by auto. destruct (DecodeRune (drop len s)) as [r l]. cbn [snd] in Hd.
  rewrite (wrap_small half (len + l)) by lia. rewrite sliceFrom_ok by lia. rewrite transW by auto.
  unfold transitionGraphemeState. destruct (transition gs (property graphemeCodePoints r)) as [ns b] eqn:ET.
  pose proof (gprop_small r) as Hp. destruct b.
  - rewrite sliceTo_ok, sliceFrom_ok by lia. cbn [option_map wrapWidth]. rewrite wrap_shl by (unfold ShiftWidth; lia). rewrite stateW by auto. reflexivity.
  - rewrite step_widthWE by auto. destruct (slen s <=? len + l).
    + cbn [option_map wrapWidth]. rewrite wrap_shl by (unfold ShiftWidth; lia). rewrite stateW by auto. reflexivity.
    + apply IH; lia.
Qed.

Lemma uni_small r g : 0 <= uniRuneWidth r g <= 4.
Proof. unfold uniRuneWidth. repeat match goal with |- context [if ?b then _ else _] => destruct b end; lia. Qed.

Lemma StepStringWE s st : 2147483648 <= half -> slen s < half -> StepStringW half s st = option_map wrapWidth (StepString s st).
Proof.
  intros Hh Hs. unfold StepStringW, StepString. destruct s as [|b s0] eqn:Es.
  { cbn [option_map wrapWidth]. rewrite wrap_small by lia. reflexivity. }
  rewrite <- Es in *. assert (Hne : s <> []) by (subst; discriminate). clear Es b s0.
  pose proof (dsize s) as Hd. destruct (DecodeRune s) as [r l]. cbn [snd] in Hd. rewrite gpropW by auto. rewrite !uniW by auto.
  destruct (slen s <=? l); [reflexivity|]. rewrite sliceFrom_ok by lia.
  assert (G : forall gs fp, match uniRuneWidthW half r fp with
      | Some w => step_loopW half (length s) s (drop l s) l gs fp w | None => None end
      = option_map wrapWidth (step_loop (length s) s (drop l s) l gs fp (uniRuneWidth r fp))).
  { intros gs fp. rewrite uniW by auto. pose proof (uni_small r fp).
    rewrite <- (step_loopWE (length s) Hh s l gs fp (uniRuneWidth r fp)) by lia. rewrite wrap_small by lia. reflexivity. }
  destruct (st <? 0).
  - rewrite transW by auto. unfold transitionGraphemeState. destruct (transition st _) as [ns b]. apply G.
  - apply G.
Qed.

(** The pieces make up the text. *)
Lemma some_parts {A B C D} (a a' : A) (b b' : B) (c c' : C) (d d' : D) : Some (a, b, c, d) = Some (a', b', c', d') -> a = a' /\ b = b'.
Proof. intros E. injection E as -> -> _ _. auto. Qed.
Lemma step_loop_parts fuel : forall s rem len gs fp w a b bd st, step_loop fuel s rem len gs fp w = Some (a, b, bd, st) -> s = a ++ b.
Proof.
  induction fuel as [|f IH]; intros s rem len gs fp w a b bd st E; [discriminate|]. cbn [step_loop] in E.
  destruct (DecodeRune rem) as [r l]. destruct (transitionGraphemeState gs r) as [[ns p] bb]. destruct bb.
  - apply some_parts in E. destruct E as [<- <-]. symmetry. apply take_drop.
  - destruct (slen s <=? len + l); [apply some_parts in E; destruct E as [<- <-]; rewrite app_nil_r; reflexivity|]. apply IH in E. exact E.
Qed.
Lemma StepString_parts s st a b bd st' : StepString s st = Some (a, b, bd, st') -> s = a ++ b.
Proof.
  unfold StepString. destruct s as [|x s0] eqn:Es; [intros E; injection E as <- <- _ _; reflexivity|]. rewrite <- Es. clear Es.
  destruct (DecodeRune s) as [r l]. destruct (slen s <=? l); [intros E; apply some_parts in E; destruct E as [<- <-]; rewrite app_nil_r; reflexivity|].
  destruct (st <? 0); [destruct (transitionGraphemeState st r) as [[ns p] bb]|]; apply step_loop_parts.
Qed.

Definition wrapG (g : Graphemes) : Graphemes :=
  {| g_original := g_original g; g_remaining := g_remaining g; g_cluster := g_cluster g; g_offset := g_offset g;
     g_boundaries := wrap half (g_boundaries g); g_state := g_state g |}.
Definition placed (g : Graphemes) : Prop :=
  0 <= g_offset g /\ g_offset g + slen (g_cluster g) + slen (g_remaining g) < half.

Lemma NextWE g : 2147483648 <= half -> placed g ->
  NextW half (wrapG g) = option_map (fun x => (wrapG (fst x), snd x)) (Next g)
  /\ forall g' b, Next g = Some (g', b) -> placed g'.
Proof.
  intros Hh (H0 & H1). pose proof (slen_nonneg (g_cluster g)) as P1. pose proof (slen_nonneg (g_remaining g)) as P2.
  unfold NextW, Next. cbn [wrapG g_remaining g_state g_cluster g_offset g_original g_boundaries].
  destruct (g_remaining g) as [|x rem] eqn:Er.
  { split; [reflexivity|]. intros g' b E. injection E as <- _. split; cbn; lia. }
  rewrite <- Er in *. clear Er. rewrite StepStringWE by (auto; lia).
  destruct (StepString (g_remaining g) (g_state g)) as [[[[a b] bd] st]|] eqn:E; [|split; [reflexivity|discriminate]].
  cbn [option_map wrapWidth fst snd]. split.
  - rewrite wrap_small by lia. reflexivity.
  - intros g' b' Eg. injection Eg as <- _. apply StepString_parts in E. rewrite E, slen_app in H1. unfold placed. cbn. split; lia.
Qed.

Lemma iterateWE fuel : 2147483648 <= half -> forall g, placed g -> iterateW half fuel (wrapG g) = option_map (map wrapG) (iterate fuel g).
Proof.
  intros Hh. induction fuel as [|f IH]; intros g Hg; [reflexivity|]. cbn [iterateW iterate]. destruct (NextWE g Hh Hg) as [E Hp]. rewrite E.
  destruct (Next g) as [[g' []]|] eqn:EN; [|reflexivity|reflexivity]. cbn [option_map fst snd]. rewrite (IH g') by (apply (Hp _ _ eq_refl)).
  destruct (iterate f g'); reflexivity.
Qed.
Lemma iterate_newW fuel s : 2147483648 <= half -> slen s < half ->
  iterateW half fuel (NewGraphemes s) = option_map (map wrapG) (iterate fuel (NewGraphemes s)).
Proof.
  intros Hh Hs. rewrite <- iterateWE; auto; [|split; cbn; lia]. unfold wrapG, NewGraphemes. cbn [g_boundaries g_original g_remaining g_cluster g_offset g_state].
  rewrite wrap_small by lia. reflexivity.
Qed.

(** ** Widths *)
Lemma clusterW c : 2147483648 <= half -> Reachable c -> forall rs w, cluster_widthW half c w rs = Some (cluster_width_from c w rs).
Proof.
  intros Hh Hc. induction rs as [|r rs IH]; intros w; [reflexivity|]. cbn [cluster_widthW cluster_width_from]. rewrite runeW by auto.
  destruct (_ >? 0); [reflexivity|apply IH].
Qed.
Lemma addW c : 2147483648 <= half -> Reachable c -> forall gs a,
  addWidthsW half c (map wrapG gs) (wrap half a) = Some (wrap half (fold_left (fun width g => width + cluster_width c (Runes g)) gs a)).
Proof.
  intros Hh Hc. induction gs as [|g gs IH]; intros a; [reflexivity|]. cbn [map addWidthsW fold_left].
  change (Runes (wrapG g)) with (Runes g). rewrite clusterW by auto. rewrite wrap_add by lia. apply IH.
Qed.
Lemma stringW c s : 2147483648 <= half -> Reachable c -> slen s < half -> StringWidthW half c s = Some (wrap half (StringWidth c s)).
Proof.
  intros Hh Hc Hs. unfold StringWidthW. rewrite iterate_newW by auto. pose proof (StringWidth_go_swidth c s) as K.
  unfold StringWidth. rewrite K. unfold StringWidth_go in K. destruct (iterate (S (length s)) (NewGraphemes s)) as [gs|]; [|discriminate].
  cbn [option_map]. rewrite <- (wrap_small half 0) at 1 by lia. rewrite addW by auto. injection K as ->. reflexivity.
Qed.

(** ** Counting matches *)
Lemma countW s : 2147483648 <= half -> slen s < half -> forall fuel start total, 0 <= total <= start -> start <= slen s ->
  countMatchesW_loop half fuel ansiEscapeRE s start total = countMatches_loop fuel ansiEscapeRE s start total.
Proof.
  intros Hh Hs. induction fuel as [|f IH]; intros start total H1 H2; [reflexivity|]. cbn [countMatchesW_loop countMatches_loop].
  destruct (start <? slen s); [|reflexivity]. rewrite sliceFrom_ok by lia.
  destruct (FindStringIndex ansiEscapeRE (drop start s)) as [(i, j)|] eqn:E; [|reflexivity].
  destruct (FindStringIndex_some _ _ _ E) as (pre & m & rest & Ed & HF & -> & ->).
  pose proof (nb_decode_nonneg pre (drop start s) [] (m ++ rest) Ed) as K1.
  pose proof (nb_decode_ge m (drop start s) pre rest Ed) as K2.
  assert (K3 : nb pre + nb m <= slen (drop start s)).
  { rewrite <- decode_bytes, Ed, !nb_app. pose proof (nb_decode_nonneg rest (drop start s) (pre ++ m) []) as K. rewrite app_nil_r, <- app_assoc in K. specialize (K Ed). lia. }
  assert (K4 : (2 <= length m)%nat).
  { destruct HF as [K _]. apply Escape_length2 in K. unfold text_runes in K. rewrite map_length in K. exact K. }
  rewrite drop_len in K3 by lia.
  rewrite (wrap_small half (start + _)), (wrap_small half (nb pre + nb m - nb pre)), (wrap_small half (_ - 1)), wrap_small by lia.
  apply IH; lia.
Qed.
Lemma countLW s : 2147483648 <= half -> slen s < half -> countMatchesLengthW half ansiEscapeRE s = Some (countMatchesLength ansiEscapeRE s).
Proof.
  intros Hh Hs. unfold countMatchesLengthW. rewrite countW; auto; [|lia|apply slen_nonneg]. destruct (count_scan s) as (ms & _ & E).
  unfold countMatchesLength. rewrite E. exact E.
Qed.
End Half.

(** ** Statements *)
Lemma visualW half k c s : 31 <= k -> half = 2 ^ k -> Reachable c -> slen s < half -> vwidthW half c s = Some (vwidth c s).
Proof.
  intros Hk Eh Hc Hs. pose proof (half_large half k Hk Eh) as Hh. unfold vwidthW. rewrite stringW, countLW by auto.
  unfold vwidth, rawWidth. rewrite !(wrap_u16 half k) by auto. f_equal. set (n := countMatchesLength ansiEscapeRE s).
  unfold u16. rewrite Zminus_mod. change (wrap half (StringWidth c s) mod 65536) with (u16 (wrap half (StringWidth c s))).
  rewrite (wrap_u16 half k) by auto. unfold u16. rewrite <- Zminus_mod. reflexivity.
Qed.
Lemma stringW_small half k c s : 31 <= k -> half = 2 ^ k -> Reachable c -> 2 * slen s < half -> StringWidthW half c s = Some (StringWidth c s).
Proof.
  intros Hk Eh Hc Hs. pose proof (half_large half k Hk Eh) as Hh. pose proof (slen_nonneg s). rewrite stringW by (auto; lia). f_equal.
  apply wrap_small; [lia|]. pose proof (StringWidth_bounds c s Hc) as K.
  assert (slen (runes s) <= slen s).
  { pose proof (nb_decode_ge (decode s) s [] []) as K2. rewrite app_nil_r in K2. specialize (K2 eq_refl). rewrite decode_bytes in K2.
    unfold slen, runes in *. rewrite map_length. exact K2. }
  lia.
Qed.
