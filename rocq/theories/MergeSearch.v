(** * MergeSearch: group counts, and the compact search. *)
From Verif Require Import GoBase Runewidth Width AlignSpec Table Merge TableContract TableOpsProofs WidthTheory
  MergeSpec MergeLayout MergeRender.
From Coq Require Import ZifyBool ZifyNat.
Local Open Scope Z_scope.

(** ** Arithmetic modulo 65536 *)
Lemma clamp_effective x : clampWidth x = effective x.
Proof. unfold clampWidth, effective, u16, MAX_WIDTH. destruct (x >? 65535); reflexivity. Qed.

Lemma effective_range x : 0 <= effective x < 65536.
Proof. unfold effective. destruct (x >? 65535); [lia|]. apply Z.mod_pos_bound. lia. Qed.

Lemma zsum_app a b : zsum (a ++ b) = zsum a + zsum b.
Proof. induction a as [|x a IH]; [reflexivity|]. cbn [app]. change (zsum (x :: a ++ b)) with (x + zsum (a ++ b)). change (zsum (x :: a)) with (x + zsum a). lia. Qed.

Lemma zsum_concat l : zsum (concat l) = zsum (map zsum l).
Proof.
  induction l as [|x l IH]; [reflexivity|]. cbn [concat map]. rewrite zsum_app, IH. reflexivity.
Qed.

Lemma fold_u16 l : forall a, fold_left (fun acc w => u16 (acc + w)) l (u16 a) = u16 (a + zsum l).
Proof.
  induction l as [|x l IH]; intros a; cbn [fold_left].
  - f_equal. change (zsum []) with 0. lia.
  - replace (u16 (u16 a + x)) with (u16 (a + x)) by (unfold u16; rewrite Zplus_mod_idemp_l; reflexivity).
    rewrite IH. f_equal. change (zsum (x :: l)) with (x + zsum l). lia.
Qed.

Lemma totalWidthOf_spec (m g n : Z) ws :
  totalWidthOf (u16 m) g (u16 n) ws = (m * (g - 1) + (n - 1) * g + zsum ws) mod 65536.
Proof.
  unfold totalWidthOf. change innerMargin with 1. rewrite !Z.mul_1_l.
  rewrite fold_u16. unfold u16.
  rewrite Z.add_mod by lia. symmetry. rewrite Z.add_mod by lia. symmetry. f_equal. f_equal.
  rewrite (Z.add_mod (m * (g - 1))) by lia. rewrite !Zmod_mod. rewrite (Z.add_mod ((m mod 65536) * _ mod 65536)) by lia.
  rewrite !Zmod_mod. f_equal. f_equal.
  - rewrite Zmult_mod_idemp_l. rewrite Zmult_mod_idemp_r.
    rewrite <- (Zmult_mod_idemp_r (g mod 65536 - 1)), Zminus_mod_idemp_l, Zmult_mod_idemp_r. reflexivity.
  - rewrite Zmult_mod_idemp_r, Zmult_mod_idemp_l.
    rewrite <- (Zmult_mod_idemp_l (n mod 65536 - 1)), Zminus_mod_idemp_l, Zmult_mod_idemp_l. reflexivity.
Qed.

Lemma steps_in a b s j : 0 < s -> In j (steps a b s) <-> exists q, 0 <= q /\ j = a + s * q /\ j < b.
Proof.
  intros Hs. unfold steps, zrange. rewrite map_map, in_map_iff. split.
  - intros (q & <- & Hq). apply in_seq in Hq. exists (Z.of_nat q). split; [lia|]. split; [lia|].
    assert (Z.of_nat q < (b - a + s - 1) / s) by lia.
    assert (s * (Z.of_nat q + 1) <= s * ((b - a + s - 1) / s)) by (apply Z.mul_le_mono_nonneg_l; lia).
    pose proof (Z.mul_div_le (b - a + s - 1) s Hs). lia.
  - intros (q & Hq & -> & Hlt). exists (Z.to_nat q). split; [lia|]. apply in_seq.
    assert (q + 1 <= (b - a + s - 1) / s); [|lia].
    apply Z.div_le_lower_bound; lia.
Qed.

Section Types.
Context {Item Val E : Type}.

Lemma estimate_ok (t : Table Item Val E) cols maxWidth sep : Columns (tSpec t) = map Some cols ->
  initialGroupCount t maxWidth sep =
  if reckoned t cols sep mod 65536 =? 0 then Panic DivideByZero else Ok (estimate t cols sep maxWidth).
Proof.
  intros HC. unfold initialGroupCount. rewrite (TableWidth_spec t _ cols HC). cbn [obind].
  assert (Ed : u16 ((zsum (map (fun col => Width t (colName col)) cols) + (slen cols - 1) * u16 (slen sep)) mod 65536 + u16 (slen sep))
    = reckoned t cols sep mod 65536).
  { unfold u16, reckoned, recorded. rewrite Zplus_mod_idemp_l.
    replace (zsum (map (fun col => Width t (colName col)) cols) + (slen cols - 1) * (slen sep mod 65536) + slen sep mod 65536)
      with (zsum (map (fun col => Width t (colName col)) cols) + slen cols * (slen sep mod 65536)) by lia.
    rewrite Z.add_mod, Zmult_mod_idemp_r, <- Z.add_mod by lia. reflexivity. }
  rewrite Ed. destruct (_ =? 0) eqn:E0; [reflexivity|].
  assert (En : u16 (clampWidth maxWidth + u16 (slen sep)) = (effective maxWidth + slen sep) mod 65536).
  { rewrite clamp_effective. unfold u16. rewrite Zplus_mod_idemp_r. reflexivity. }
  rewrite En. unfold estimate. f_equal.
  destruct (Z.ltb_spec ((effective maxWidth + slen sep) mod 65536 / (reckoned t cols sep mod 65536)) 1); lia.
Qed.

Lemma estimate_pos (t : Table Item Val E) cols sep maxWidth : 1 <= estimate t cols sep maxWidth.
Proof. unfold estimate. lia. Qed.

(** ** Widths of groups *)
Definition cellw c (rows : list (list str)) (i : nat) (j : Z) : Z :=
  match get2 rows (Z.to_nat j) i with Some s => vwidth c s | None => 0 end.
Definition maxOf c rows (i : nat) (js : list Z) : Z := fold_right Z.max 0 (map (cellw c rows i) js).

Lemma cellw_nonneg c rows i j : 0 <= cellw c rows i j.
Proof. unfold cellw. destruct (get2 rows (Z.to_nat j) i); [|lia]. apply u16_range. Qed.

Lemma maxOf_max c rows i js : IsMax (fun x => x = 0 \/ exists j, In j js /\ x = cellw c rows i j) (maxOf c rows i js).
Proof.
  unfold maxOf. induction js as [|j js [IH1 IH2]]; cbn [map fold_right].
  - split; [auto|]. intros x [->|(j & [] & _)]. lia.
  - pose proof (cellw_nonneg c rows i j). split.
    + destruct (Z.max_spec (cellw c rows i j) (fold_right Z.max 0 (map (cellw c rows i) js))) as [[_ ->]|[_ ->]].
      * destruct IH1 as [->|(j' & Hj & ->)]; [auto|right]. exists j'. split; [right; auto|auto].
      * right. exists j. split; [left; auto|auto].
    + intros x [->|(j' & [<-|Hj] & ->)]; [lia|lia|].
      specialize (IH2 (cellw c rows i j') (or_intror (ex_intro _ j' (conj Hj eq_refl)))). lia.
Qed.

Lemma IsMax_unique (S S' : Z -> Prop) m m' : (forall x, S x <-> S' x) -> IsMax S m -> IsMax S' m' -> m = m'.
Proof. intros HS [H1 H2] [H3 H4]. apply Z.le_antisymm; [apply H4, HS; auto|apply H2, HS; auto]. Qed.

(** Indices of the items of group [k], as the code computes them. *)
Definition gidx (m : mode) (n g : nat) (k : Z) : list Z :=
  match m with
  | H => steps k (Z.of_nat n) (Z.of_nat g)
  | V => let L := Z.of_nat (lineCount n g) in
         steps (k * L) (if (k + 1) * L >? Z.of_nat n then Z.of_nat n else (k + 1) * L) 1
  end.
Definition gwidths (cols : list (Column Item Val E)) c m rows g (k : nat) : list Z :=
  map (fun i => maxOf c rows i (gidx m (length rows) g (Z.of_nat k))) (seq 0 (length cols)).

Lemma gidx_spec m n g k j : (1 <= g)%nat -> (k < g)%nat -> In j (gidx m n g (Z.of_nat k)) <->
  exists l, (l < lineCount n g)%nat /\ j = Z.of_nat (pos m g (lineCount n g) l k) /\ (pos m g (lineCount n g) l k < n)%nat.
Proof.
  intros Hg Hk. destruct m; cbn [gidx].
  - rewrite steps_in by lia. split.
    + intros (q & Hq & -> & Hlt). exists (Z.to_nat q). cbn [pos].
      pose proof (lineCount_spec n g Hg ltac:(lia)) as HL.
      assert (Z.to_nat q * g < lineCount n g * g)%nat by nia.
      split; [nia|]. split; [nia|nia].
    + cbn [pos]. intros (l & Hl & -> & Hlt). exists (Z.of_nat l). nia.
  - rewrite steps_in by lia. set (L := lineCount n g) in *. cbn [pos]. split.
    + intros (q & Hq & -> & Hlt). exists (Z.to_nat q).
      destruct (Z.gtb_spec ((Z.of_nat k + 1) * Z.of_nat L) (Z.of_nat n)); nia.
    + intros (l & Hl & -> & Hlt). exists (Z.of_nat l). split; [lia|]. split; [nia|].
      destruct (Z.gtb_spec ((Z.of_nat k + 1) * Z.of_nat L) (Z.of_nat n)); nia.
Qed.

Lemma gwidths_ok cols c m rows g : (1 <= g)%nat -> GroupWidths c cols (layout_lines m g rows) g (gwidths cols c m rows g).
Proof.
  intros Hg k Hk. split; [unfold gwidths; rewrite map_length, seq_length; reflexivity|].
  intros i w Hw. unfold gwidths in Hw. rewrite nth_map, nth_seq in Hw. destruct (i <? _)%nat; [|discriminate].
  cbn [option_map plus] in Hw. injection Hw as <-.
  pose proof (maxOf_max c rows i (gidx m (length rows) g (Z.of_nat k))) as HM.
  assert (HS : forall x, (x = 0 \/ exists j, In j (gidx m (length rows) g (Z.of_nat k)) /\ x = cellw c rows i j)
    <-> (x = 0 \/ exists line row s, In line (layout_lines m g rows) /\ nth_error line k = Some row
                   /\ nth_error row i = Some s /\ x = vwidth c s)).
  { intros x. split.
    - intros [->|(j & Hj & ->)]; [auto|]. apply gidx_spec in Hj; auto. destruct Hj as (l & Hl & -> & Hlt).
      unfold cellw. rewrite Nat2Z.id. unfold get2.
      destruct (nth_error rows (pos m g (lineCount (length rows) g) l k)) as [row|] eqn:Er; [|auto].
      destruct (nth_error row i) as [s|] eqn:Es; [|auto]. right.
      pose proof (layout_get2 m g rows l k) as HG.
      destruct (Nat.ltb_spec l (lineCount (length rows) g)); [|lia]. destruct (Nat.ltb_spec k g); [|lia]. cbn [andb] in HG.
      rewrite Er in HG. unfold get2 in HG. destruct (nth_error (layout_lines m g rows) l) as [line|] eqn:El; [|discriminate].
      exists line, row, s. split; [eapply nth_error_In; eauto|]. auto.
    - intros [->|(line & row & s & Hin & Hrow & Hs & ->)]; [auto|]. right.
      apply In_nth_error in Hin. destruct Hin as (l & Hl).
      pose proof (layout_get2 m g rows l k) as HG. unfold get2 in HG. rewrite Hl, Hrow in HG.
      pose proof (nth_some_lt _ _ _ Hl) as Hll. rewrite layout_len in Hll.
      destruct (Nat.ltb_spec l (lineCount (length rows) g)); [|lia]. destruct (Nat.ltb_spec k g); [|lia]. cbn [andb] in HG.
      symmetry in HG. pose proof (nth_some_lt _ _ _ HG).
      exists (Z.of_nat (pos m g (lineCount (length rows) g) l k)). split.
      + apply gidx_spec; auto. exists l. auto.
      + unfold cellw. rewrite Nat2Z.id. unfold get2. rewrite HG, Hs. reflexivity. }
  destruct HM as [HM1 HM2]. split; [apply HS; auto|]. intros x Hx. apply HM2, HS, Hx.
Qed.

Lemma GroupWidths_unique c (cols : list (Column Item Val E)) lines g W W' :
  GroupWidths c cols lines g W -> GroupWidths c cols lines g W' -> forall k, (k < g)%nat -> W k = W' k.
Proof.
  intros H1 H2 k Hk. destruct (H1 k Hk) as [L1 M1], (H2 k Hk) as [L2 M2].
  apply nth_ext. intros i. destruct (nth_error (W k) i) as [w|] eqn:E1.
  - destruct (nth_error (W' k) i) as [w'|] eqn:E2.
    + f_equal. eapply IsMax_unique; [|eapply M1; eauto|eapply M2; eauto]. intros x. reflexivity.
    + apply nth_error_None in E2. apply nth_some_lt in E1. lia.
  - apply nth_error_None in E1. symmetry. apply nth_error_None. lia.
Qed.

Lemma total_ext sep (cols : list (Column Item Val E)) W W' g :
  (forall k, (k < g)%nat -> W k = W' k) -> total sep cols W g = total sep cols W' g.
Proof.
  intros HW. unfold total. f_equal. f_equal. apply map_ext_in. intros k Hk. apply in_seq in Hk. rewrite HW by lia. reflexivity.
Qed.

Lemma CompactTotal_is c (cols : list (Column Item Val E)) sep m rows g w : (1 <= g)%nat ->
  CompactTotal c cols sep m rows g w <-> w = total sep cols (gwidths cols c m rows g) g.
Proof.
  intros Hg. split.
  - intros (lines & W & HL & HW & ->). apply layout_is in HL; auto. subst lines.
    apply total_ext. eapply GroupWidths_unique; eauto. apply gwidths_ok; auto.
  - intros ->. exists (layout_lines m g rows), (gwidths cols c m rows g). split; [apply layout_ok; auto|].
    split; [apply gwidths_ok; auto|reflexivity].
Qed.

(** The boolean the search tests. *)
Definition worth_b (m : mode) (n g : nat) : bool :=
  match m with H => true | V => ((g - 1) * lineCount n g <? n)%nat end.

Lemma worth_spec m rows g : (2 <= g)%nat -> Worth m rows g <-> worth_b m (length rows) g = true.
Proof.
  intros Hg. destruct m; cbn [Worth worth_b]; [tauto|]. split.
  - intros Hw. destruct (Hw _ (layout_ok V g rows ltac:(lia))) as (line & Hin & Hlen).
    apply In_nth_error in Hin. destruct Hin as (l & Hl).
    pose proof (layout_get2 V g rows l (g - 1)) as HG. unfold get2 in HG. rewrite Hl in HG.
    destruct (nth_error line (g - 1)) as [row|] eqn:Er; [|apply nth_error_None in Er; lia].
    destruct (_ && _); [|discriminate]. cbn [pos] in HG. symmetry in HG. apply nth_some_lt in HG.
    apply Nat.ltb_lt. lia.
  - intros Hb. apply Nat.ltb_lt in Hb. intros lines HL. apply layout_is in HL; [|lia]. subst lines.
    assert (Hn : (1 <= length rows)%nat) by (exact (Nat.le_lt_trans _ _ _ (Nat.le_0_l _) Hb)). pose proof (lineCount_pos (length rows) g Hn) as HL1.
    destruct (nth_error (layout_lines V g rows) 0) as [line|] eqn:El.
    + exists line. split; [eapply nth_error_In; eauto|]. apply Nat.le_antisymm.
      * eapply layout_line_len. eapply nth_error_In; eauto.
      * pose proof (layout_get2 V g rows 0 (g - 1)) as HG. unfold get2 in HG. rewrite El in HG.
        destruct (Nat.ltb_spec 0 (lineCount (length rows) g)); [|lia]. destruct (Nat.ltb_spec (g - 1) g); [|lia].
        cbn [andb pos] in HG. destruct (nth_error line (g - 1)) eqn:Ek; [apply nth_some_lt in Ek; lia|].
        symmetry in HG. apply nth_error_None in HG. lia.
    + apply nth_error_None in El. rewrite layout_len in El. lia.
Qed.

Definition acceptable_b c (cols : list (Column Item Val E)) sep maxWidth m rows g : bool :=
  worth_b m (length rows) g && (total sep cols (gwidths cols c m rows g) g mod 65536 <=? effective maxWidth).

Lemma acceptable_spec c (cols : list (Column Item Val E)) sep maxWidth m rows g : (2 <= g)%nat ->
  Acceptable c cols sep maxWidth m rows g <-> acceptable_b c cols sep maxWidth m rows g = true.
Proof.
  intros Hg. unfold Acceptable, acceptable_b. rewrite worth_spec, andb_true_iff by auto. split.
  - intros [H1 (w & Hw & Hle)]. split; auto. apply CompactTotal_is in Hw; [|lia]. subst w. lia.
  - intros [H1 H2]. split; auto. eexists. split; [apply CompactTotal_is; [lia|reflexivity]|]. lia.
Qed.

Section Printing.
Context {c : Condition} {t : Table Item Val E} {cols : list (Column Item Val E)} {items : FormattedItemList E}
  {rows : list (list str)}.
Hypothesis HP : Printable t cols items rows.

Lemma maxCell_ok i : (i < length cols)%nat -> forall js mw,
  (forall j, In j js -> exists jn, j = Z.of_nat jn /\ (jn < length rows)%nat) ->
  maxCell c items (Z.of_nat i) js mw = Ok (Z.max mw (maxOf c rows i js)) \/ mw < 0.
Proof.
  intros Hi. induction js as [|j js IH]; intros mw Hj.
  - destruct (Z_lt_dec mw 0); [auto|left]. cbn. f_equal. lia.
  - destruct (Z_lt_dec mw 0); [auto|left]. cbn [maxCell].
    destruct (Hj j (or_introl eq_refl)) as (jn & -> & Hjn).
    destruct HP as [_ [_ Hget] Hlong]. destruct (nth_error rows jn) as [row|] eqn:Er; [|apply nth_error_None in Er; lia].
    rewrite (Hget jn row Er). cbn [obind].
    rewrite Forall_forall in Hlong. pose proof (Hlong row (nth_error_In _ _ Er)) as HL.
    destruct (nth_error row i) as [s|] eqn:Es; [|apply nth_error_None in Es; lia].
    rewrite (index_nat _ _ _ Es). cbn [obind].
    assert (Ec : cellw c rows i (Z.of_nat jn) = vwidth c s).
    { unfold cellw, get2. rewrite Nat2Z.id, Er, Es. reflexivity. }
    destruct (IH (if vwidth c s >? mw then vwidth c s else mw)) as [K|K].
    + intros j' Hj'. apply Hj. right. auto.
    + rewrite K. f_equal. unfold maxOf. cbn [map fold_right]. rewrite Ec.
      destruct (Z.gtb_spec (vwidth c s) mw); lia.
    + exfalso. destruct (Z.gtb_spec (vwidth c s) mw); lia.
Qed.

Lemma omap_ok {A B} (f : A -> outcome E B) (h : A -> B) l : (forall a, In a l -> f a = Ok (h a)) -> omap f l = Ok (map h l).
Proof.
  induction l as [|a l IH]; intros Hf; [reflexivity|]. cbn [omap map]. rewrite (Hf a) by (left; auto).
  cbn [obind]. rewrite IH by (intros; apply Hf; right; auto). reflexivity.
Qed.

Lemma widths_ok m g idxs : (1 <= g)%nat -> (forall k, (k < g)%nat -> idxs (Z.of_nat k) = gidx m (length rows) g (Z.of_nat k)) ->
  widthsOf c items (ColumnCount (tSpec t)) idxs (Z.of_nat g) = Ok (concat (map (gwidths cols c m rows g) (seq 0 g))).
Proof.
  intros Hg Hidx. unfold widthsOf, ColumnCount. rewrite (pr_columns _ _ _ _ HP). unfold slen. rewrite map_length, !zrange_nat.
  rewrite (omap_ok _ (fun k => gwidths cols c m rows g (Z.to_nat k))).
  - cbn [obind]. rewrite map_map. do 2 f_equal. apply map_ext. intros k. rewrite Nat2Z.id. reflexivity.
  - intros kz Hk. apply in_map_iff in Hk. destruct Hk as (k & <- & Hk). apply in_seq in Hk. rewrite Nat2Z.id.
    rewrite (omap_ok _ (fun i => maxOf c rows (Z.to_nat i) (gidx m (length rows) g (Z.of_nat k)))).
    + rewrite map_map. unfold gwidths. f_equal. apply map_ext. intros i. rewrite Nat2Z.id. reflexivity.
    + intros iz Hi. apply in_map_iff in Hi. destruct Hi as (i & <- & Hi). apply in_seq in Hi. rewrite Nat2Z.id.
      rewrite Hidx by lia. destruct (maxCell_ok i ltac:(lia) (gidx m (length rows) g (Z.of_nat k)) 0) as [K|K].
      * intros j Hj. apply gidx_spec in Hj; [|auto|lia]. destruct Hj as (l & _ & -> & Hlt). eauto.
      * rewrite K. f_equal. pose proof (maxOf_max c rows i (gidx m (length rows) g (Z.of_nat k))) as [_ HM].
        specialize (HM 0 (or_introl eq_refl)). lia.
      * lia.
Qed.

Definition flat m g := concat (map (gwidths cols c m rows g) (seq 0 g)).

Lemma rows_len : fiLen items = Z.of_nat (length rows).
Proof. exact (proj1 (pr_serves _ _ _ _ HP)). Qed.

Lemma mergedH_ok g : (1 <= g)%nat -> mergedRowsWidthH c t items (Z.of_nat g) = Ok (flat H g).
Proof.
  intros Hg. unfold mergedRowsWidthH. apply widths_ok; auto. intros k Hk. rewrite rows_len. reflexivity.
Qed.

Lemma mergedV_ok g : (2 <= g)%nat ->
  mergedRowsWidthV c t items (Z.of_nat g) = Ok (if worth_b V (length rows) g then Some (flat V g) else None).
Proof.
  intros Hg. unfold mergedRowsWidthV. rewrite rows_len, lineCountOf_nat by lia. set (L := lineCount (length rows) g).
  assert (HL : (1 <= L)%nat).
  { unfold L, lineCount. destruct (length rows); [destruct (Nat.leb_spec 2 g); lia|]. generalize (n / g)%nat. lia. }
  destruct (Z.eqb_spec (Z.of_nat L) 0) as [|_]; [lia|].
  assert (HW : (Z.of_nat g >? Z.quot (Z.of_nat (length rows) - 1) (Z.of_nat L) + 1) = negb (worth_b V (length rows) g)).
  { cbn [worth_b]. fold L. destruct (length rows) as [|n] eqn:En.
    - assert (EL : L = 1%nat) by (unfold L; unfold lineCount; destruct (Nat.leb_spec 2 g); lia). rewrite EL.
      change (Z.quot (Z.of_nat 0 - 1) (Z.of_nat 1)) with (-1).
      destruct (Nat.ltb_spec ((g - 1) * 1) 0); [lia|]. cbn. lia.
    - replace (Z.of_nat (S n) - 1) with (Z.of_nat n) by lia. rewrite Z.quot_div_nonneg by lia.
      pose proof (Z.mul_div_le (Z.of_nat n) (Z.of_nat L) ltac:(lia)) as K1.
      pose proof (Z.mul_succ_div_gt (Z.of_nat n) (Z.of_nat L) ltac:(lia)) as K2.
      set (q := Z.of_nat n / Z.of_nat L) in *. destruct (Nat.ltb_spec ((g - 1) * L) (S n)); cbn [negb].
      + apply not_true_iff_false. intros K. apply Z.gtb_lt in K. nia.
      + apply Z.gtb_lt. nia. }
  rewrite HW. destruct (worth_b V (length rows) g); cbn [negb]; [|reflexivity].
  rewrite (widths_ok V g); [reflexivity|lia|]. intros k Hk. reflexivity.
Qed.

Definition calc (m : mode) := match m with H => @compactCalcH_loop Item Val E | V => @compactCalcV_loop Item Val E end.

Lemma total_flat m g sep : totalWidthOf (u16 (slen sep)) (Z.of_nat g) (u16 (ColumnCount (tSpec t))) (flat m g)
  = total sep cols (gwidths cols c m rows g) g mod 65536.
Proof.
  rewrite totalWidthOf_spec. unfold flat, total, ColumnCount. rewrite zsum_concat, map_map, (pr_columns _ _ _ _ HP).
  unfold slen. rewrite map_length. reflexivity.
Qed.

Lemma calc_step m f sep maxWidth (g0 extra : nat) cw : (1 <= g0)%nat ->
  calc m (S f) c t items (clampWidth maxWidth) (u16 (slen sep)) (Z.of_nat g0) (Z.of_nat extra) cw =
  if acceptable_b c cols sep maxWidth m rows (g0 + extra + 1)
  then calc m f c t items (clampWidth maxWidth) (u16 (slen sep)) (Z.of_nat g0) (Z.of_nat (S extra)) (flat m (g0 + extra + 1))
  else Some (Ok (Z.of_nat extra, cw)).
Proof.
  intros Hg0. set (g := (g0 + extra + 1)%nat).
  assert (Eg : Z.of_nat g0 + Z.of_nat extra + 1 = Z.of_nat g) by lia.
  assert (Ee : Z.of_nat extra + 1 = Z.of_nat (S extra)) by lia.
  unfold acceptable_b. destruct m; cbn [calc compactCalcH_loop compactCalcV_loop]; rewrite Eg, Ee.
  - rewrite mergedH_ok by lia. rewrite total_flat, clamp_effective. cbn [worth_b andb].
    destruct (Z.gtb_spec (total sep cols (gwidths cols c H rows g) g mod 65536) (effective maxWidth)) as [L|L];
    destruct (Z.leb_spec (total sep cols (gwidths cols c H rows g) g mod 65536) (effective maxWidth)); try lia; reflexivity.
  - rewrite mergedV_ok by lia. destruct (worth_b V (length rows) g); cbn [andb]; [|reflexivity].
    rewrite total_flat, clamp_effective.
    destruct (Z.gtb_spec (total sep cols (gwidths cols c V rows g) g mod 65536) (effective maxWidth)) as [L|L];
    destruct (Z.leb_spec (total sep cols (gwidths cols c V rows g) g mod 65536) (effective maxWidth)); try lia; reflexivity.
Qed.

(** What the loop does. *)
Lemma calc_spec m sep maxWidth (g0 : nat) : (1 <= g0)%nat -> forall f extra cw,
  (calc m f c t items (clampWidth maxWidth) (u16 (slen sep)) (Z.of_nat g0) (Z.of_nat extra) cw = None
   /\ forall g, (g0 + extra < g <= g0 + extra + f)%nat -> acceptable_b c cols sep maxWidth m rows g = true)
  \/ exists extra', (extra <= extra' < extra + f)%nat
     /\ calc m f c t items (clampWidth maxWidth) (u16 (slen sep)) (Z.of_nat g0) (Z.of_nat extra) cw =
        Some (Ok (Z.of_nat extra', if (extra =? extra')%nat then cw else flat m (g0 + extra')))
     /\ (forall g, (g0 + extra < g <= g0 + extra')%nat -> acceptable_b c cols sep maxWidth m rows g = true)
     /\ acceptable_b c cols sep maxWidth m rows (g0 + extra' + 1) = false.
Proof.
  intros Hg0. induction f as [|f IH]; intros extra cw.
  - left. split; [destruct m; reflexivity|]. intros g Hg. lia.
  - rewrite calc_step by auto. destruct (acceptable_b c cols sep maxWidth m rows (g0 + extra + 1)) eqn:Ea.
    + destruct (IH (S extra) (flat m (g0 + extra + 1))) as [[K1 K2]|(extra' & K1 & K2 & K3 & K4)].
      * left. split; auto. intros g Hg. destruct (Nat.eq_dec g (g0 + extra + 1)) as [->|]; [auto|]. apply K2. lia.
      * right. exists extra'. split; [lia|]. split; [|split].
        -- rewrite K2. f_equal. f_equal. f_equal. destruct (Nat.eqb_spec extra extra'); [lia|].
           destruct (Nat.eqb_spec (S extra) extra') as [<-|]; [|reflexivity]. f_equal. lia.
        -- intros g Hg. destruct (Nat.eq_dec g (g0 + extra + 1)) as [->|]; [auto|]. apply K3. lia.
        -- exact K4.
    + right. exists extra. split; [lia|]. split; [|split; [|exact Ea]].
      * rewrite Nat.eqb_refl. reflexivity.
      * intros g Hg. lia.
Qed.

(** Reading the widths. *)
Lemma reads_default g : Reads (getWidth_default t) (length cols) g (fun _ => recorded t cols).
Proof.
  intros k Hk. split; [unfold recorded; rewrite map_length; reflexivity|]. intros i w Hw.
  unfold getWidth_default. rewrite (pr_columns _ _ _ _ HP). unfold recorded in Hw. rewrite nth_map in Hw.
  destruct (nth_error cols i) as [col|] eqn:Ec; [|discriminate]. cbn [option_map] in Hw. injection Hw as <-.
  rewrite (index_nat _ i (Some col)) by (rewrite nth_map, Ec; reflexivity). reflexivity.
Qed.

Lemma nth_concat {A} (rs : list (list A)) n : Forall (fun r => length r = n) rs -> forall k i r a,
  nth_error rs k = Some r -> nth_error r i = Some a -> nth_error (concat rs) (k * n + i) = Some a.
Proof.
  induction 1 as [|r0 rs Hr Hrs IH]; intros k i r a Hk Hi; [destruct k; discriminate|].
  destruct k as [|k].
  - injection Hk as ->. cbn [concat]. rewrite nth_error_app1; [exact Hi|]. apply nth_some_lt in Hi. lia.
  - cbn [concat]. rewrite nth_error_app2 by lia. replace (S k * n + i - length r0)%nat with (k * n + i)%nat by lia.
    eapply IH; eauto.
Qed.

Lemma reads_compact m g : (1 <= g)%nat ->
  Reads (E := E) (getWidth_compact (ColumnCount (tSpec t)) (flat m g)) (length cols) g (gwidths cols c m rows g).
Proof.
  intros Hg k Hk. destruct (gwidths_ok cols c m rows g Hg k Hk) as [HL _]. split; auto. intros i w Hw.
  unfold getWidth_compact, ColumnCount. rewrite (pr_columns _ _ _ _ HP). unfold slen. rewrite map_length.
  replace (Z.of_nat k * Z.of_nat (length cols) + Z.of_nat i) with (Z.of_nat (k * length cols + i)) by lia.
  apply index_nat. unfold flat. eapply (nth_concat _ (length cols)); [| |exact Hw].
  - apply Forall_forall. intros r Hr. apply in_map_iff in Hr. destruct Hr as (k' & <- & _).
    unfold gwidths. rewrite map_length, seq_length. reflexivity.
  - rewrite nth_map, nth_seq. destruct (Nat.ltb_spec k g); [reflexivity|lia].
Qed.

(** ** The functions *)
Definition g_init sep maxWidth : nat := Z.to_nat (estimate t cols sep maxWidth).
Lemma g_init_pos sep maxWidth : (1 <= g_init sep maxWidth)%nat.
Proof. unfold g_init. pose proof (estimate_pos t cols sep maxWidth). lia. Qed.

Lemma merge_unfold m fuel ok maxWidth sep compact : reckoned t cols sep mod 65536 <> 0 ->
  merge m fuel c t ok items maxWidth sep compact =
  let g0 := g_init sep maxWidth in
  let finish gc getWidth := emitLines c t items sep ok gc getWidth (zpos m gc) in
  if compact then
    match calc m fuel c t items (clampWidth maxWidth) (u16 (slen sep)) (Z.of_nat g0) 0 [] with
    | None => {| written := []; stop := Running |}
    | Some (Panic p) => {| written := []; stop := Panicked p |}
    | Some (Err e) => {| written := []; stop := Failed e |}
    | Some (Ok (extra, cellWidth)) =>
      if extra >? 0
      then finish (Z.of_nat g0 + extra) (getWidth_compact (ColumnCount (tSpec t)) cellWidth)
      else finish (Z.of_nat g0) (getWidth_default t)
    end
  else finish (Z.of_nat g0) (getWidth_default t).
Proof.
  intros Hr. assert (Eg : Z.of_nat (g_init sep maxWidth) = estimate t cols sep maxWidth).
  { unfold g_init. pose proof (estimate_pos t cols sep maxWidth). lia. }
  cbv zeta. rewrite Eg.
  destruct m; unfold merge, MergeRowsHorizontal, MergeRowsVertical; rewrite (estimate_ok t cols maxWidth sep (pr_columns _ _ _ _ HP));
    (destruct (Z.eqb_spec (reckoned t cols sep mod 65536) 0); [lia|]); reflexivity.
Qed.

Lemma merge_divzero m fuel ok maxWidth sep compact : reckoned t cols sep mod 65536 = 0 ->
  merge m fuel c t ok items maxWidth sep compact = {| written := []; stop := Panicked DivideByZero |}.
Proof.
  intros Hr. destruct m; unfold merge, MergeRowsHorizontal, MergeRowsVertical;
    rewrite (estimate_ok t cols maxWidth sep (pr_columns _ _ _ _ HP)), Hr; reflexivity.
Qed.

(** Not compact. *)
Lemma merge_plain m fuel ok maxWidth sep : reckoned t cols sep mod 65536 <> 0 ->
  merge m fuel c t ok items maxWidth sep false =
  write ok (map (line_text c cols sep (fun _ => recorded t cols) (g_init sep maxWidth))
                (layout_lines m (g_init sep maxWidth) rows)).
Proof.
  intros Hr. rewrite merge_unfold by auto. cbv zeta iota.
  apply (emit_ok HP); [apply g_init_pos|apply reads_default].
Qed.

(** Compact: still searching, or done. *)
Lemma merge_compact m fuel ok maxWidth sep : reckoned t cols sep mod 65536 <> 0 ->
  (merge m fuel c t ok items maxWidth sep true = {| written := []; stop := Running |}
   /\ forall g, (g_init sep maxWidth < g <= g_init sep maxWidth + fuel)%nat -> acceptable_b c cols sep maxWidth m rows g = true)
  \/ exists g, (g_init sep maxWidth <= g < g_init sep maxWidth + fuel)%nat
     /\ (forall g', (g_init sep maxWidth < g' <= g)%nat -> acceptable_b c cols sep maxWidth m rows g' = true)
     /\ acceptable_b c cols sep maxWidth m rows (S g) = false
     /\ merge m fuel c t ok items maxWidth sep true =
        write ok (map (line_text c cols sep (if (g =? g_init sep maxWidth)%nat then fun _ => recorded t cols else gwidths cols c m rows g) g)
                      (layout_lines m g rows)).
Proof.
  intros Hr. rewrite merge_unfold by auto. cbv zeta iota. pose proof (g_init_pos sep maxWidth) as Hg0.
  set (g0 := g_init sep maxWidth) in *.
  destruct (calc_spec m sep maxWidth g0 Hg0 fuel 0 []) as [[K1 K2]|(extra & K1 & K2 & K3 & K4)].
  - left. cbn in K1. rewrite K1. split; auto. intros g Hg. apply K2. lia.
  - right. exists (g0 + extra)%nat. split; [lia|]. split; [intros g' Hg'; apply K3; lia|].
    split; [rewrite <- K4; f_equal; lia|].
    change (Z.of_nat 0) with 0 in K2. rewrite K2.
    destruct (Z.gtb_spec (Z.of_nat extra) 0) as [L|L].
    + destruct (Nat.eqb_spec 0 extra); [lia|]. destruct (Nat.eqb_spec (g0 + extra) g0); [lia|].
      replace (Z.of_nat g0 + Z.of_nat extra) with (Z.of_nat (g0 + extra)) by lia.
      apply (emit_ok HP); [lia|apply reads_compact; lia].
    + assert (extra = 0)%nat as -> by lia. rewrite Nat.add_0_r, Nat.eqb_refl.
      apply (emit_ok HP); [lia|apply reads_default].
Qed.
End Printing.

End Types.
