(** * MergeRecorded: how merging depends on the recorded widths. *)
From Coq Require Import Strings.String.
From Verif Require Import GoBase Runewidth Width TextSpec AlignSpec Table Merge TableContract TableOpsProofs TableExamples
  MergeSpec MergeLayout MergeRender MergeSearch MergeTheory MergePlan MergeExamples MergeScreens.
From Coq Require Import ZifyBool ZifyNat.
Local Open Scope Z_scope.

Section Types.
Context {Item Val E : Type}.

(** ** Searches from two starts *)
Lemma search_starts c (cols : list (Column Item Val E)) sep maxWidth m rows g0 g0' g g' :
  Search c cols sep maxWidth m rows g0 g -> Search c cols sep maxWidth m rows g0' g' -> (g0 <= g0')%nat ->
  (g <= g')%nat /\ ((g0' <= g)%nat -> g = g').
Proof.
  intros (A1 & A2 & A3) (B1 & B2 & B3) Hle.
  assert (K : (g0' <= g)%nat -> g = g').
  { intros Hg. destruct (lt_eq_lt_dec g g') as [[L|L]|L]; [exfalso|exact L|exfalso].
    - apply A3, B2. lia.
    - apply B3, A2. lia. }
  split; [|exact K]. destruct (le_lt_dec g0' g) as [L|L]; [rewrite K by exact L; lia|lia].
Qed.

(** ** Estimates *)
Lemma zsum_le l l' : Forall2 Z.le l l' -> zsum l <= zsum l'.
Proof. unfold zsum. induction 1; cbn [fold_right]; lia. Qed.

Lemma recorded_le (t t' : Table Item Val E) cols :
  (forall col, In col cols -> Width t (colName col) <= Width t' (colName col)) -> Forall2 Z.le (recorded t cols) (recorded t' cols).
Proof.
  unfold recorded. intros Hw. induction cols as [|col cols IH]; cbn [map]; [constructor|].
  constructor; [apply Hw; left; reflexivity|]. apply IH. intros col' Hin. apply Hw. right. exact Hin.
Qed.

Lemma estimate_recorded (t t' : Table Item Val E) cols sep w :
  (forall col, In col cols -> Width t (colName col) <= Width t' (colName col)) ->
  0 < reckoned t cols sep -> reckoned t' cols sep < 65536 ->
  estimate t' cols sep w <= estimate t cols sep w.
Proof.
  intros Hw Hp Hr. pose proof (zsum_le _ _ (recorded_le _ _ _ Hw)) as Hs. unfold estimate.
  assert (Hle : reckoned t cols sep <= reckoned t' cols sep) by (unfold reckoned; lia).
  rewrite !(Z.mod_small (reckoned _ cols sep)) by lia. apply Z.max_le_compat_l.
  pose proof (Z.mod_pos_bound (effective w + slen sep) 65536 ltac:(lia)).
  apply Z.div_le_compat_l; lia.
Qed.

(** ** C69 *)
Lemma wider_columns c (t t' : Table Item Val E) cols items rows :
  Printable t cols items rows -> Printable t' cols items rows -> rows <> [] ->
  (forall col, In col cols -> Width t (colName col) <= Width t' (colName col)) ->
  forall m fuel fuel' sep w compact, 0 <= reckoned t cols sep -> reckoned t' cols sep < 65536 ->
  let r := merge m fuel c t (fun _ => true) items w sep compact in
  let r' := merge m fuel' c t' (fun _ => true) items w sep compact in
  stop r = Finished -> stop r' = Finished -> (List.length (written r) <= List.length (written r'))%nat.
Proof.
  intros HP HP' Hne Hw m fuel fuel' sep w b Hlo Hhi r r' Hr Hr'.
  destruct (Z.eq_dec (reckoned t cols sep mod 65536) 0) as [Hz|Hz]; [unfold r in Hr; rewrite (merge_divzero HP) in Hr by exact Hz; discriminate|].
  destruct (Z.eq_dec (reckoned t' cols sep mod 65536) 0) as [Hz'|Hz']; [unfold r' in Hr'; rewrite (merge_divzero HP') in Hr' by exact Hz'; discriminate|].
  destruct (plan_output HP m fuel w sep b Hz Hr) as (g & lines & W & (g0 & Hg0 & HS & HL & _) & E1).
  destruct (plan_output HP' m fuel' w sep b Hz' Hr') as (g' & lines' & W' & (g0' & Hg0' & HS' & HL' & _) & E2).
  unfold r, r'. rewrite E1, E2. cbn [written]. unfold printed. rewrite !map_length.
  assert (Hp : 0 < reckoned t cols sep) by (destruct (Z.eq_dec (reckoned t cols sep) 0) as [K|K]; [rewrite K in Hz; exfalso; apply Hz; reflexivity|lia]).
  pose proof (estimate_recorded t t' cols sep w Hw Hp Hhi) as Hm. pose proof (estimate_pos t' cols sep w) as Hq.
  assert (Hg : (1 <= g')%nat) by (destruct b; [destruct HS'|]; lia).
  apply (layout_mono m m g' g rows lines' lines); auto. destruct b; [|lia].
  eapply search_starts; [exact HS'|exact HS|lia].
Qed.

(** A group of cells that fit the recorded widths is at most as wide as they are. *)
Lemma fits_group c (t : Table Item Val E) cols rows m g k : FitsRecorded c t cols rows ->
  (forall col, In col cols -> 0 <= Width t (colName col)) ->
  Forall2 Z.le (gwidths cols c m rows g k) (recorded t cols).
Proof.
  intros HF H0. unfold gwidths, recorded.
  assert (K : forall l s, (forall i col, nth_error l i = Some col -> nth_error cols (s + i) = Some col) ->
    Forall2 Z.le (map (fun i => maxOf c rows i (gidx m (List.length rows) g (Z.of_nat k))) (seq s (List.length l)))
      (map (fun col => Width t (colName col)) l)); [|apply (K cols 0%nat); auto].
  induction l as [|col l IH]; intros s Hn; cbn [List.length seq map]; constructor.
  - assert (Hc : nth_error cols s = Some col) by (rewrite <- (Nat.add_0_r s); apply Hn; reflexivity).
    destruct (maxOf_max c rows s (gidx m (List.length rows) g (Z.of_nat k))) as [[->|(j & _ & ->)] _].
    + apply H0. eapply nth_error_In; eauto.
    + unfold cellw, get2. destruct (nth_error rows (Z.to_nat j)) as [row|] eqn:Er; [|apply H0; eapply nth_error_In; eauto].
      destruct (nth_error row s) as [x|] eqn:Ex; [|apply H0; eapply nth_error_In; eauto].
      eapply HF; eauto. eapply nth_error_In; eauto.
  - apply IH. intros i col' Hi. replace (S s + i)%nat with (s + S i)%nat by lia. apply Hn. exact Hi.
Qed.

Lemma zsum_nonneg' l : Forall (fun x => 0 <= x) l -> 0 <= zsum l.
Proof. unfold zsum. induction 1; cbn [fold_right]; lia. Qed.
Lemma zsum_const (f : nat -> Z) b l : (forall k, In k l -> f k <= b) -> zsum (map f l) <= Z.of_nat (List.length l) * b.
Proof.
  unfold zsum. induction l as [|k l IH]; intros Hb; cbn [map fold_right List.length]; [lia|].
  pose proof (Hb k (or_introl eq_refl)). specialize (IH (fun j Hj => Hb j (or_intror Hj))). lia.
Qed.

Lemma fits_nonneg c (t : Table Item Val E) cols items rows : Printable t cols items rows -> rows <> [] -> FitsRecorded c t cols rows ->
  forall col, In col cols -> 0 <= Width t (colName col).
Proof.
  intros HP Hne HF col Hin. destruct rows as [|row rows]; [contradiction|]. destruct (In_nth_error _ _ Hin) as (i & Hi).
  pose proof (pr_long _ _ _ _ HP) as HL. inversion HL as [|? ? HL1 _]; subst.
  destruct (nth_error row i) as [s|] eqn:Es; [|apply nth_error_None in Es; apply nth_some_lt in Hi; lia].
  pose proof (HF row i s col (or_introl eq_refl) Es Hi).
  pose proof (cellw_nonneg c [row] i 0) as K. unfold cellw, get2 in K. cbn [Z.to_nat nth_error] in K. rewrite Es in K. lia.
Qed.

(** Every number of groups up to the estimate is acceptable to the search. *)
Lemma fits_acceptable c (t : Table Item Val E) cols items rows : Printable t cols items rows -> rows <> [] -> FitsRecorded c t cols rows ->
  forall sep w g, 1 <= slen sep -> 0 <= w -> w + slen sep < 65536 -> 0 < reckoned t cols sep < 65536 ->
  (2 <= g)%nat -> Z.of_nat g <= estimate t cols sep w -> Acceptable c cols sep w H rows g.
Proof.
  intros HP Hne HF sep w g Hsep H0 Hw Hr Hg Hest. apply acceptable_spec; [exact Hg|].
  unfold acceptable_b, worth_b. cbn [andb]. apply Z.leb_le.
  assert (He : effective w = w) by (unfold effective; destruct (Z.gtb_spec w 65535); [lia|]; apply Z.mod_small; lia).
  unfold estimate in Hest. rewrite He, !Z.mod_small in Hest by lia. rewrite He.
  assert (Hmul : Z.of_nat g * reckoned t cols sep <= w + slen sep).
  { pose proof (Z.mul_div_le (w + slen sep) (reckoned t cols sep) ltac:(lia)). assert (Z.of_nat g <= (w + slen sep) / reckoned t cols sep) by lia. nia. }
  assert (Hb : zsum (map (fun k => zsum (gwidths cols c H rows g k)) (seq 0 g)) <= Z.of_nat g * zsum (recorded t cols)).
  { etransitivity; [apply (zsum_const _ (zsum (recorded t cols)))|rewrite seq_length; reflexivity].
    intros k _. apply zsum_le, fits_group; [exact HF|]. eapply fits_nonneg; eauto. }
  assert (H1 : 0 <= zsum (map (fun k => zsum (gwidths cols c H rows g k)) (seq 0 g))).
  { apply zsum_nonneg'. apply Forall_forall. intros x Hx. apply in_map_iff in Hx. destruct Hx as (k & <- & _). apply zsum_nonneg'.
    apply Forall_forall. intros y Hy. unfold gwidths in Hy. apply in_map_iff in Hy. destruct Hy as (i & <- & _).
    destruct (maxOf_max c rows i (gidx H (List.length rows) g (Z.of_nat k))) as [_ K]. apply K. left. reflexivity. }
  assert (Hc : 1 <= slen cols).
  { destruct cols; [unfold reckoned, recorded, zsum, slen in Hr; cbn in Hr; lia|]. unfold slen. cbn [List.length]. lia. }
  unfold reckoned in Hmul.
  assert (Hx : 0 <= (slen cols - 1) * (slen sep - 1) * Z.of_nat g) by (apply Z.mul_nonneg_nonneg; [apply Z.mul_nonneg_nonneg|]; lia).
  assert (Hy : 0 <= slen sep * (Z.of_nat g - 1)) by (apply Z.mul_nonneg_nonneg; lia).
  assert (Hv : 0 <= (slen cols - 1) * Z.of_nat g) by (apply Z.mul_nonneg_nonneg; lia).
  assert (Ht : total sep cols (gwidths cols c H rows g) g <= w) by (unfold total; lia).
  assert (Ht0 : 0 <= total sep cols (gwidths cols c H rows g) g) by (unfold total; lia).
  rewrite Z.mod_small by lia. exact Ht.
Qed.

Lemma blocks_ext c (cols : list (Column Item Val E)) W W' g : (forall k, (k < g)%nat -> W k = W' k) ->
  forall line s, (s + List.length line <= g)%nat -> blocks_from c cols W s line = blocks_from c cols W' s line.
Proof.
  intros HW. induction line as [|row line IH]; intros s Hs; cbn [blocks_from List.length] in *; [reflexivity|].
  rewrite HW by lia. f_equal. apply IH. lia.
Qed.
Lemma printed_ext c (cols : list (Column Item Val E)) sep W W' g m rows : (1 <= g)%nat -> (forall k, (k < g)%nat -> W k = W' k) ->
  printed c cols sep W g (layout_lines m g rows) = printed c cols sep W' g (layout_lines m g rows).
Proof.
  intros Hg HW. unfold printed. apply map_ext_in. intros line Hin. unfold line_text, blocks.
  rewrite (blocks_ext c cols W W' g HW line 0%nat); [reflexivity|]. pose proof (layout_line_len m g rows line Hin). lia.
Qed.

(** The plan of one table, from the estimate of another. *)
Lemma compact_from c (t t' : Table Item Val E) cols items rows : Printable t cols items rows -> rows <> [] ->
  FitsRecorded c t cols rows ->
  forall sep w g0 g0' g g', 1 <= slen sep -> 0 <= w -> w + slen sep < 65536 -> 0 < reckoned t cols sep < 65536 ->
  Z.of_nat g0 = estimate t cols sep w -> (1 <= g0' <= g0)%nat ->
  Search c cols sep w H rows g0 g -> Search c cols sep w H rows g0' g' -> g = g'.
Proof.
  intros HP Hne HF sep w g0 g0' g g' Hsep H0 Hw Hr Hg0 Hle HS HS'.
  destruct (search_starts _ _ _ _ _ _ _ _ _ _ HS' HS ltac:(lia)) as [_ K]. symmetry. apply K.
  destruct (le_lt_dec g0 g') as [L|L]; [exact L|exfalso]. destruct HS' as (A1 & _ & A3). apply A3.
  eapply fits_acceptable; eauto; lia.
Qed.

Lemma compact_same c (t t' : Table Item Val E) cols items rows :
  Printable t cols items rows -> Printable t' cols items rows -> rows <> [] ->
  FitsRecorded c t cols rows -> FitsRecorded c t' cols rows ->
  forall fuel fuel' sep w, 1 <= slen sep -> 0 <= w -> w + slen sep < 65536 ->
  reckoned t cols sep < 65536 -> reckoned t' cols sep < 65536 ->
  let r := MergeRowsHorizontal fuel c t (fun _ => true) items w sep true in
  let r' := MergeRowsHorizontal fuel' c t' (fun _ => true) items w sep true in
  stop r = Finished -> stop r' = Finished ->
  List.length (written r) = List.length (written r')
  /\ ((List.length (written r) < List.length (written (MergeRowsHorizontal fuel c t (fun _ => true) items w sep false)))%nat ->
      (List.length (written r) < List.length (written (MergeRowsHorizontal fuel' c t' (fun _ => true) items w sep false)))%nat ->
      written r = written r').
Proof.
  intros HP HP' Hne HF HF' fuel fuel' sep w Hsep H0 Hw Hlt Hlt' r r' Hr Hr'.
  change (@MergeRowsHorizontal Item Val E) with (@merge Item Val E H) in *.
  destruct (Z.eq_dec (reckoned t cols sep mod 65536) 0) as [Hz|Hz]; [unfold r in Hr; rewrite (merge_divzero HP) in Hr by exact Hz; discriminate|].
  destruct (Z.eq_dec (reckoned t' cols sep mod 65536) 0) as [Hz'|Hz']; [unfold r' in Hr'; rewrite (merge_divzero HP') in Hr' by exact Hz'; discriminate|].
  assert (P : forall t, (forall col, In col cols -> 0 <= Width t (colName col)) -> reckoned t cols sep mod 65536 <> 0 -> 0 < reckoned t cols sep).
  { intros u Hu Hm. assert (0 <= zsum (recorded u cols)).
    { apply zsum_nonneg'. unfold recorded. apply Forall_forall. intros x Hx. apply in_map_iff in Hx. destruct Hx as (col & <- & Hin). auto. }
    assert (0 <= slen cols * slen sep) by (unfold slen; lia). unfold reckoned in *.
    destruct (Z.eq_dec (zsum (recorded u cols) + slen cols * slen sep) 0) as [K|K]; [rewrite K in Hm; exfalso; apply Hm; reflexivity|lia]. }
  pose proof (P t (fits_nonneg _ _ _ _ _ HP Hne HF) Hz) as Hp. pose proof (P t' (fits_nonneg _ _ _ _ _ HP' Hne HF') Hz') as Hp'. clear P.
  destruct (plan_output HP H fuel w sep true Hz Hr) as (g & lines & W & (g0 & Hg0 & HS & HL & HC) & E1).
  destruct (plan_output HP' H fuel' w sep true Hz' Hr') as (g' & lines' & W' & (g0' & Hg0' & HS' & HL' & HC') & E2).
  pose proof (estimate_pos t cols sep w). pose proof (estimate_pos t' cols sep w).
  assert (Hgg : g = g').
  { destruct (le_lt_dec g0' g0) as [L|L].
    - exact (compact_from c t t' cols items rows HP Hne HF sep w g0 g0' g g' Hsep H0 Hw (conj Hp Hlt) Hg0 ltac:(lia) HS HS').
    - symmetry. exact (compact_from c t' t cols items rows HP' Hne HF' sep w g0' g0 g' g Hsep H0 Hw (conj Hp' Hlt') Hg0' ltac:(lia) HS' HS). }
  subst g'. pose proof (proj1 HS) as HS1. pose proof (proj1 HS') as HS1'.
  apply layout_is in HL; [|lia]. apply layout_is in HL'; [|lia]. subst lines lines'.
  unfold r, r'. rewrite E1, E2. cbn [written]. split; [unfold printed; rewrite !map_length; reflexivity|].
  rewrite (merge_plain HP) by exact Hz. rewrite (merge_plain HP') by exact Hz'. rewrite !write_all. cbn [written]. unfold printed. rewrite !map_length, !layout_len.
  assert (Q : g_init (t := t) (cols := cols) sep w = g0 /\ g_init (t := t') (cols := cols) sep w = g0') by (unfold g_init; split; lia).
  destruct Q as [-> ->]. intros Q1 Q2.
  destruct HC as [[-> _]|[_ HC]]; [lia|]. destruct HC' as [[-> _]|[_ HC']]; [lia|].
  apply printed_ext; [lia|]. exact (GroupWidths_unique _ _ _ _ _ _ HC HC').
Qed.

(** ** Histories that add no columns *)
Lemma run_columns ops : forall t : Table Item Val E, columnWidth t <> None ->
  Columns (tSpec (table_run t ops)) = Columns (tSpec t) ++ added ops.
Proof.
  induction ops as [|o ops IH]; intros t Ht; [cbn; rewrite app_nil_r; reflexivity|]. cbn [table_run fold_left].
  destruct o as [l|c item|col]; cbn [table_step].
  - destruct (update_spec l t Ht) as (t' & Eu & Hs & Hm & _). rewrite Eu. cbn [fst]. change (fold_left table_step ops t') with (table_run t' ops).
    rewrite IH by exact Hm. rewrite Hs. reflexivity.
  - destruct (FormatItem c t item) as [t' out] eqn:Ef. destruct (FormatItem_spec c t item t' out Ht Ef) as (pre & vs & _ & Hs & Hm & _). cbn [fst].
    change (fold_left table_step ops t') with (table_run t' ops). rewrite IH by exact Hm. rewrite Hs. reflexivity.
  - match goal with |- context [fold_left table_step ops ?u] => change (fold_left table_step ops u) with (table_run u ops) end.
    rewrite IH by exact Ht. cbn [tSpec added flat_map]. unfold AddColumn. change (flat_map _ ops) with (added ops).
    rewrite (app_assoc (Columns (tSpec t)) [col]). f_equal. destruct col as [cl|]; [destruct (ColumnByName (tSpec t))|]; reflexivity.
Qed.

Lemma later_printable (spec : option (TableSpec Item Val E)) ops ops' cols items rows : Forall uint16_op (ops ++ ops') -> added ops' = [] ->
  Printable (table_run (NewTable spec) ops) cols items rows -> Printable (table_run (NewTable spec) (ops ++ ops')) cols items rows.
Proof.
  intros HU Ha HP. destruct HP as [H1 H2 H3]. split; auto. rewrite run_columns in * by (cbn; congruence).
  rewrite <- H1. unfold added in *. rewrite flat_map_app, Ha, app_nil_r. reflexivity.
Qed.

Lemma later_lines c (spec : option (TableSpec Item Val E)) ops ops' cols items rows : Forall uint16_op (ops ++ ops') -> added ops' = [] ->
  let t := table_run (NewTable spec) ops in let t' := table_run (NewTable spec) (ops ++ ops') in
  Printable t cols items rows -> rows <> [] ->
  forall m fuel fuel' sep w compact, reckoned t' cols sep < 65536 ->
  let r := merge m fuel c t (fun _ => true) items w sep compact in
  let r' := merge m fuel' c t' (fun _ => true) items w sep compact in
  stop r = Finished -> stop r' = Finished -> (List.length (written r) <= List.length (written r'))%nat.
Proof.
  intros HU Ha t t' HP Hne m fuel fuel' sep w b Hhi. apply (wider_columns c t t' cols items rows); auto.
  - apply later_printable; auto.
  - intros col _. apply history_mono. exact HU.
  - apply Forall_app in HU. destruct (run_table_range spec ops (proj1 HU)) as [_ K].
    assert (0 <= zsum (recorded t cols)).
    { apply zsum_nonneg'. unfold recorded. apply Forall_forall. intros x Hx. apply in_map_iff in Hx. destruct Hx as (col & <- & _). apply K. }
    unfold reckoned, slen in *. lia.
Qed.

Lemma later_compact c (spec : option (TableSpec Item Val E)) ops ops' cols items rows : Forall uint16_op (ops ++ ops') -> added ops' = [] ->
  let t := table_run (NewTable spec) ops in let t' := table_run (NewTable spec) (ops ++ ops') in
  Printable t cols items rows -> rows <> [] -> FitsRecorded c t cols rows ->
  forall fuel fuel' sep w, 1 <= slen sep -> 0 <= w -> w + slen sep < 65536 -> reckoned t' cols sep < 65536 ->
  let r := MergeRowsHorizontal fuel c t (fun _ => true) items w sep true in
  let r' := MergeRowsHorizontal fuel' c t' (fun _ => true) items w sep true in
  stop r = Finished -> stop r' = Finished ->
  List.length (written r) = List.length (written r')
  /\ ((List.length (written r) < List.length (written (MergeRowsHorizontal fuel c t (fun _ => true) items w sep false)))%nat ->
      written r = written r').
Proof.
  intros HU Ha t t' HP Hne HF fuel fuel' sep w Hsep H0 Hw Hhi r r' Hr Hr'.
  assert (HP' : Printable t' cols items rows) by (apply later_printable; auto).
  assert (Hmono : forall n, Width t n <= Width t' n) by (intros n; apply history_mono; exact HU).
  assert (HF' : FitsRecorded c t' cols rows).
  { intros row i s col H1 H2 H3. etransitivity; [exact (HF row i s col H1 H2 H3)|apply Hmono]. }
  assert (Hle : reckoned t cols sep <= reckoned t' cols sep).
  { pose proof (zsum_le _ _ (recorded_le t t' cols (fun col _ => Hmono (colName col)))). unfold reckoned. lia. }
  destruct (compact_same c t t' cols items rows HP HP' Hne HF HF' fuel fuel' sep w Hsep H0 Hw ltac:(lia) Hhi Hr Hr') as [A B].
  split; [exact A|]. intros L. apply B; [exact L|]. eapply Nat.lt_le_trans; [exact L|].
  change (@MergeRowsHorizontal Item Val E) with (@merge Item Val E H) in *.
  assert (Fin : forall (u : Table Item Val E) f, Printable u cols items rows -> reckoned u cols sep mod 65536 <> 0 ->
    stop (merge H f c u (fun _ => true) items w sep false) = Finished).
  { intros u f Hu Hz. rewrite (merge_plain Hu) by exact Hz. rewrite write_all. reflexivity. }
  destruct (Z.eq_dec (reckoned t cols sep mod 65536) 0) as [Hz|Hz]; [unfold r in Hr; rewrite (merge_divzero HP) in Hr by exact Hz; discriminate|].
  destruct (Z.eq_dec (reckoned t' cols sep mod 65536) 0) as [Hz'|Hz']; [unfold r' in Hr'; rewrite (merge_divzero HP') in Hr' by exact Hz'; discriminate|].
  apply (later_lines c spec ops ops' cols items rows HU Ha HP Hne); auto.
Qed.
End Types.

(** ** Concrete tables *)
Definition rTable (w : Z) : Table (list str) str str :=
  fst (UpdateWidth (E := str) (NewTable (Some (add_all NewTableSpec [Some exName]))) [(lit "name"%string, w)]).
Definition rRows : list (list str) := repeat [lit "x"%string] 4.
Definition rTable2 (w : Z) : Table (list str) str str :=
  fst (UpdateWidth (E := str) exTable [(lit "name"%string, w); (lit "size"%string, w)]).
Definition rRows2 : list (list str) := repeat [lit "x"%string; lit "y"%string] 6.

(** All cells of [rows] at most [w] wide. *)
Definition fits_b c (w : Z) (rows : list (list str)) : bool := forallb (forallb (fun s => vwidth c s <=? w)) rows.
Lemma fits_b_ok c (t : Table (list str) str str) cols rows w : fits_b c w rows = true ->
  (forall col, In col cols -> w <= Width t (colName col)) -> FitsRecorded c t cols rows.
Proof.
  unfold fits_b. rewrite forallb_forall. intros Hb Hw row i s col Hr Hs Hc. specialize (Hb row Hr). rewrite forallb_forall in Hb.
  specialize (Hb s (nth_error_In _ _ Hs)). specialize (Hw col (nth_error_In _ _ Hc)). lia.
Qed.

Lemma vertical_recorded : exists (t t' : Table (list str) str str) cols rows sep w,
  Printable t cols (listOf rows) rows /\ Printable t' cols (listOf rows) rows
  /\ FitsRecorded exC t cols rows /\ FitsRecorded exC t' cols rows /\ 1 <= slen sep
  /\ map (fun t => let r := MergeRowsVertical 9 exC t (fun _ => true) (listOf rows) w sep true in (List.length (written r), stop r)) [t; t']
     = [(1%nat, Finished); (2%nat, Finished)].
Proof.
  exists (rTable 1), (rTable 4), [exName], rRows, gSep, 7.
  split; [split; [reflexivity|apply listOf_serves|repeat constructor]|]. split; [split; [reflexivity|apply listOf_serves|repeat constructor]|].
  split; [apply (fits_b_ok _ _ _ _ 1); [vm_compute; reflexivity|intros col [<-|[]]; vm_compute; discriminate]|].
  split; [apply (fits_b_ok _ _ _ _ 1); [vm_compute; reflexivity|intros col [<-|[]]; vm_compute; discriminate]|].
  split; [vm_compute; discriminate|]. vm_compute. reflexivity.
Qed.

Lemma empty_separator_recorded : exists (t t' : Table (list str) str str) cols rows w,
  Printable t cols (listOf rows) rows /\ Printable t' cols (listOf rows) rows
  /\ FitsRecorded exC t cols rows /\ FitsRecorded exC t' cols rows
  /\ map (fun t => let r := MergeRowsHorizontal 9 exC t (fun _ => true) (listOf rows) w [] true in (List.length (written r), stop r)) [t; t']
     = [(2%nat, Finished); (3%nat, Finished)].
Proof.
  exists (rTable2 1), (rTable2 2), mCols, rRows2, 7.
  split; [split; [reflexivity|apply listOf_serves|repeat constructor]|]. split; [split; [reflexivity|apply listOf_serves|repeat constructor]|].
  split; [apply (fits_b_ok _ _ _ _ 1); [vm_compute; reflexivity|intros col [<-|[<-|[]]]; vm_compute; discriminate]|].
  split; [apply (fits_b_ok _ _ _ _ 1); [vm_compute; reflexivity|intros col [<-|[<-|[]]]; vm_compute; discriminate]|].
  vm_compute. reflexivity.
Qed.

(** Past 16 bits: a column recorded wider gives fewer lines. *)
Lemma recorded_wraps : exists (t t' : Table (list str) str str) cols rows w sep,
  Printable t cols (listOf rows) rows /\ Printable t' cols (listOf rows) rows
  /\ (forall col, In col cols -> 0 <= Width t (colName col) <= Width t' (colName col) /\ Width t' (colName col) < 65536)
  /\ map (fun t => let r := MergeRowsHorizontal 1 exC t (fun _ => true) (listOf rows) w sep false in (List.length (written r), stop r)) [t; t']
     = [(4%nat, Finished); (1%nat, Finished)].
Proof.
  exists (rTable 9), (rTable 65535), [exName], rRows, 12, mSep.
  split; [split; [reflexivity|apply listOf_serves|repeat constructor]|]. split; [split; [reflexivity|apply listOf_serves|repeat constructor]|].
  split; [intros col [<-|[]]; vm_compute; split; [split|]; discriminate || reflexivity|].
  vm_compute. reflexivity.
Qed.

Lemma recorded_example :
  let ops := [OpUpdate [(lit "name"%string, 6); (lit "size"%string, 2)]] in
  let ops' := [OpFormat exC [lit "a name to widen"%string; lit "1"%string]] in
  let t := table_run exTable ops in let t' := table_run exTable (ops ++ ops') in
  let run b t := MergeRowsHorizontal 20 exC t (fun _ => true) (listOf mRows) 30 mSep b in
  Forall uint16_op (ops ++ ops') /\ added ops' = [] /\ Printable t mCols (listOf mRows) mRows /\ FitsRecorded exC t mCols mRows
  /\ map (fun u => (List.length (written (run false u)), stop (run false u))) [t; t'] = [(3%nat, Finished); (5%nat, Finished)]
  /\ map (fun u => (List.length (written (run true u)), stop (run true u))) [t; t'] = [(2%nat, Finished); (2%nat, Finished)]
  /\ written (run true t) = written (run true t').
Proof.
  cbv zeta. split; [repeat constructor; cbn; lia|]. split; [reflexivity|]. split; [split; [reflexivity|apply listOf_serves|repeat constructor]|].
  split; [|split; [vm_compute; reflexivity|split; vm_compute; reflexivity]].
  intros row i s col Hr Hs Hc. destruct i as [|[|i]]; [injection Hc as <-|injection Hc as <-|destruct i; discriminate].
  - change (Width _ _) with 6. cbn [mRows In] in Hr.
    repeat (destruct Hr as [<-|Hr]; [injection Hs as <-; vm_compute; discriminate|]). contradiction.
  - change (Width _ _) with 2. cbn [mRows In] in Hr.
    repeat (destruct Hr as [<-|Hr]; [injection Hs as <-; vm_compute; discriminate|]). contradiction.
Qed.
