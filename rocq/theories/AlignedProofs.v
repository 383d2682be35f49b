(** * AlignedProofs: rows aligned before they are merged. *)
From Verif Require Import GoBase Runewidth ConditionSpec Width TextSpec AlignSpec Table Merge TableContract AlignProofs TableOpsProofs MergeSpec MergeLayout MergeSearch MergePlan
  MergeTheory ReadProofs MergeRecorded GrowSpec GrowProofs StreamSpec StreamProofs AlignedSpec.
From Coq Require Import ZifyBool ZifyNat.
Local Open Scope Z_scope.

Section Types.
Context {Item Val E : Type}.
Notation Table := (Table Item Val E).
Notation Column := (Column Item Val E).

(** What aligning does to one row. *)
Lemma aligned_row (t : Table) cols row row' : Columns (tSpec t) = map Some cols ->
  snd (AlignFormattedItem t row) = Ok row' -> List.length row = List.length cols /\ List.length row' = List.length cols /\
  forall i col s, nth_error cols i = Some col -> nth_error row i = Some s ->
    nth_error row' i = Some (match colAlignment col with None => s | Some al => al s (Width t (colName col)) end).
Proof.
  intros HC H1.
  assert (HL : List.length row = List.length (Columns (tSpec t))).
  { destruct (Nat.eq_dec (List.length row) (List.length (Columns (tSpec t)))) as [L|L]; [exact L|].
    rewrite Align_bad_length in H1 by exact L. discriminate. }
  assert (Hn : ~ In None (Columns (tSpec t))).
  { rewrite HC. intros K. apply in_map_iff in K. destruct K as (x & K & _). discriminate. }
  destruct (Align_good t row HL Hn) as (cells & E1 & L1 & N1). rewrite E1 in H1. cbn [snd] in H1. injection H1 as <-.
  rewrite HC, map_length in HL. split; [exact HL|]. split; [lia|]. intros i col s Hi Hs. apply N1; [|exact Hs].
  rewrite HC, MergeLayout.nth_map, Hi. reflexivity.
Qed.

Lemma cells_aligned c (t : Table) : Reachable c -> (forall n, 0 <= Width t n < 65536) -> forall cols row row',
  (forall col al, In col cols -> colAlignment col = Some al -> exists a, al = align a c) ->
  (forall i s col a, nth_error row i = Some s -> nth_error cols i = Some col -> colAlignment col = Some (align a c) -> Paddable a s) ->
  List.length row = List.length cols -> List.length row' = List.length cols ->
  (forall i col s, nth_error cols i = Some col -> nth_error row i = Some s ->
    nth_error row' i = Some (match colAlignment col with None => s | Some al => al s (Width t (colName col)) end)) ->
  MergeSpec.cells c cols (recorded t cols) row' = MergeSpec.cells c cols (recorded t cols) row.
Proof.
  intros Hc Hw. induction cols as [|col cols IH]; intros row row' HB HPd L L' N; [reflexivity|].
  destruct row as [|s row]; [discriminate|]. destruct row' as [|s' row']; [discriminate|].
  cbn [MergeSpec.cells recorded map]. f_equal.
  - specialize (N O col s eq_refl eq_refl). cbn in N. injection N as ->. unfold alignment_of.
    destruct (colAlignment col) as [al|] eqn:Ea; [|reflexivity].
    destruct (HB col al (or_introl eq_refl) Ea) as (a & ->). apply align_idempotent; auto.
    apply (HPd O s col a); auto.
  - apply IH; [intros x al K; apply HB; right; exact K| |cbn in L; congruence|cbn in L'; congruence|].
    + intros i x cl a K1 K2. exact (HPd (S i) x cl a K1 K2).
    + intros i cl x K1 K2. exact (N (S i) cl x K1 K2).
Qed.

Definition done (t : Table) (row : list str) : list str :=
  match snd (AlignFormattedItem t row) with Ok r => r | _ => row end.

Lemma aligned_map (t : Table) rows rows' : Aligned t rows rows' -> rows' = map (done t) rows.
Proof. induction 1 as [|row row' rows rows' K _ IH]; [reflexivity|]. cbn [map]. unfold done at 1. rewrite K. congruence. Qed.

Lemma built_cols c (t : Table) cols : Columns (tSpec t) = map Some cols -> BuiltInAll c (Columns (tSpec t)) ->
  forall col al, In col cols -> colAlignment col = Some al -> exists a, al = align a c.
Proof. intros HC HB col al Hin. apply HB. rewrite HC. apply in_map. exact Hin. Qed.

Lemma blocks_map c cols W (f : list str -> list str) (line : list (list str)) : forall k,
  (forall row, In row line -> forall k, block (E := E) (Item := Item) (Val := Val) c cols (W k) (f row) = block c cols (W k) row) ->
  blocks_from c cols W k (map f line) = blocks_from c cols W k line.
Proof.
  induction line as [|row line IH]; intros k HB; [reflexivity|]. cbn [map blocks_from].
  rewrite HB by (left; reflexivity). f_equal. apply IH. intros r Hr. apply HB. right. exact Hr.
Qed.

Lemma aligned_plain c (t : Table) cols items items' rows rows' : Reachable c -> (forall n, 0 <= Width t n < 65536) ->
  BuiltInAll c (Columns (tSpec t)) -> Printable t cols items rows -> Printable t cols items' rows' ->
  PaddableCells c cols rows -> Aligned t rows rows' -> forall m fuel ok maxWidth sep,
  merge m fuel c t ok items' maxWidth sep false = merge m fuel c t ok items maxWidth sep false.
Proof.
  intros Hc Hw HB HP HP' HPd HA m fuel ok maxWidth sep.
  destruct (Z.eq_dec (reckoned t cols sep mod 65536) 0) as [Hz|Hz]; [rewrite (merge_divzero HP'), (merge_divzero HP) by exact Hz; reflexivity|].
  rewrite (merge_plain HP), (merge_plain HP') by exact Hz. f_equal.
  set (g := g_init sep maxWidth). assert (Hg : (1 <= g)%nat) by apply g_init_pos.
  pose proof (layout_ok m g rows Hg) as HL. pose proof (layout_map (done t) m g rows _ Hg HL) as HL'.
  rewrite <- (aligned_map t rows rows' HA) in HL'. rewrite <- (layout_is m g rows' _ Hg HL'). rewrite map_map.
  apply map_ext_in. intros line Hline. unfold line_text, blocks. rewrite map_length. do 2 f_equal.
  apply blocks_map. intros row Hrow _. unfold block. f_equal.
  assert (Hin : In row rows) by (eapply layout_in; eauto).
  assert (HAr : snd (AlignFormattedItem t row) = Ok (done t row)).
  { clear - HA Hin. induction HA as [|r r' rs rs' K _ IH]; [destruct Hin|]. destruct Hin as [->|Hin]; [unfold done; rewrite K; reflexivity|auto]. }
  destruct (aligned_row t cols row _ (pr_columns _ _ _ _ HP) HAr) as (L1 & L2 & N).
  apply cells_aligned; auto.
  - apply built_cols with (t := t); auto. exact (pr_columns _ _ _ _ HP).
  - intros i s col a. apply HPd. exact Hin.
Qed.

(** Aligned cells are exactly as wide as recorded. *)
Lemma aligned_exact c (t : Table) cols rows rows' : Reachable c -> (forall n, 0 <= Width t n < 65536) ->
  BuiltInAll c (Columns (tSpec t)) -> Columns (tSpec t) = map Some cols -> (forall col, In col cols -> colAlignment col <> None) ->
  PaddableCells c cols rows -> FitsRecorded c t cols rows -> Aligned t rows rows' -> Exact c t cols rows'.
Proof.
  intros Hc Hw HB HC Hal HPd HF HA row' i s' col Hin' Hs' Hi.
  assert (K : exists row, In row rows /\ snd (AlignFormattedItem t row) = Ok row').
  { clear - HA Hin'. induction HA as [|r r' rs rs' K _ IH]; [destruct Hin'|]. destruct Hin' as [->|Hin]; [exists r; split; [left; reflexivity|exact K]|].
    destruct (IH Hin) as (row & A & B). exists row. split; [right; exact A|exact B]. }
  destruct K as (row & Hin & HAr). destruct (aligned_row t cols row row' HC HAr) as (L1 & L2 & N).
  destruct (nth_same _ row i _ (eq_sym L1) Hi) as (s & Hs). rewrite (N i col s Hi Hs) in Hs'. injection Hs' as <-.
  destruct (colAlignment col) as [al|] eqn:Ea; [|exfalso; eapply Hal; eauto; eapply nth_error_In; eauto].
  destruct (built_cols c t cols HC HB col al (nth_error_In _ _ Hi) Ea) as (a & ->).
  rewrite align_vwidth; auto; [|eapply HPd; eauto]. pose proof (HF row i s col Hin Hs Hi). lia.
Qed.

Lemma aligned_wider c (t : Table) cols rows rows' : Reachable c -> (forall n, 0 <= Width t n < 65536) ->
  BuiltInAll c (Columns (tSpec t)) -> Columns (tSpec t) = map Some cols ->
  PaddableCells c cols rows -> Aligned t rows rows' -> Wider c cols rows rows' /\ List.length rows = List.length rows'.
Proof.
  intros Hc Hw HB HC HPd HA. assert (HL : List.length rows = List.length rows') by (exact (CacheProofs.Forall2_len _ _ _ HA)).
  split; [|exact HL]. split; [lia|]. intros j i s s' Hi H1 H2. unfold get2 in H1, H2.
  destruct (nth_error rows j) as [row|] eqn:E1; [|discriminate]. destruct (nth_error rows' j) as [row'|] eqn:E2; [|discriminate].
  assert (HAr : snd (AlignFormattedItem t row) = Ok row').
  { clear - HA E1 E2. revert j E1 E2. induction HA as [|r l rs ls K HA IH]; intros [|j] K1 K2; try discriminate; cbn in K1, K2; [congruence|eauto]. }
  destruct (aligned_row t cols row row' HC HAr) as (L1 & L2 & N).
  destruct (nth_error cols i) as [col|] eqn:Ec; [|apply nth_error_None in Ec; lia].
  rewrite (N i col s Ec H1) in H2. injection H2 as <-. destruct (colAlignment col) as [al|] eqn:Ea; [|lia].
  destruct (built_cols c t cols HC HB col al (nth_error_In _ _ Ec) Ea) as (a & ->).
  rewrite align_vwidth; auto; [lia|]. eapply HPd; eauto. eapply nth_error_In; eauto.
Qed.

Lemma aligned_lines m c (t : Table) cols items items' rows rows' : Reachable c -> (forall n, 0 <= Width t n < 65536) ->
  BuiltInAll c (Columns (tSpec t)) -> Printable t cols items rows -> Printable t cols items' rows' -> rows <> [] ->
  PaddableCells c cols rows -> Aligned t rows rows' ->
  forall fuel fuel' sep w, Narrow c cols sep m rows' ->
  let r := merge m fuel c t (fun _ => true) items w sep true in
  let r' := merge m fuel' c t (fun _ => true) items' w sep true in
  stop r = Finished -> stop r' = Finished -> (List.length (written r) <= List.length (written r'))%nat.
Proof.
  intros Hc Hw HB HP HP' Hne HPd HA fuel fuel' sep w HN.
  destruct (aligned_wider c t cols rows rows' Hc Hw HB (pr_columns _ _ _ _ HP) HPd HA) as [HW HL].
  refine (grow m c t cols items items' rows rows' HP HP' Hne _ fuel fuel' sep w true HN).
  destruct m; [exists [], rows'; split; [reflexivity|exact HW]|split; [exact HL|exact HW]].
Qed.

(** Compaction has only the number of groups to choose. *)
Lemma exact_group c (t : Table) cols rows m g lines W : (1 <= g)%nat -> Exact c t cols rows -> Layout m g rows lines ->
  Forall (fun row => (List.length cols <= List.length row)%nat) rows ->
  GroupWidths c cols lines g W -> forall line k, In line lines -> (k < List.length line)%nat -> (k < g)%nat -> W k = recorded t cols.
Proof.
  intros Hg HE HL Hlong HW line k Hline Hk Hkg. destruct (HW k Hkg) as [HWl HWm].
  assert (Hrow : exists row, nth_error line k = Some row).
  { destruct (nth_error line k) eqn:Q; [eauto|apply nth_error_None in Q; lia]. }
  destruct Hrow as (row & Hrow). assert (Hin : In row rows) by (eapply layout_in; eauto; eapply nth_error_In; eauto).
  apply nth_ext'; [unfold recorded; rewrite map_length; exact HWl|]. intros i x y Hx Hy.
  unfold recorded in Hy. rewrite MergeLayout.nth_map in Hy. destruct (nth_error cols i) as [col|] eqn:Ec; [|discriminate]. cbn in Hy. injection Hy as <-.
  rewrite Forall_forall in Hlong. specialize (Hlong row Hin).
  assert (Hs : exists s, nth_error row i = Some s).
  { destruct (nth_error row i) eqn:Q; [eauto|]. apply nth_error_None in Q. assert (i < List.length cols)%nat by (apply nth_error_Some; congruence). lia. }
  destruct Hs as (s & Hs). pose proof (HE row i s col Hin Hs Ec) as K. destruct (HWm i x Hx) as [A B].
  assert (Hle : Width t (colName col) <= x).
  { apply B. right. exists line, row, s. auto. }
  pose proof (vwidth_range c s). destruct A as [->|(line2 & row2 & s2 & A1 & A2 & A3 & ->)]; [lia|].
  apply (HE row2 i s2 col); auto. eapply layout_in; eauto. eapply nth_error_In; eauto.
Qed.

Lemma exact_text m c (t : Table) cols items rows : Printable t cols items rows -> Exact c t cols rows ->
  forall fuel maxWidth sep, stop (merge m fuel c t (fun _ => true) items maxWidth sep true) = Finished ->
  exists g lines, estimate t cols sep maxWidth <= Z.of_nat g /\ Layout m g rows lines
    /\ written (merge m fuel c t (fun _ => true) items maxWidth sep true) = printed c cols sep (fun _ => recorded t cols) g lines.
Proof.
  intros HP HE fuel maxWidth sep Hst.
  destruct (Z.eq_dec (reckoned t cols sep mod 65536) 0) as [Hz|Hz]; [rewrite (merge_divzero HP) in Hst by exact Hz; discriminate|].
  destruct (plan_output HP m fuel maxWidth sep true Hz Hst) as (g & lines & W & (g0 & Hg0 & HS & HL & HC) & E1).
  pose proof (estimate_pos t cols sep maxWidth) as Hp. pose proof (proj1 HS) as Hle.
  exists g, lines. split; [lia|]. split; [exact HL|]. rewrite E1. cbn [written].
  destruct HC as [[-> ->]|[Hlt HW]]; [reflexivity|]. unfold printed. apply map_ext_in. intros line Hline.
  unfold line_text, blocks. do 3 f_equal.
  apply (blocks_ext c cols W (fun _ => recorded t cols) (List.length line)); [|lia]. intros k Hk.
  apply (exact_group c t cols rows m g lines W ltac:(lia) HE HL (pr_long _ _ _ _ HP) HW line k Hline Hk).
  pose proof HL as HL2. apply layout_is in HL2; [|lia]. subst lines. pose proof (layout_line_len m g rows line Hline). lia.
Qed.

(** With a separator of one byte, or one column, the estimate leaves no room. *)
Lemma exact_room (t : Table) cols sep g : slen sep = 1 \/ slen cols = 1 ->
  total sep cols (fun _ => recorded t cols) g = Z.of_nat g * reckoned t cols sep - slen sep.
Proof.
  intros Ho. unfold total, reckoned.
  assert (Hsum : forall l : list nat, zsum (map (fun _ => zsum (recorded t cols)) l) = Z.of_nat (List.length l) * zsum (recorded t cols)).
  { induction l as [|a l IH]; [reflexivity|]. cbn [map List.length].
    change (zsum (recorded t cols) + zsum (map (fun _ : nat => zsum (recorded t cols)) l) = Z.of_nat (S (List.length l)) * zsum (recorded t cols)). rewrite IH. lia. }
  rewrite Hsum, seq_length. destruct Ho as [K|K]; rewrite K; lia.
Qed.

Lemma exact_same m c (t : Table) cols items rows : Printable t cols items rows -> Exact c t cols rows ->
  forall maxWidth sep, slen sep = 1 \/ slen cols = 1 -> 0 <= maxWidth -> 0 < reckoned t cols sep ->
  maxWidth + slen sep + 2 * reckoned t cols sep < 65536 -> estimate t cols sep maxWidth < slen rows ->
  forall fuel ok, (1 <= fuel)%nat ->
  merge m fuel c t ok items maxWidth sep true = merge m fuel c t ok items maxWidth sep false.
Proof.
  intros HP HE maxWidth sep Ho H0 Hr Hw Hn fuel ok Hf.
  assert (Hz : reckoned t cols sep mod 65536 <> 0) by (rewrite Z.mod_small by (unfold slen in *; lia); lia).
  rewrite (merge_plain HP) by exact Hz. pose proof (estimate_pos t cols sep maxWidth) as Hp.
  assert (Hg0 : Z.of_nat (g_init (t := t) (cols := cols) sep maxWidth) = estimate t cols sep maxWidth) by (unfold g_init; lia).
  set (g0 := g_init (t := t) (cols := cols) sep maxWidth) in *.
  assert (Hno : acceptable_b c cols sep maxWidth m rows (S g0) = false).
  { destruct (acceptable_b c cols sep maxWidth m rows (S g0)) eqn:Q; [|reflexivity]. exfalso.
    apply acceptable_spec in Q; [|lia]. destruct Q as [HWo (w & (lines & W & HL & HW & ->) & Hle)].
    assert (HWk : forall k, (k < S g0)%nat -> W k = recorded t cols).
    { intros k Hk. assert (Hfull : exists line, In line lines /\ (k < List.length line)%nat).
      { destruct m.
        - destruct HL as [[_ [HL1 [HL2 HL3]]]|[Hnil _]]; [|rewrite Hnil in Hn; unfold slen in Hn; cbn in Hn; lia].
          destruct lines as [|l1 ls]; [cbn in HL1; rewrite <- HL1 in Hn; unfold slen in Hn; cbn in Hn; lia|].
          exists l1. split; [left; reflexivity|]. destruct ls as [|l2 ls].
          + cbn in HL1. rewrite app_nil_r in HL1. subst l1. unfold slen in Hn. lia.
          + rewrite (HL3 [] l1 l2 ls eq_refl). lia.
        - destruct (HWo lines HL) as (line & A & B). exists line. split; [exact A|lia]. }
      destruct Hfull as (line & A & B). exact (exact_group c t cols rows m (S g0) lines W ltac:(lia) HE HL (pr_long _ _ _ _ HP) HW line k A B Hk). }
    rewrite (total_ext sep cols W (fun _ => recorded t cols) (S g0) HWk) in Hle.
    rewrite exact_room in Hle by exact Ho.
    assert (Heff : effective maxWidth = maxWidth).
    { unfold effective. destruct (Z.gtb_spec maxWidth 65535); [unfold slen in *; lia|]. apply Z.mod_small. unfold slen in *. lia. }
    rewrite Heff in Hle. unfold estimate in Hg0. rewrite Heff, !Z.mod_small in Hg0 by (unfold slen in *; lia).
    pose proof (Z.mul_succ_div_gt (maxWidth + slen sep) (reckoned t cols sep) Hr) as G1.
    pose proof (Z.mul_div_le (maxWidth + slen sep) (reckoned t cols sep) Hr) as G2.
    set (q := (maxWidth + slen sep) / reckoned t cols sep) in *.
    assert (Hq : Z.of_nat (S g0) = Z.max 1 q + 1) by lia. rewrite Hq in Hle.
    assert (Hq0 : 0 <= q) by (apply Z.div_pos; unfold slen in *; lia).
    destruct (Z.max_spec 1 q) as [[_ Hm]|[Hm1 Hm]]; rewrite Hm in Hle.
    - replace (Z.succ q) with (q + 1) in G1 by lia. rewrite Z.mul_comm in G1. rewrite (Z.mul_comm _ q) in G2.
      rewrite Z.mod_small in Hle by (unfold slen in *; lia). lia.
    - assert (reckoned t cols sep * Z.succ q <= reckoned t cols sep * 2) by (apply Z.mul_le_mono_nonneg_l; lia).
      rewrite Z.mod_small in Hle by (unfold slen in *; lia). lia. }
  destruct (merge_compact (c := c) HP m fuel ok maxWidth sep Hz) as [[_ K]|(g & Hg & K & _ & E1)].
  - fold g0 in K. rewrite (K (S g0)) in Hno by lia. discriminate.
  - fold g0 in Hg, K, E1. destruct (Nat.eq_dec g g0) as [->|Hne]; [|rewrite (K (S g0)) in Hno by lia; discriminate].
    rewrite E1, Nat.eqb_refl. reflexivity.
Qed.
End Types.
