(** * PipelineProofs: formatting, aligning and measuring a whole table. *)
From Coq Require Import Strings.String.
From Verif Require Import GoBase Utf8 Uniseg Runewidth ConditionSpec Width TextSpec AlignSpec WidthProofs WidthTheory Table AlignProofs
  TableContract TableOpsProofs TableExamples TableTheory Merge MergeSpec MergeWidths PipelineSpec.
From Coq Require Import ZifyBool ZifyNat.
Local Open Scope Z_scope.

Section Types.
Context {Item Val E : Type}.

Lemma formats_recorded c (spec : option (TableSpec Item Val E)) ops items t' rows cols :
  Forall uint16_op ops -> Formats c (table_run (NewTable spec) ops) items t' rows -> Columns (tSpec t') = map Some cols ->
  (forall n, 0 <= Width t' n < 65536) /\ Forall (fun row => List.length row = List.length cols) rows
  /\ FitsRecorded c t' cols rows.
Proof.
  intros HU HF HC. destruct (run_table_range spec ops HU) as [H1 H2].
  destruct (Formats_spec c _ items t' rows H1 HF) as (_ & Es & _ & _ & HA).
  split; [exact (Formats_range c _ items t' rows H1 HF H2)|]. rewrite <- Es, HC in HA. rewrite Forall_forall in HA.
  split.
  - apply Forall_forall. intros row Hrow. destruct (HA row Hrow) as (L & _). rewrite L, map_length. reflexivity.
  - intros row i s col Hrow Hs Hcol. destruct (HA row Hrow) as (_ & _ & K). apply K.
    exists i, col, s. rewrite nth_error_map, Hcol. auto.
Qed.

(** ** AlignFormattedItem as a map *)
Fixpoint aligned (t : Table Item Val E) (cols : list (Column Item Val E)) (row : list str) : list str :=
  match cols, row with
  | col :: cols, s :: row => match colAlignment col with None => s | Some al => al s (Width t (colName col)) end :: aligned t cols row
  | _, _ => row
  end.

Lemma align_loop_aligned (t : Table Item Val E) cols row done : List.length row = List.length cols ->
  alignFormatted_loop t (map Some cols) done row = (done ++ aligned t cols row, Ok (done ++ aligned t cols row)).
Proof.
  revert row done. induction cols as [|col cols IH]; intros [|s row] done L; try discriminate.
  - cbn. reflexivity.
  - cbn [map alignFormatted_loop aligned]. injection L as L. destruct (colAlignment col); rewrite IH by auto; rewrite <- app_assoc; reflexivity.
Qed.

Lemma align_aligned (t : Table Item Val E) cols row : Columns (tSpec t) = map Some cols -> List.length row = List.length cols ->
  AlignFormattedItem t row = (aligned t cols row, Ok (aligned t cols row)).
Proof.
  intros HC L. unfold AlignFormattedItem, ColumnCount, slen. rewrite HC, map_length, L, Z.eqb_refl. cbn [negb].
  apply align_loop_aligned. auto.
Qed.

(** ** Widths of rows *)
Lemma aligned_cells c (t : Table Item Val E) cols row : AllBuiltIn c cols -> List.length row = List.length cols ->
  aligned t cols row = cells c cols (recorded t cols) row.
Proof.
  intros HB. revert row. induction HB as [|col cols (a & Ha) HB IH]; intros [|s row] L; try discriminate; [reflexivity|].
  cbn [aligned recorded map cells]. unfold alignment_of. rewrite Ha. f_equal. apply IH. injection L as L. auto.
Qed.

Lemma builtin_weaken c (cols : list (Column Item Val E)) : AllBuiltIn c cols -> Forall (BuiltIn c) cols.
Proof. intros HB. eapply Forall_impl; [|exact HB]. intros col Ha. right. exact Ha. Qed.

Lemma cells_fit c (t : Table Item Val E) cols rows row : FitsRecorded c t cols rows -> IsolatedCells cols rows -> In row rows ->
  CellsFit c (recorded t cols) row.
Proof.
  intros HF HI Hrow i s w Hs Hw. unfold recorded in Hw. rewrite nth_error_map in Hw.
  destruct (nth_error cols i) as [col|] eqn:Hcol; [|discriminate]. injection Hw as <-. split.
  - eapply HF; eauto.
  - eapply HI; eauto. apply nth_error_Some. congruence.
Qed.

Lemma separates_width c sep : Reachable c -> Separates sep -> vwidth c sep = StringWidth c sep mod 65536.
Proof.
  intros Hc Hs. unfold vwidth, u16. change sep with ([] ++ sep) at 1. rewrite rawWidth_separates_end; auto.
  intros (pre & r & K & _). destruct pre; discriminate.
Qed.

Lemma row_text_width c (t : Table Item Val E) cols rows row sep : Reachable c -> Separates sep -> cols <> [] ->
  AllBuiltIn c cols -> (forall n, 0 <= Width t n < 65536) -> FitsRecorded c t cols rows -> IsolatedCells cols rows ->
  In row rows -> List.length row = List.length cols ->
  vwidth c (TableContract.join sep (aligned t cols row)) =
  (zsum (recorded t cols) + (slen cols - 1) * StringWidth c sep) mod 65536.
Proof.
  intros Hc Hs Hne HB Hr HF HI Hrow L. rewrite (aligned_cells c) by auto.
  destruct (cells_width c cols (recorded t cols) row Hc (builtin_weaken c cols HB)) as (J1 & J2 & J3).
  - apply map_length.
  - lia.
  - apply Forall_forall. intros w Hw. apply in_map_iff in Hw. destruct Hw as (col & <- & _). auto.
  - eapply cells_fit; eauto.
  - destruct (join_width c sep _ Hc Hs J1) as [K _].
    { intros E0. rewrite E0 in J2. destruct cols; [congruence|discriminate]. }
    unfold vwidth, u16. rewrite K. unfold slen. rewrite J2. rewrite Z.add_mod, J3, <- Z.add_mod by lia. reflexivity.
Qed.

Lemma table_width_row c (spec : option (TableSpec Item Val E)) ops items t' rows cols sep : Reachable c -> Forall uint16_op ops ->
  Formats c (table_run (NewTable spec) ops) items t' rows -> Columns (tSpec t') = map Some cols -> cols <> [] ->
  AllBuiltIn c cols -> IsolatedCells cols rows -> Separates sep ->
  forall row, In row rows -> exists cells, AlignFormattedItem t' row = (cells, Ok cells)
    /\ TableWidth t' (vwidth c sep) = Ok (vwidth c (TableContract.join sep cells)) :> outcome E Z.
Proof.
  intros Hc HU HF HC Hne HB HI Hs row Hrow.
  destruct (formats_recorded c spec ops items t' rows cols HU HF HC) as (H1 & H2 & H3). rewrite Forall_forall in H2.
  exists (aligned t' cols row). split; [apply align_aligned; auto|].
  rewrite (row_text_width c t' cols rows row sep) by auto. rewrite (TableWidth_spec t' _ cols HC). f_equal.
  rewrite separates_width by auto. unfold recorded.
  rewrite Z.add_mod, Zmult_mod_idemp_r, <- Z.add_mod by lia. reflexivity.
Qed.

(** ** Header cells begin where the cells below them begin *)
Lemma before_width c sep cells i : Reachable c -> Separates sep -> Forall Isolated cells ->
  vwidth c (before sep cells i) =
  (zsum (map (rawWidth c) (firstn i cells)) + slen (firstn i cells) * StringWidth c sep) mod 65536.
Proof.
  intros Hc Hs HI. unfold before, vwidth, u16. rewrite concat_width; auto.
  apply Forall_forall. intros x Hx. rewrite Forall_forall in HI. apply HI. rewrite <- (firstn_skipn i cells). apply in_or_app. auto.
Qed.

Lemma header_isolated c (t : Table Item Val E) cols col : (forall n, 0 <= Width t n < 65536) ->
  PlainTitles c cols -> In col cols -> Isolated (padColumnHeader c t col).
Proof.
  intros Hr HP Hin. unfold padColumnHeader. destruct (_ =? 0).
  - apply (HP col (colTitle col)); auto.
  - assert (HA : forall s, Isolated s -> Isolated (AlignmentCenter c s (Width t (colName col)))).
    { intros s [K1 K2]. exact (align_isolated ACenter c s _ (Hr _) K1 K2). }
    destruct (_ >? _); [|apply HA, (HP col (colTitle col)); auto].
    destruct (_ >? _); [apply HA, isolated_nil|apply HA, (HP col (colShortTitle col)); auto].
Qed.

Lemma header_raw c (t : Table Item Val E) cols col : Reachable c -> (forall n, 0 <= Width t n < 65536) ->
  PlainTitles c cols -> In col cols -> 0 < Width t (colName col) ->
  rawWidth c (padColumnHeader c t col) mod 65536 = Width t (colName col).
Proof.
  intros Hc Hr HP Hin Hw. apply (header_width c t col Hc).
  - split; [auto|apply Hr].
  - intros s Hs. destruct (HP col s Hin Hs) as (K1 & [K2 K3] & K4). auto.
Qed.

Lemma mod_sum_firstn (f g : list Z) i : Forall2 (fun x y => x mod 65536 = y mod 65536) f g ->
  zsum (firstn i f) mod 65536 = zsum (firstn i g) mod 65536.
Proof.
  intros HF. revert i. induction HF as [|x y f g Hxy HF IH]; intros [|i]; try reflexivity. cbn [firstn].
  change ((x + zsum (firstn i f)) mod 65536 = (y + zsum (firstn i g)) mod 65536).
  rewrite Z.add_mod, Hxy, IH, <- Z.add_mod by lia. reflexivity.
Qed.

Lemma cells_raw c (cols : list (Column Item Val E)) ws row : Reachable c -> Forall (BuiltIn c) cols ->
  List.length ws = List.length cols -> (List.length cols <= List.length row)%nat ->
  Forall (fun w => 0 <= w < 65536) ws -> CellsFit c ws row ->
  Forall2 (fun x y => x mod 65536 = y mod 65536) (map (rawWidth c) (cells c cols ws row)) ws.
Proof.
  intros Hc HB. revert ws row. induction HB as [|col cols Hb HB IH]; intros [|w ws] row Hl Hr Hw HF; try discriminate; [constructor|].
  destruct row as [|s row]; [cbn in Hr; lia|]. inversion Hw; subst. cbn [cells map]. constructor.
  - destruct (HF 0%nat s w eq_refl eq_refl) as [K1 K2].
    destruct (aligned_cell c col s w Hc Hb ltac:(auto) K1 K2) as [-> _]. rewrite Z.mod_small by auto. reflexivity.
  - apply IH; auto.
    + cbn in Hr. lia.
    + intros i s' w' Hs' Hw'. exact (HF (S i) s' w' Hs' Hw').
Qed.

Lemma header_above c (spec : option (TableSpec Item Val E)) ops items t' rows cols sep : Reachable c -> Forall uint16_op ops ->
  Formats c (table_run (NewTable spec) ops) items t' rows -> Columns (tSpec t') = map Some cols ->
  AllBuiltIn c cols -> IsolatedCells cols rows -> Separates sep ->
  PlainTitles c cols -> (forall col, In col cols -> 0 < Width t' (colName col)) ->
  exists heads, FormatHeader c t' sep = Ok (before sep heads (List.length cols) ++ [x0a]) :> outcome E str
    /\ List.length heads = List.length cols
    /\ forall row, In row rows -> exists cells, AlignFormattedItem t' row = (cells, Ok cells)
       /\ forall i, (i <= List.length cols)%nat -> vwidth c (before sep heads i) = vwidth c (before sep cells i).
Proof.
  intros Hc HU HF HC HB HI Hs HP Hpos.
  destruct (formats_recorded c spec ops items t' rows cols HU HF HC) as (H1 & H2 & H3). rewrite Forall_forall in H2.
  exists (map (padColumnHeader c t') cols). split; [|split].
  - rewrite (header_line c t' sep cols HC). unfold before. rewrite firstn_all2 by (rewrite map_length; auto). rewrite map_map. reflexivity.
  - apply map_length.
  - intros row Hrow. exists (aligned t' cols row). split; [apply align_aligned; auto|]. intros i Hi.
    rewrite (aligned_cells c) by auto.
    assert (HW : Forall (fun w => 0 <= w < 65536) (recorded t' cols)).
    { apply Forall_forall. intros w Hw. apply in_map_iff in Hw. destruct Hw as (col & <- & _). auto. }
    assert (HCF : CellsFit c (recorded t' cols) row) by (eapply cells_fit; eauto).
    assert (Hlen : (List.length cols <= List.length row)%nat) by (rewrite H2; auto).
    destruct (cells_width c cols (recorded t' cols) row Hc (builtin_weaken c cols HB) (map_length _ _) Hlen HW HCF) as (J1 & J2 & _).
    rewrite !before_width; auto.
    + rewrite <- !firstn_map. unfold slen. rewrite !firstn_length, J2, map_length.
      assert (EQ : zsum (firstn i (map (rawWidth c) (map (padColumnHeader c t') cols))) mod 65536
                 = zsum (firstn i (map (rawWidth c) (cells c cols (recorded t' cols) row))) mod 65536).
      { transitivity (zsum (firstn i (recorded t' cols)) mod 65536).
        - apply mod_sum_firstn. rewrite map_map. unfold recorded.
          assert (KK : forall l, incl l cols -> Forall2 (fun x y => x mod 65536 = y mod 65536)
                     (map (fun x => rawWidth c (padColumnHeader c t' x)) l) (map (fun col => Width t' (colName col)) l)).
          { induction l as [|col l IH]; intros Hincl; [constructor|]. cbn [map]. constructor.
            - rewrite (header_raw c t' cols); auto; [rewrite Z.mod_small by auto; reflexivity| |apply Hpos]; apply Hincl; left; auto.
            - apply IH. intros x Hx. apply Hincl. right. auto. }
          apply KK, incl_refl.
        - symmetry. apply mod_sum_firstn. apply cells_raw; auto; [apply builtin_weaken; auto|apply map_length]. }
      rewrite Z.add_mod, EQ, <- Z.add_mod by lia. reflexivity.
    + apply Forall_forall. intros x Hx. apply in_map_iff in Hx. destruct Hx as (col & <- & Hcol). eapply header_isolated; eauto.
Qed.

(** ** Merging the rows *)
Lemma pipeline_merge c (spec : option (TableSpec Item Val E)) ops items t' rows cols list : Reachable c -> Forall uint16_op ops ->
  Formats c (table_run (NewTable spec) ops) items t' rows -> Columns (tSpec t') = map Some cols ->
  Forall (BuiltIn c) cols -> IsolatedCells cols rows -> Serves list rows ->
  forall m fuel sep maxWidth, Separates sep -> 0 <= maxWidth -> maxWidth + slen sep < 65536 ->
  0 < reckoned t' cols sep < 65536 -> zsum (recorded t' cols) + slen cols - 1 <= maxWidth ->
  forall txt, In txt (written (merge m fuel c t' (fun _ => true) list maxWidth sep false)) ->
  exists line, txt = line ++ [x0a] /\ vwidth c line <= maxWidth.
Proof.
  intros Hc HU HF HC HB HI HS m fuel sep maxWidth Hsep Hm0 Hm Hr Hfit.
  destruct (formats_recorded c spec ops items t' rows cols HU HF HC) as (H1 & H2 & H3).
  assert (HPr : Printable t' cols list rows).
  { split; auto. eapply Forall_impl; [|exact H2]. intros; cbn in *; lia. }
  apply (@plain_lines_fit _ _ _ c t' cols list rows HPr Hc HB HI H1); auto; [rewrite Z.mod_small by lia; lia|lia].
Qed.

End Types.
