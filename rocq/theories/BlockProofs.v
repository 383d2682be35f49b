(** * BlockProofs: merging prints what AlignFormattedItem returns. *)
From Coq Require Import ZifyBool ZifyNat.
From Verif Require Import GoBase Runewidth ConditionSpec Width TextSpec AlignSpec Table TableContract TableOpsProofs TableTheory TableExamples
  Merge MergeSpec MergeLayout MergeSearch MergeTheory MergeWidths MergePlan MergeExamples PipelineSpec PipelineProofs SizeProofs BlockSpec.
Local Open Scope Z_scope.

Section Types.
Context {Item Val E : Type}.
Notation Table := (Table Item Val E).
Notation Column := (Column Item Val E).

Lemma block_aligned c (t : Table) cols ws row : Columns (tSpec t) = map Some cols -> recorded t cols = ws -> AllAligned cols ->
  length row = length cols -> block c cols ws row = aligned_text t row.
Proof.
  intros HC <- HA HL. unfold aligned_text. rewrite (align_aligned t cols row HC HL). cbn [snd]. unfold block. f_equal.
  clear HC. revert row HL. induction cols as [|col cols IH]; intros [|s row] HL; try discriminate; [reflexivity|].
  unfold recorded in *. cbn [map cells aligned]. rewrite IH; [|intros x Hx; apply HA; right; auto|cbn in HL; lia].
  f_equal. unfold alignment_of. destruct (colAlignment col) eqn:K; [reflexivity|]. exfalso. apply (HA col (or_introl eq_refl) K).
Qed.
Lemma blocks_aligned c cols (ts : nat -> Table) W g : (forall k, (k < g)%nat -> Columns (tSpec (ts k)) = map Some cols /\ recorded (ts k) cols = W k) ->
  AllAligned cols -> forall line k, (k + length line <= g)%nat -> Forall (fun row => length row = length cols) line ->
  blocks_from c cols W k line = texts_from ts k line.
Proof.
  intros HT HA. induction line as [|row line IH]; intros k Hk HF; [reflexivity|]. inversion HF as [|? ? H1 H2]; subst. cbn [length] in Hk.
  destruct (HT k ltac:(lia)) as [T1 T2]. cbn [blocks_from texts_from]. rewrite IH by (auto; lia). f_equal. apply block_aligned; auto.
Qed.
Lemma layout_rows {A} m g (rows : list A) lines line row : (1 <= g)%nat -> Layout m g rows lines -> In line lines -> In row line -> In row rows.
Proof.
  intros Hg HL Hin Hr. destruct (In_nth_error _ _ Hin) as (l & El). destruct (In_nth_error _ _ Hr) as (k & Ek).
  apply (layout_is m g rows lines Hg) in HL. subst lines. pose proof (layout_get2 m g rows l k) as K. unfold get2 in K. rewrite El, Ek in K.
  destruct ((l <? lineCount (length rows) g)%nat && (k <? g)%nat); [|discriminate]. symmetry in K. eapply nth_error_In; eauto.
Qed.
Lemma printed_aligned c cols (ts : nat -> Table) sep W g m rows lines :
  (forall k, (k < g)%nat -> Columns (tSpec (ts k)) = map Some cols /\ recorded (ts k) cols = W k) ->
  AllAligned cols -> ExactRows cols rows -> (1 <= g)%nat -> Layout m g rows lines ->
  printed c cols sep W g lines = map (aligned_line ts sep g) lines.
Proof.
  intros HT HA HR Hg HL. unfold printed. apply map_ext_in. intros line Hin. unfold line_text, aligned_line, blocks.
  rewrite (blocks_aligned c cols ts W g HT HA line 0); [reflexivity| |].
  - pose proof (layout_is m g rows lines Hg HL) as ->. cbn. eapply layout_line_len; eauto.
  - apply Forall_forall. intros row Hr. unfold ExactRows in HR. rewrite Forall_forall in HR. apply HR. eapply layout_rows; eauto.
Qed.
Lemma exact_aligned (t : Table) cols rows : Columns (tSpec t) = map Some cols -> ExactRows cols rows ->
  forall row, In row rows -> exists cells, AlignFormattedItem t row = (cells, Ok cells).
Proof.
  intros HC HR row Hr. unfold ExactRows in HR. rewrite Forall_forall in HR. exists (aligned t cols row). apply align_aligned; auto.
Qed.

(** ** A table with given widths *)
Lemma with_widths_ok (t : Table) cols ws : Columns (tSpec t) = map Some cols -> NoDup (map colName cols) -> length ws = length cols ->
  Forall (fun w => 0 <= w) ws -> Columns (tSpec (with_widths t cols ws)) = map Some cols /\ recorded (with_widths t cols ws) cols = ws.
Proof.
  intros HC HN HL HW. unfold with_widths. set (l := combine (map colName cols) ws).
  assert (Ht0 : columnWidth (NewTable (Some (tSpec t))) <> None) by discriminate.
  assert (Hf : map fst l = map colName cols).
  { unfold l. clear -HL. revert ws HL. induction cols as [|col cols IH]; intros [|w ws] HL; try discriminate; [reflexivity|].
    cbn [map combine fst]. rewrite IH by (cbn in HL; lia). reflexivity. }
  destruct (update_map (E := E) (NewTable (Some (tSpec t))) l Ht0) as [U _]; [rewrite Hf; exact HN|].
  split.
  - destruct (update_spec (E := E) l (NewTable (Some (tSpec t))) Ht0) as (t1 & E1 & E2 & _). rewrite E1. cbn [fst]. rewrite E2. exact HC.
  - unfold recorded. assert (K : forall (cs : list Column) vs, length vs = length cs -> Forall (fun w => 0 <= w) vs ->
      (forall k w, In (k, w) (combine (map colName cs) vs) -> In (k, w) l) ->
      map (fun col => Width (fst (UpdateWidth (E := E) (NewTable (Some (tSpec t))) l)) (colName col)) cs = vs); [|apply K; auto].
    induction cs as [|col cs IH]; intros [|v vs] Hl Hv Hin; try discriminate; [reflexivity|]. inversion Hv; subst. cbn [map]. f_equal.
    + rewrite (U (colName col) v) by (apply Hin; left; reflexivity). change (Width (NewTable (Some (tSpec t))) (colName col)) with 0. lia.
    + apply IH; auto. intros k w Hk. apply Hin. right. exact Hk.
Qed.

Section Printing.
Context {c : Condition} {t : Table} {cols : list Column} {items : FormattedItemList E} {rows : list (list str)}.
Hypothesis HP : Printable t cols items rows.
Hypothesis HA : AllAligned cols.
Hypothesis HR : ExactRows cols rows.

Lemma plain_aligned m fuel sep maxWidth : reckoned t cols sep mod 65536 <> 0 ->
  (forall row, In row rows -> exists cells, AlignFormattedItem t row = (cells, Ok cells))
  /\ exists g lines, Z.of_nat g = estimate t cols sep maxWidth /\ Layout m g rows lines
     /\ written (merge m fuel c t (fun _ => true) items maxWidth sep false) = map (aligned_line (fun _ => t) sep g) lines.
Proof.
  intros Hr. split; [apply (exact_aligned t cols rows (pr_columns _ _ _ _ HP) HR)|].
  assert (Hst : stop (merge m fuel c t (fun _ => true) items maxWidth sep false) = Finished).
  { destruct (merge_stops (c := c) HP m fuel maxWidth sep false Hr) as [K|[K _]]; [exact K|discriminate]. }
  destruct (plan_output (c := c) HP m fuel maxWidth sep false Hr Hst) as (g & lines & W & HPl & ->). cbn [written].
  pose proof (plan_pos _ _ _ _ _ _ _ HPl) as Hg. destruct HPl as (g0 & Hg0 & -> & HL & [[_ ->]|[K _]]); [|lia].
  exists g0, lines. split; [exact Hg0|]. split; [exact HL|]. apply (printed_aligned c cols (fun _ => t) sep _ g0 m rows lines); auto.
  intros k _. split; [apply (pr_columns _ _ _ _ HP)|reflexivity].
Qed.

(** One item to a line. *)
Lemma one_aligned m fuel sep maxWidth : reckoned t cols sep mod 65536 <> 0 -> estimate t cols sep maxWidth = 1 ->
  written (merge m fuel c t (fun _ => true) items maxWidth sep false) = map (fun row => aligned_text t row ++ [x0a]) rows.
Proof.
  intros Hr He. destruct (plain_aligned m fuel sep maxWidth Hr) as (_ & g & lines & Hg & HL & ->). assert (g = 1%nat) as -> by lia.
  assert (lines = map (fun row => [row]) rows) as ->.
  { apply (layout_is m 1 rows lines ltac:(lia)) in HL. rewrite HL. apply nth_ext. intros l. rewrite nth_map.
    unfold layout_lines. rewrite nth_map, nth_seq.
    assert (lineCount (length rows) 1 = length rows) as ->.
    { unfold lineCount. destruct (length rows) as [|n]; [reflexivity|]. rewrite Nat.div_1_r. lia. }
    destruct (Nat.ltb_spec l (length rows)) as [K|K]; cbn [option_map plus].
    - destruct (nth_error rows l) as [row|] eqn:Er; [|apply nth_error_None in Er; lia]. cbn [option_map seq picks].
      replace (pos m 1 (length rows) l 0) with l by (destruct m; cbn; lia). rewrite Er. reflexivity.
    - rewrite (proj2 (nth_error_None rows l) K). reflexivity. }
  rewrite map_map. apply map_ext. intros row. reflexivity.
Qed.

(** Compact: each group as a table of its own would align it. *)
Lemma compact_aligned m fuel sep maxWidth : reckoned t cols sep mod 65536 <> 0 -> NoDup (map colName cols) -> (forall name, 0 <= Width t name) ->
  let r := merge m fuel c t (fun _ => true) items maxWidth sep true in stop r = Finished ->
  exists g0 g lines W, Z.of_nat g0 = estimate t cols sep maxWidth /\ (g0 <= g)%nat /\ Layout m g rows lines
    /\ Chosen c t cols g0 g lines W
    /\ (forall k row, (k < g)%nat -> In row rows -> exists cells, AlignFormattedItem (with_widths t cols (W k)) row = (cells, Ok cells))
    /\ written r = map (aligned_line (fun k => with_widths t cols (W k)) sep g) lines.
Proof.
  intros Hr HN HW r Hst. unfold r in *. destruct (plan_output (c := c) HP m fuel maxWidth sep true Hr Hst) as (g & lines & W & HPl & ->). cbn [written].
  pose proof (plan_pos _ _ _ _ _ _ _ HPl) as Hg. destruct HPl as (g0 & Hg0 & HS & HL & HC).
  assert (HG : forall k, (k < g)%nat -> length (W k) = length cols /\ Forall (fun w => 0 <= w) (W k)).
  { intros k Hk. destruct HC as [[_ ->]|[_ HG]].
    - unfold recorded. split; [apply map_length|]. apply Forall_forall. intros w Hw. apply in_map_iff in Hw. destruct Hw as (col & <- & _). apply HW.
    - destruct (group_good c cols lines g W HG k Hk) as [G1 G2]. split; [exact G1|]. eapply Forall_impl; [|exact G2]. cbn. lia. }
  assert (HT : forall k, (k < g)%nat -> Columns (tSpec (with_widths t cols (W k))) = map Some cols /\ recorded (with_widths t cols (W k)) cols = W k).
  { intros k Hk. destruct (HG k Hk) as [G1 G2]. apply with_widths_ok; auto. apply (pr_columns _ _ _ _ HP). }
  exists g0, g, lines, W. split; [exact Hg0|]. split; [destruct HS; lia|]. split; [exact HL|]. split; [exact HC|]. split.
  - intros k row Hk. destruct (HT k Hk) as [T1 _]. apply (exact_aligned _ cols rows T1 HR).
  - apply (printed_aligned c cols (fun k => with_widths t cols (W k)) sep W g m rows lines); auto.
Qed.
End Printing.

(** The header above merged lines of one item each. *)
Lemma header_merged c (spec : option (TableSpec Item Val E)) ops its t' rows cols items : Reachable c -> Forall uint16_op ops ->
  Formats c (table_run (NewTable spec) ops) its t' rows -> Columns (tSpec t') = map Some cols ->
  AllBuiltIn c cols -> IsolatedCells cols rows -> PlainTitles c cols -> (forall col, In col cols -> 0 < Width t' (colName col)) ->
  Serves items rows -> forall m fuel sep maxWidth, reckoned t' cols sep mod 65536 <> 0 -> estimate t' cols sep maxWidth = 1 ->
  exists heads, FormatHeader c t' [space] = Ok (before [space] heads (length cols) ++ [x0a]) :> outcome E str /\ length heads = length cols
    /\ length (written (merge m fuel c t' (fun _ => true) items maxWidth sep false)) = length rows
    /\ forall txt, In txt (written (merge m fuel c t' (fun _ => true) items maxWidth sep false)) ->
       exists cells, txt = TableContract.join [space] cells ++ [x0a] /\ length cells = length cols
         /\ forall i, (i <= length cols)%nat -> vwidth c (before [space] heads i) = vwidth c (before [space] cells i).
Proof.
  intros Hc HU HF HC HB HI HT Hpos HS m fuel sep maxWidth Hr He.
  destruct (formats_recorded c spec ops its t' rows cols HU HF HC) as (H1 & H2 & H3).
  destruct (header_above c spec ops its t' rows cols [space] Hc HU HF HC HB HI space_separates HT Hpos) as (heads & E1 & E2 & E3).
  assert (HR : ExactRows cols rows) by exact H2.
  assert (HA : AllAligned cols).
  { intros col Hin. unfold AllBuiltIn in HB. rewrite Forall_forall in HB. destruct (HB col Hin) as (a & ->). discriminate. }
  assert (HP : Printable t' cols items rows).
  { split; auto. eapply Forall_impl; [|exact H2]. cbn. intros row K. lia. }
  rewrite (one_aligned (c := c) HP HA HR m fuel sep maxWidth Hr He).
  exists heads. split; [exact E1|]. split; [exact E2|]. split; [apply map_length|].
  intros txt Hin. apply in_map_iff in Hin. destruct Hin as (row & <- & Hrow). destruct (E3 row Hrow) as (cells & Ea & Eb).
  exists cells. unfold aligned_text. rewrite Ea. cbn [snd]. split; [reflexivity|]. split; [|exact Eb].
  rewrite Forall_forall in H2. rewrite (align_aligned t' cols row HC (H2 row Hrow)) in Ea. injection Ea as <- . 
  specialize (H2 row Hrow). clear -H2. revert row H2. induction cols as [|col cols IH]; intros [|s row] K; try discriminate; [reflexivity|].
  cbn [aligned length]. f_equal. apply IH. cbn in K. lia.
Qed.
End Types.
