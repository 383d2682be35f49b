(** * SlicesCount: which slices merging makes. *)
From Coq Require Import ZifyBool ZifyNat.
From Verif Require Import GoBase Utf8 Runewidth Width AlignSpec Table TableContract Merge MergeSpec MergeLayout MergeRender MergeSearch MergeTheory
  SizeSpec SizeProofs Slices SlicesSpec SlicesProofs.
Local Open Scope Z_scope.

Lemma map_repeat {A B} (f : A -> B) a n : map f (repeat a n) = repeat (f a) n.
Proof. induction n; cbn; f_equal; auto. Qed.
Definition all_ok : nat -> bool := fun _ => true.

Section Types.
Context {Item Val E : Type}.
Context (grow : Z -> Z).
Context {c : Condition} {t : Table Item Val E} {cols : list (Column Item Val E)} {items : FormattedItemList E} {rows : list (list str)}.
Hypothesis HP : Printable t cols items rows.

Lemma column_count : ColumnCount (tSpec t) = slen cols.
Proof. unfold ColumnCount. rewrite (pr_columns _ _ _ _ HP). unfold slen. rewrite map_length. reflexivity. Qed.

Lemma groups_events getWidth W g (p : nat -> nat) (P : Z -> Z) : Reads getWidth (length cols) g W ->
  (forall k, P (Z.of_nat k) = Z.of_nat (p k)) -> forall n s line, (s + n <= g)%nat -> slen (elems line) + Z.of_nat n <= room line ->
  fst (groupsA grow (fiLen items) P (renderA c t items getWidth) (map Z.of_nat (seq s n)) line)
  = repeat (Made (slen cols)) (length (picks p (seq s n) rows)).
Proof.
  intros HR Hpos. pose proof (rows_len HP) as HN.
  induction n as [|n IH]; intros s line Hs Hl; [reflexivity|].
  cbn [seq map groupsA picks]. rewrite Hpos, HN.
  destruct (nth_error rows (p s)) as [row|] eqn:Er.
  - pose proof (nth_some_lt _ _ _ Er). destruct (Z.geb_spec (Z.of_nat (p s)) (Z.of_nat (length rows))); [lia|].
    rewrite render_same, (render_ok HP getWidth W g (p s) s row HR) by (auto; lia).
    rewrite (proj2 (pr_serves _ _ _ _ HP) _ _ Er), mbind_ok. rewrite append_room by lia. rewrite mbind_ok. cbn [app fst length repeat].
    rewrite column_count. f_equal. rewrite <- HN. apply IH; [lia|]. cbn [elems room]. rewrite slen_app. change (slen [_]) with 1. lia.
  - apply nth_error_None in Er. destruct (Z.geb_spec (Z.of_nat (p s)) (Z.of_nat (length rows))); [|lia].
    rewrite append_room by lia. reflexivity.
Qed.
Lemma line_events getWidth W g (p : nat -> nat) (P : Z -> Z) sep : Reads getWidth (length cols) g W ->
  (forall k, P (Z.of_nat k) = Z.of_nat (p k)) ->
  fst (lineA grow c t items sep (Z.of_nat g) getWidth P) = map Made (line_slots (Z.of_nat g) (slen cols) (picks p (seq 0 g) rows)).
Proof.
  intros HR Hpos. unfold lineA, make0. destruct (Z.ltb_spec (Z.of_nat g) 0); [lia|]. rewrite mbind_ok, zrange_nat. cbn [fst app].
  unfold line_slots. cbn [map]. f_equal. rewrite fst_mbind.
  rewrite (groups_events getWidth W g p P HR Hpos); [|lia|change (slen (elems {| elems := []; room := Z.of_nat g |})) with 0; cbn [room]; lia].
  rewrite map_repeat. destruct (snd _); cbn [mret fst]; rewrite ?app_nil_r; reflexivity.
Qed.
Lemma lines_events (line : Z -> mem str) (slots : nat -> list Z) : (forall l, fst (line (Z.of_nat l)) = map Made (slots l)) ->
  forall n s k acc, (forall l, (s <= l < s + n)%nat -> exists txt, snd (line (Z.of_nat l)) = Ok txt) ->
  fst (linesA (E := E) all_ok line (map Z.of_nat (seq s n)) k acc) = map Made (flat_map slots (seq s n)).
Proof.
  intros HL. induction n as [|n IH]; intros s k acc HO; [reflexivity|]. cbn [seq map linesA flat_map].
  destruct (HO s ltac:(lia)) as [txt Et]. rewrite Et. cbn [all_ok fst]. rewrite HL, map_app. f_equal. apply IH. intros l Hl. apply HO. lia.
Qed.
Lemma emit_events getWidth W g m sep : (1 <= g)%nat -> Reads getWidth (length cols) g W ->
  fst (emitA grow c t items sep all_ok (Z.of_nat g) getWidth (zpos m (Z.of_nat g)))
  = map Made (lines_slots (Z.of_nat g) (slen cols) (layout_lines m g rows)).
Proof.
  intros Hg HR. pose proof (rows_len HP) as HN. unfold emitA. rewrite HN, lineCountOf_nat by auto.
  set (L := lineCount (length rows) g). rewrite zrange_nat.
  assert (HZ : forall l k, zpos m (Z.of_nat g) (Z.of_nat L) (Z.of_nat l) (Z.of_nat k) = Z.of_nat (pos m g L l k)).
  { intros l k. destruct m; cbn [zpos pos]; lia. }
  rewrite (lines_events _ (fun l => line_slots (Z.of_nat g) (slen cols) (picks (pos m g L l) (seq 0 g) rows))).
  - f_equal. unfold lines_slots, layout_lines. fold L. rewrite !flat_map_concat_map, map_map. reflexivity.
  - intros l. apply (line_events getWidth W); auto.
  - intros l Hl. destruct (line_same grow c t items sep (Z.of_nat g) getWidth (zpos m (Z.of_nat g) (Z.of_nat L) (Z.of_nat l)) ltac:(lia)) as [K _].
    rewrite K, zrange_nat, (groups_ok HP getWidth W g (pos m g L l)); auto. cbn [obind]. eauto.
Qed.

Lemma merged_is m g : (2 <= g)%nat ->
  merged m c t items (Z.of_nat g) = Ok (if worth_b m (length rows) g then Some (flat (c := c) (cols := cols) (rows := rows) m g) else None).
Proof.
  intros Hg. destruct m; cbn [merged].
  - rewrite (mergedH_ok HP) by lia. reflexivity.
  - rewrite (mergedV_ok HP) by lia. reflexivity.
Qed.
Definition one_if (b : bool) : nat := if b then 1 else 0.
Lemma calc_events m sep maxWidth (g0 : nat) : (1 <= g0)%nat -> forall f extra cw,
  let r := calcA grow m f c t items (clampWidth maxWidth) (u16 (slen sep)) (Z.of_nat g0) (Z.of_nat extra) cw in
  (snd r = None /\ fst r = map Made (tries_slots (g0 + extra) f (slen cols)))
  \/ exists extra', (extra <= extra')%nat /\ acceptable_b c cols sep maxWidth m rows (g0 + extra' + 1) = false
     /\ (forall g, (g0 + extra < g <= g0 + extra')%nat -> acceptable_b c cols sep maxWidth m rows g = true)
     /\ snd r = Some (Ok (Z.of_nat extra', if (extra =? extra')%nat then cw else flat (c := c) (cols := cols) (rows := rows) m (g0 + extra')))
     /\ fst r = map Made (tries_slots (g0 + extra) (extra' - extra + one_if (worth_b m (length rows) (g0 + extra' + 1))) (slen cols)).
Proof.
  intros Hg0. induction f as [|f IH]; intros extra cw r; [left; split; reflexivity|].
  assert (Eg : Z.of_nat g0 + Z.of_nat extra + 1 = Z.of_nat (g0 + extra + 1)) by lia.
  assert (Ee : Z.of_nat extra + 1 = Z.of_nat (S extra)) by lia.
  pose proof (merged_is m (g0 + extra + 1) ltac:(lia)) as HM.
  pose proof (merged_same grow m c t items (Z.of_nat (g0 + extra + 1)) ltac:(lia)) as HS.
  assert (HA : acceptable_b c cols sep maxWidth m rows (g0 + extra + 1)
    = worth_b m (length rows) (g0 + extra + 1)
      && negb (totalWidthOf (u16 (slen sep)) (Z.of_nat (g0 + extra + 1)) (u16 (ColumnCount (tSpec t)))
                 (flat (c := c) (cols := cols) (rows := rows) m (g0 + extra + 1)) >? clampWidth maxWidth)).
  { unfold acceptable_b. rewrite (total_flat HP), clamp_effective. f_equal.
    destruct (Z.gtb_spec (total sep cols (gwidths cols c m rows (g0 + extra + 1)) (g0 + extra + 1) mod 65536) (effective maxWidth));
    destruct (Z.leb_spec (total sep cols (gwidths cols c m rows (g0 + extra + 1)) (g0 + extra + 1) mod 65536) (effective maxWidth)); lia || reflexivity. }
  subst r. cbn [calcA]. rewrite Eg, Ee, HS, HM. destruct (worth_b m (length rows) (g0 + extra + 1)) eqn:EW.
  - cbn [obind with_room option_map elems].
    pose proof (merged_some grow m c t items (Z.of_nat (g0 + extra + 1)) _ ltac:(lia) HM) as HE. rewrite column_count in HE.
    cbn [andb] in HA.
    destruct (_ >? clampWidth maxWidth) eqn:ET in *; cbn [negb] in HA.
    + right. exists extra. split; [lia|]. split; [exact HA|]. split; [intros; lia|]. cbn [fst snd]. rewrite Nat.eqb_refl. split; [reflexivity|].
      rewrite HE, Nat.sub_diag, EW. cbn [one_if plus]. unfold tries_slots. cbn [seq map]. do 3 f_equal. lia.
    + assert (HT : forall n, [Made (Z.of_nat (g0 + extra + 1) * slen cols)] ++ map Made (tries_slots (g0 + S extra) n (slen cols))
        = map Made (tries_slots (g0 + extra) (S n) (slen cols))).
      { intros n. unfold tries_slots. cbn [seq map app]. do 2 f_equal; [f_equal; lia|]. do 2 f_equal. f_equal. lia. }
      destruct (IH (S extra) (flat (c := c) (cols := cols) (rows := rows) m (g0 + extra + 1))) as [[I1 I2]|(extra' & I1 & I2 & I3 & I4 & I5)]; cbn [fst snd].
      * left. split; [exact I1|]. rewrite HE, I2. apply HT.
      * right. exists extra'. split; [lia|]. split; [exact I2|]. split; [|split].
        -- intros g Hg. destruct (Nat.eq_dec g (g0 + extra + 1)) as [->|]; [exact HA|]. apply I3. lia.
        -- rewrite I4. do 3 f_equal. destruct (Nat.eqb_spec extra extra'); [lia|].
           destruct (Nat.eqb_spec (S extra) extra') as [<-|]; [|reflexivity]. f_equal. lia.
        -- rewrite HE, I5, HT. do 2 f_equal. lia.
  - cbn [obind with_room option_map]. right. exists extra. split; [lia|]. split; [rewrite HA; reflexivity|]. split; [intros; lia|].
    cbn [fst snd]. rewrite Nat.eqb_refl. split; [reflexivity|]. rewrite (merged_none grow m c t items _ HM), Nat.sub_diag, EW. reflexivity.
Qed.

(** ** The functions *)
Lemma mergeA_unfold m fuel maxWidth sep compact : reckoned t cols sep mod 65536 <> 0 ->
  mergeA grow m fuel c t all_ok items maxWidth sep compact =
  let g0 := g_init (t := t) (cols := cols) sep maxWidth in
  let finish gc getWidth := emitA grow c t items sep all_ok gc getWidth (zpos m gc) in
  if compact then
    let found := calcA grow m fuel c t items (clampWidth maxWidth) (u16 (slen sep)) (Z.of_nat g0) 0 [] in
    match snd found with
    | None => (fst found, {| written := []; stop := Running |})
    | Some (Panic p) => (fst found, {| written := []; stop := Panicked p |})
    | Some (Err e) => (fst found, {| written := []; stop := Failed e |})
    | Some (Ok (extra, cellWidth)) =>
      let r := if extra >? 0 then finish (Z.of_nat g0 + extra) (getWidth_compact (ColumnCount (tSpec t)) cellWidth)
               else finish (Z.of_nat g0) (getWidth_default t) in
      (fst found ++ fst r, snd r)
    end
  else finish (Z.of_nat g0) (getWidth_default t).
Proof.
  intros Hr. assert (Eg : Z.of_nat (g_init (t := t) (cols := cols) sep maxWidth) = estimate t cols sep maxWidth).
  { unfold g_init. pose proof (estimate_pos t cols sep maxWidth). lia. }
  cbv zeta. rewrite Eg. unfold mergeA. rewrite (estimate_ok t cols maxWidth sep (pr_columns _ _ _ _ HP)).
  destruct (Z.eqb_spec (reckoned t cols sep mod 65536) 0); [lia|]. destruct m; reflexivity.
Qed.

Lemma plain_slots m fuel sep maxWidth : reckoned t cols sep mod 65536 <> 0 ->
  forall g lines, Z.of_nat g = estimate t cols sep maxWidth -> Layout m g rows lines ->
  fst (mergeA grow m fuel c t (fun _ => true) items maxWidth sep false) = map Made (lines_slots (Z.of_nat g) (slen cols) lines).
Proof.
  intros Hr g lines Hg HL. change (fun _ : nat => true) with all_ok. rewrite mergeA_unfold by auto. cbv zeta iota.
  rewrite <- (g_init_is _ _ _ Hg). pose proof (estimate_pos t cols sep maxWidth). apply layout_is in HL; [|lia]. subst lines.
  apply (emit_events _ (fun _ => recorded t cols)); [lia|]. apply (reads_default HP).
Qed.

Lemma compact_slots m fuel sep maxWidth : reckoned t cols sep mod 65536 <> 0 ->
  forall g0, Z.of_nat g0 = estimate t cols sep maxWidth ->
  let run := merge m fuel c t (fun _ => true) items maxWidth sep true in
  let evs := fst (mergeA grow m fuel c t (fun _ => true) items maxWidth sep true) in
  (stop run = Running /\ evs = map Made (tries_slots g0 fuel (slen cols)))
  \/ stop run = Finished /\ exists g lines tries, Search c cols sep maxWidth m rows g0 g /\ Layout m g rows lines
     /\ ((Worth m rows (S g) /\ tries = S (g - g0)) \/ (~ Worth m rows (S g) /\ tries = (g - g0)%nat))
     /\ evs = map Made (tries_slots g0 tries (slen cols) ++ lines_slots (Z.of_nat g) (slen cols) lines).
Proof.
  intros Hr g0 Hg. change (fun _ : nat => true) with all_ok. cbv zeta.
  pose proof (proj1 (merge_same_made grow m fuel c t all_ok items maxWidth sep true)) as HS. rewrite <- HS. clear HS.
  rewrite mergeA_unfold by auto. cbv zeta iota. rewrite <- (g_init_is _ _ _ Hg). pose proof (estimate_pos t cols sep maxWidth) as Hp.
  destruct (calc_events m sep maxWidth g0 ltac:(lia) fuel 0 []) as [[I1 I2]|(extra & I1 & I2 & I3 & I4 & I5)];
    change (Z.of_nat 0) with 0 in *; rewrite Nat.add_0_r in *.
  - left. rewrite I1. cbn [fst snd stop]. auto.
  - right. rewrite I4, I5. cbn [fst snd].
    assert (HF : let r := if Z.of_nat extra >? 0
        then emitA grow c t items sep all_ok (Z.of_nat g0 + Z.of_nat extra) (getWidth_compact (ColumnCount (tSpec t))
               (if (0 =? extra)%nat then [] else flat (c := c) (cols := cols) (rows := rows) m (g0 + extra))) (zpos m (Z.of_nat g0 + Z.of_nat extra))
        else emitA grow c t items sep all_ok (Z.of_nat g0) (getWidth_default t) (zpos m (Z.of_nat g0)) in
      stop (snd r) = Finished /\ fst r = map Made (lines_slots (Z.of_nat (g0 + extra)) (slen cols) (layout_lines m (g0 + extra) rows))).
    { cbv zeta. destruct (Z.gtb_spec (Z.of_nat extra) 0) as [L|L].
      - destruct (Nat.eqb_spec 0 extra); [lia|]. replace (Z.of_nat g0 + Z.of_nat extra) with (Z.of_nat (g0 + extra)) by lia. split.
        + rewrite (proj1 (emit_same grow c t items sep all_ok _ _ _ (Nat2Z.is_nonneg _))).
          rewrite (emit_ok HP all_ok sep m (g0 + extra) _ (gwidths cols c m rows (g0 + extra))); [|lia|apply (reads_compact HP); lia].
          unfold all_ok. rewrite write_all. reflexivity.
        + apply (emit_events _ (gwidths cols c m rows (g0 + extra))); [lia|apply (reads_compact HP); lia].
      - assert (extra = 0)%nat as -> by lia. rewrite Nat.add_0_r. split.
        + rewrite (proj1 (emit_same grow c t items sep all_ok _ _ _ (Nat2Z.is_nonneg _))).
          rewrite (emit_ok HP all_ok sep m g0 _ (fun _ => recorded t cols)); [|lia|apply (reads_default HP)].
          unfold all_ok. rewrite write_all. reflexivity.
        + apply (emit_events _ (fun _ => recorded t cols)); [lia|apply (reads_default HP)]. }
    destruct HF as [F1 F2]. split; [exact F1|]. rewrite F2, <- map_app.
    exists (g0 + extra)%nat, (layout_lines m (g0 + extra) rows), (extra - 0 + one_if (worth_b m (length rows) (g0 + extra + 1)))%nat.
    split; [|split; [apply layout_ok; lia|split; [|reflexivity]]].
    + split; [lia|]. split.
      * intros g' Hg'. apply acceptable_spec; [lia|]. apply I3. lia.
      * intros HA. apply acceptable_spec in HA; [|lia]. rewrite <- Nat.add_1_r in HA. congruence.
    + replace (S (g0 + extra)) with (g0 + extra + 1)%nat by lia. rewrite worth_spec by lia.
      destruct (worth_b m (length rows) (g0 + extra + 1)); cbn [one_if]; [left|right]; split; auto; try discriminate; lia.
Qed.

(** ** How many slots *)
Lemma lines_slots_sum g C (lines : list (list (list str))) :
  zsum (lines_slots g C lines) = slen lines * g + C * zsum (map slen lines).
Proof.
  induction lines as [|line lines IH]; [unfold lines_slots; cbn; lia|]. unfold lines_slots in *. cbn [flat_map map].
  rewrite zsum_app, IH, zsum_cons. unfold line_slots at 1. rewrite zsum_cons.
  assert (HR : forall n, zsum (repeat C n) = C * Z.of_nat n).
  { induction n as [|n IHn]; [cbn; lia|]. cbn [repeat]. rewrite zsum_cons, IHn. lia. }
  rewrite HR. unfold slen. cbn [length]. lia.
Qed.
Lemma plain_total m fuel sep maxWidth : reckoned t cols sep mod 65536 <> 0 -> rows <> [] ->
  exists slots, fst (mergeA grow m fuel c t (fun _ => true) items maxWidth sep false) = map Made slots
    /\ zsum slots = lines_of (slen rows) (estimate t cols sep maxWidth) * estimate t cols sep maxWidth + slen rows * slen cols
    /\ zsum slots < slen rows * (slen cols + 1) + estimate t cols sep maxWidth.
Proof.
  intros Hr Hn. pose proof (estimate_pos t cols sep maxWidth) as Hp. set (g := Z.to_nat (estimate t cols sep maxWidth)).
  assert (Eg : Z.of_nat g = estimate t cols sep maxWidth) by lia.
  pose proof (layout_ok m g rows ltac:(lia)) as HL. exists (lines_slots (Z.of_nat g) (slen cols) (layout_lines m g rows)).
  split; [apply plain_slots; auto|]. rewrite lines_slots_sum, (layout_items m g rows _ ltac:(lia) HL).
  assert (Hn' : (1 <= length rows)%nat) by (destruct rows; [congruence|cbn; lia]).
  assert (EL : slen (layout_lines m g rows) = lines_of (slen rows) (Z.of_nat g)).
  { unfold slen. rewrite layout_len. apply lines_of_nat; lia. }
  rewrite EL, Eg. split; [lia|]. pose proof (lineCount_spec (length rows) g ltac:(lia) Hn') as [K _].
  pose proof (lines_of_nat (length rows) g ltac:(lia) Hn') as K2. rewrite Eg in K2. unfold slen in *. rewrite <- K2.
  pose proof (lineCount_pos (length rows) g Hn'). nia.
Qed.
Lemma tries_sum g0 C n : 2 * zsum (tries_slots g0 n C) = C * Z.of_nat n * (2 * Z.of_nat g0 + Z.of_nat n + 1).
Proof.
  unfold tries_slots. revert g0. induction n as [|n IH]; intros g0; [cbn; lia|]. cbn [seq map]. rewrite zsum_cons.
  specialize (IH (S g0)). nia.
Qed.
(** Vertically no slice of the search is longer than the items have cells. *)
Lemma vertical_short sep maxWidth g0 g tries : (1 <= g0)%nat -> Search c cols sep maxWidth V rows g0 g ->
  ((Worth V rows (S g) /\ tries = S (g - g0)) \/ (~ Worth V rows (S g) /\ tries = (g - g0)%nat)) ->
  Forall (fun n => n <= slen rows * slen cols) (tries_slots g0 tries (slen cols)).
Proof.
  intros Hg0 (S1 & S2 & S3) HT. assert (HW : forall g', (g0 < g' < S g0 + tries)%nat -> (g' <= length rows)%nat).
  { intros g' Hg'. assert (W : Worth V rows g').
    { destruct HT as [[W ->]|[_ ->]].
      - destruct (Nat.eq_dec g' (S g)) as [->|]; auto. apply S2. lia.
      - apply S2. lia. }
    apply worth_spec in W; [|lia]. cbn [worth_b] in W. apply Nat.ltb_lt in W.
    destruct (length rows) as [|n] eqn:En; [lia|]. pose proof (lineCount_pos (S n) g' ltac:(lia)). nia. }
  apply Forall_forall. intros x Hx. unfold tries_slots in Hx. apply in_map_iff in Hx. destruct Hx as (g' & <- & Hin). apply in_seq in Hin.
  specialize (HW g' ltac:(lia)). apply Z.mul_le_mono_nonneg_r; unfold slen; lia.
Qed.
Lemma compact_vertical_short fuel sep maxWidth : reckoned t cols sep mod 65536 <> 0 -> rows <> [] ->
  stop (merge V fuel c t (fun _ => true) items maxWidth sep true) = Finished ->
  exists search slots g, fst (mergeA grow V fuel c t (fun _ => true) items maxWidth sep true) = map Made (search ++ slots)
    /\ Forall (fun n => n <= slen rows * slen cols) search
    /\ estimate t cols sep maxWidth <= g /\ (g <= estimate t cols sep maxWidth \/ g <= slen rows)
    /\ zsum slots < slen rows * (slen cols + 1) + g.
Proof.
  intros Hr Hn Hs. pose proof (estimate_pos t cols sep maxWidth) as Hp. set (g0 := Z.to_nat (estimate t cols sep maxWidth)).
  assert (Eg : Z.of_nat g0 = estimate t cols sep maxWidth) by lia.
  destruct (compact_slots V fuel sep maxWidth Hr g0 Eg) as [[K _]|(_ & g & lines & tries & S & HL & HT & HE)]; [congruence|].
  exists (tries_slots g0 tries (slen cols)), (lines_slots (Z.of_nat g) (slen cols) lines), (Z.of_nat g).
  split; [exact HE|]. split; [apply (vertical_short sep maxWidth g0 g); auto; lia|]. pose proof S as (S1 & S2 & S3). split; [lia|]. split.
  { destruct (Nat.eq_dec g g0) as [->|]; [left; lia|right]. specialize (S2 g ltac:(lia)).
    apply (vertical_limit (c := c) (cols := cols)) in S2; [|lia]. unfold slen. lia. }
  rewrite lines_slots_sum, (layout_items V g rows _ ltac:(lia) HL).
  assert (Hn' : (1 <= length rows)%nat) by (destruct rows; [congruence|cbn; lia]).
  apply layout_is in HL; [|lia]. subst lines. unfold slen at 1. rewrite layout_len.
  pose proof (lineCount_spec (length rows) g ltac:(lia) Hn') as [K _]. pose proof (lineCount_pos (length rows) g Hn'). unfold slen in *. nia.
Qed.
Lemma compact_total m fuel sep maxWidth : reckoned t cols sep mod 65536 <> 0 -> rows <> [] ->
  stop (merge m fuel c t (fun _ => true) items maxWidth sep true) = Finished ->
  exists search slots g, fst (mergeA grow m fuel c t (fun _ => true) items maxWidth sep true) = map Made (search ++ slots)
    /\ 2 * zsum search = slen cols * slen search * (2 * estimate t cols sep maxWidth + slen search + 1)
    /\ (g = estimate t cols sep maxWidth + slen search \/ g = estimate t cols sep maxWidth + slen search - 1)
    /\ slen (written (merge m fuel c t (fun _ => true) items maxWidth sep true)) = lines_of (slen rows) g
    /\ zsum slots = lines_of (slen rows) g * g + slen rows * slen cols
    /\ zsum slots < slen rows * (slen cols + 1) + g.
Proof.
  intros Hr Hn Hs. pose proof (estimate_pos t cols sep maxWidth) as Hp. set (g0 := Z.to_nat (estimate t cols sep maxWidth)).
  assert (Eg : Z.of_nat g0 = estimate t cols sep maxWidth) by lia.
  destruct (compact_slots m fuel sep maxWidth Hr g0 Eg) as [[K _]|(_ & g & lines & tries & S & HL & HT & HE)]; [congruence|].
  assert (Hn' : (1 <= length rows)%nat) by (destruct rows; [congruence|cbn; lia]).
  pose proof S as (S1 & S2 & S3). exists (tries_slots g0 tries (slen cols)), (lines_slots (Z.of_nat g) (slen cols) lines), (Z.of_nat g).
  assert (ET : slen (tries_slots g0 tries (slen cols)) = Z.of_nat tries) by (unfold slen, tries_slots; rewrite map_length, seq_length; reflexivity).
  assert (EW : slen (written (merge m fuel c t (fun _ => true) items maxWidth sep true)) = slen lines).
  { destruct (chosen_exists (c := c) (t := t) (cols := cols) (rows := rows) m g0 g ltac:(lia) S1) as (lines' & W & HL' & HW).
    assert (HF : (g < g0 + fuel)%nat).
    { destruct (le_lt_dec (g0 + fuel) g) as [Hf|]; auto. exfalso.
      assert (K : stop (merge m fuel c t (fun _ => true) items maxWidth sep true) = Running).
      { apply (compact_running (c := c) HP m fuel maxWidth sep g0 Hr Eg). intros g' Hg'. apply S2. lia. }
      congruence. }
    rewrite (compact_ok (c := c) HP m fuel maxWidth sep g0 g lines' W Hr Eg S HF HL' HW).
    assert (G1 : (1 <= g)%nat) by lia. rewrite (layout_is _ _ _ _ G1 HL), (layout_is _ _ _ _ G1 HL'). cbn [written]. unfold printed, slen. rewrite map_length. reflexivity. }
  split; [exact HE|]. rewrite ET, tries_sum, Eg. split; [lia|]. split.
  { destruct HT as [[_ ->]|[_ ->]]; lia. }
  rewrite EW, lines_slots_sum, (layout_items m g rows _ ltac:(lia) HL).
  apply layout_is in HL; [|lia]. subst lines. unfold slen at 1 2. rewrite layout_len.
  pose proof (lineCount_spec (length rows) g ltac:(lia) Hn') as [K _]. pose proof (lineCount_pos (length rows) g Hn').
  pose proof (lines_of_nat (length rows) g ltac:(lia) Hn') as K2. unfold slen in *. rewrite <- K2. rewrite layout_len. split; [lia|]. split; nia.
Qed.
End Types.
