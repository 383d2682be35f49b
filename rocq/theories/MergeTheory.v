(** * MergeTheory: the merge functions against MergeSpec. *)
From Verif Require Import GoBase Runewidth Width AlignSpec Table Merge TableContract TableOpsProofs WidthTheory
  MergeSpec MergeLayout MergeRender MergeSearch.
From Coq Require Import ZifyBool ZifyNat.
Local Open Scope Z_scope.

(** ** Positions *)
Lemma horizontal_positions {A} g (rows : list A) lines : (1 <= g)%nat -> Layout H g rows lines -> forall l k,
  get2 lines l k = if (k <? g)%nat then nth_error rows (l * g + k) else None.
Proof.
  intros Hg HL l k. apply layout_is in HL; auto. subst. rewrite layout_get2. cbn [pos].
  destruct (Nat.ltb_spec k g); [|rewrite andb_false_r; reflexivity]. rewrite andb_true_r.
  destruct (Nat.ltb_spec l (lineCount (length rows) g)) as [L|L]; [reflexivity|].
  symmetry. apply nth_error_None. destruct (nil_or_pos rows) as [->|[_ Hn]]; [cbn; lia|].
  pose proof (lineCount_spec (length rows) g Hg Hn). nia.
Qed.

Lemma vertical_positions {A} g (rows : list A) lines : (1 <= g)%nat -> Layout V g rows lines -> forall l k,
  get2 lines l k = if (l <? length lines)%nat then nth_error rows (k * length lines + l) else None.
Proof.
  intros Hg HL l k. apply layout_is in HL; auto. subst. rewrite layout_get2, layout_len. cbn [pos].
  destruct (Nat.ltb_spec l (lineCount (length rows) g)); [|reflexivity].
  destruct (Nat.ltb_spec k g) as [L|L]; [reflexivity|]. cbn [andb].
  symmetry. apply nth_error_None. destruct (nil_or_pos rows) as [->|[_ Hn]]; [cbn; lia|].
  pose proof (lineCount_spec (length rows) g Hg Hn). nia.
Qed.

(** Every row is at exactly one place. *)
Lemma layout_once {A} m g (rows : list A) lines i : (1 <= g)%nat -> Layout m g rows lines -> (i < length rows)%nat ->
  exists l k, pos m g (length lines) l k = i /\ (k < g)%nat /\ (l < length lines)%nat /\ get2 lines l k = nth_error rows i
    /\ forall l' k', (k' < g)%nat -> (l' < length lines)%nat -> pos m g (length lines) l' k' = i -> l' = l /\ k' = k.
Proof.
  intros Hg HL Hi. assert (Hn : (1 <= length rows)%nat) by lia.
  pose proof (lineCount_spec (length rows) g Hg Hn) as HS. pose proof (lineCount_pos (length rows) g Hn) as HL1.
  assert (El : length lines = lineCount (length rows) g) by (apply layout_is in HL; auto; subst; apply layout_len).
  rewrite El in *. set (L := lineCount (length rows) g) in *.
  set (w := match m with H => g | V => L end).
  assert (Hw : (1 <= w)%nat) by (destruct m; lia).
  pose proof (Nat.div_mod i w ltac:(lia)) as HD. pose proof (Nat.mod_upper_bound i w ltac:(lia)) as HM.
  set (q := (i / w)%nat) in *. set (r := (i mod w)%nat) in *.
  destruct m; cbn [pos]; subst w.
  - exists q, r. assert (q < L)%nat by nia. split; [lia|]. split; [lia|]. split; [lia|]. split.
    + rewrite (horizontal_positions g rows lines Hg HL). destruct (Nat.ltb_spec r g); [|lia]. f_equal. lia.
    + intros l' k' Hk' Hl' Ei. assert (l' = q) by nia. split; [auto|]. subst l'. lia.
  - exists r, q. assert (q < g)%nat by nia. split; [lia|]. split; [lia|]. split; [lia|]. split.
    + rewrite (vertical_positions g rows lines Hg HL), El. fold L. destruct (Nat.ltb_spec r L); [|lia]. f_equal. lia.
    + intros l' k' Hk' Hl' Ei. assert (k' = q) by nia. split; [|auto]. subst k'. lia.
Qed.

Section Types.
Context {Item Val E : Type}.

Lemma blocks_from_ext c (cols : list (Column Item Val E)) W W' line : forall k g, (k + length line <= g)%nat ->
  (forall j, (j < g)%nat -> W j = W' j) -> blocks_from c cols W k line = blocks_from c cols W' k line.
Proof.
  induction line as [|row line IH]; intros k g Hk HW; [reflexivity|]. cbn [blocks_from]. cbn [length] in Hk.
  rewrite (HW k) by lia. f_equal. apply (IH (S k) g); auto. lia.
Qed.

Lemma line_text_ext c (cols : list (Column Item Val E)) sep W W' g line : (length line <= g)%nat ->
  (forall j, (j < g)%nat -> W j = W' j) -> line_text c cols sep W g line = line_text c cols sep W' g line.
Proof. intros HL HW. unfold line_text, blocks. rewrite (blocks_from_ext c cols W W' line 0 g); auto. Qed.

Section Printing.
Context {c : Condition} {t : Table Item Val E} {cols : list (Column Item Val E)} {items : FormattedItemList E}
  {rows : list (list str)}.
Hypothesis HP : Printable t cols items rows.
Let all_ok : nat -> bool := fun _ => true.

Lemma g_init_is sep maxWidth g0 : Z.of_nat g0 = estimate t cols sep maxWidth -> g0 = @g_init Item Val E t cols sep maxWidth.
Proof. unfold g_init. lia. Qed.

Lemma write_lines sep W g m lines : (1 <= g)%nat -> Layout m g rows lines ->
  write (E := E) all_ok (map (line_text c cols sep W g) (layout_lines m g rows)) =
  {| written := printed c cols sep W g lines; stop := Finished |}.
Proof.
  intros Hg HL. apply layout_is in HL; auto. subst lines. unfold all_ok. rewrite write_all.
  unfold printed. rewrite map_map. reflexivity.
Qed.

Lemma plain_ok m fuel maxWidth sep g lines : reckoned t cols sep mod 65536 <> 0 ->
  Z.of_nat g = estimate t cols sep maxWidth -> Layout m g rows lines ->
  merge m fuel c t all_ok items maxWidth sep false =
  {| written := printed c cols sep (fun _ => recorded t cols) g lines; stop := Finished |}.
Proof.
  intros Hr Hg HL. rewrite (merge_plain HP) by auto. pose proof (estimate_pos t cols sep maxWidth).
  rewrite <- (g_init_is _ _ _ Hg). apply write_lines; auto. lia.
Qed.

Lemma acceptable_dec maxWidth sep m g0 g : (1 <= g0)%nat -> (g0 < g)%nat ->
  Acceptable c cols sep maxWidth m rows g <-> acceptable_b c cols sep maxWidth m rows g = true.
Proof. intros. apply acceptable_spec. lia. Qed.

Lemma Search_unique maxWidth sep m g0 g g' : (1 <= g0)%nat -> Search c cols sep maxWidth m rows g0 g ->
  Search c cols sep maxWidth m rows g0 g' -> g = g'.
Proof.
  intros Hg0 (H1 & H2 & H3) (K1 & K2 & K3). destruct (lt_eq_lt_dec g g') as [[L|L]|L]; auto; exfalso.
  - apply H3, K2. lia.
  - apply K3, H2. lia.
Qed.

(** Compact: the result is that of the search. *)
Lemma compact_ok m fuel maxWidth sep g0 g lines W : reckoned t cols sep mod 65536 <> 0 ->
  Z.of_nat g0 = estimate t cols sep maxWidth -> Search c cols sep maxWidth m rows g0 g -> (g < g0 + fuel)%nat ->
  Layout m g rows lines -> Chosen c t cols g0 g lines W ->
  merge m fuel c t all_ok items maxWidth sep true =
  {| written := printed c cols sep W g lines; stop := Finished |}.
Proof.
  intros Hr Hg HS Hf HL HW. pose proof (estimate_pos t cols sep maxWidth) as Hp.
  destruct (merge_compact (c := c) HP m fuel all_ok maxWidth sep Hr) as [[_ K]|(g' & K1 & K2 & K3 & K4)];
    rewrite <- (g_init_is _ _ _ Hg) in *.
  - exfalso. destruct HS as (S1 & S2 & S3). apply S3. apply (acceptable_dec _ _ _ g0); [lia|lia|]. apply K. lia.
  - assert (g' = g).
    { apply (Search_unique maxWidth sep m g0); [lia| |exact HS]. split; [lia|]. split.
      - intros g'' Hg''. apply (acceptable_dec _ _ _ g0); [lia|lia|]. apply K2. lia.
      - intros HA. apply (acceptable_dec _ _ _ g0) in HA; [|lia|lia]. congruence. }
    subst g'. rewrite K4. rewrite <- (write_lines sep W g m lines) by (auto; lia). f_equal. apply map_ext_in.
    intros line Hline. apply line_text_ext; [eapply layout_line_len; eauto|]. intros j Hj.
    destruct HW as [[-> ->]|[Hlt HG]].
    + rewrite Nat.eqb_refl. reflexivity.
    + destruct (Nat.eqb_spec g g0); [lia|]. apply layout_is in HL; [|lia]. subst lines.
      eapply GroupWidths_unique; eauto. apply gwidths_ok. lia.
Qed.

Lemma compact_running m fuel maxWidth sep g0 : reckoned t cols sep mod 65536 <> 0 ->
  Z.of_nat g0 = estimate t cols sep maxWidth ->
  (stop (merge m fuel c t all_ok items maxWidth sep true) = Running <->
   forall g, (g0 < g <= g0 + fuel)%nat -> Acceptable c cols sep maxWidth m rows g).
Proof.
  intros Hr Hg. pose proof (estimate_pos t cols sep maxWidth) as Hp.
  destruct (merge_compact (c := c) HP m fuel all_ok maxWidth sep Hr) as [[K0 K]|(g' & K1 & K2 & K3 & K4)];
    rewrite <- (g_init_is _ _ _ Hg) in *.
  - rewrite K0. split; [|reflexivity]. intros _ g Hgg. apply (acceptable_dec _ _ _ g0); [lia|lia|]. apply K. auto.
  - rewrite K4. unfold all_ok. rewrite write_all. cbn [stop]. split; [discriminate|].
    intros HA. exfalso. specialize (HA (S g') ltac:(lia)). apply (acceptable_dec _ _ _ g0) in HA; [congruence|lia|lia].
Qed.

(** Choices exist. *)
Lemma chosen_exists m g0 g : (1 <= g0)%nat -> (g0 <= g)%nat -> exists lines W, Layout m g rows lines /\ Chosen c t cols g0 g lines W.
Proof.
  intros Hg0 Hle. exists (layout_lines m g rows).
  exists (if (g =? g0)%nat then fun _ => recorded t cols else gwidths cols c m rows g).
  split; [apply layout_ok; lia|]. destruct (Nat.eqb_spec g g0); [left; auto|right]. split; [lia|]. apply gwidths_ok. lia.
Qed.

(** A bounded search. *)
Lemma search_bounded (A : nat -> Prop) (A_dec : forall g, (1 <= g)%nat -> A (S g) \/ ~ A (S g)) g0 n : (1 <= g0)%nat ->
  ~ A (S (g0 + n)) -> exists g, (g0 <= g <= g0 + n)%nat /\ (forall g', (g0 < g' <= g)%nat -> A g') /\ ~ A (S g).
Proof.
  revert g0. induction n as [|n IH]; intros g0 Hg0 HA.
  - exists g0. split; [lia|]. split; [intros; lia|]. rewrite Nat.add_0_r in HA. exact HA.
  - destruct (A_dec g0 Hg0) as [Ha|Ha].
    + destruct (IH (S g0)) as (g & H1 & H2 & H3); [lia|rewrite Nat.add_succ_r in HA; exact HA|].
      exists g. split; [lia|]. split; auto. intros g' Hg'. destruct (Nat.eq_dec g' (S g0)) as [->|]; [auto|]. apply H2. lia.
    + exists g0. split; [lia|]. split; [intros; lia|auto].
Qed.

Lemma acceptable_or maxWidth sep m g : (1 <= g)%nat ->
  Acceptable c cols sep maxWidth m rows (S g) \/ ~ Acceptable c cols sep maxWidth m rows (S g).
Proof.
  intros Hg. rewrite acceptable_spec by lia. destruct (acceptable_b _ _ _ _ _ _ _); auto.
Qed.

(** ** Vertical termination *)
Lemma vertical_limit maxWidth sep g : (2 <= g)%nat -> Acceptable c cols sep maxWidth V rows g -> (g <= length rows)%nat.
Proof.
  intros Hg [HW _]. apply worth_spec in HW; auto. cbn [worth_b] in HW. apply Nat.ltb_lt in HW.
  pose proof (lineCount_pos (length rows) g ltac:(exact (Nat.le_lt_trans _ _ _ (Nat.le_0_l _) HW))). nia.
Qed.

Lemma vertical_search maxWidth sep g0 : (1 <= g0)%nat ->
  exists g, Search c cols sep maxWidth V rows g0 g /\ (g <= Nat.max g0 (length rows))%nat.
Proof.
  intros Hg0.
  destruct (search_bounded (Acceptable c cols sep maxWidth V rows) (acceptable_or maxWidth sep V) g0 (length rows - g0) Hg0)
    as (g & H1 & H2 & H3).
  - intros HA. apply vertical_limit in HA; lia.
  - exists g. split; [split; [lia|]; auto|lia].
Qed.

Lemma vertical_terminates fuel maxWidth sep : reckoned t cols sep mod 65536 <> 0 ->
  (1 <= fuel)%nat -> (length rows <= fuel)%nat ->
  stop (merge V fuel c t all_ok items maxWidth sep true) = Finished.
Proof.
  intros Hr H1 H2. pose proof (estimate_pos t cols sep maxWidth) as Hp.
  assert (Hg : Z.of_nat (g_init sep maxWidth (t := t) (cols := cols)) = estimate t cols sep maxWidth) by (unfold g_init; lia).
  set (g0 := g_init sep maxWidth) in *.
  destruct (vertical_search maxWidth sep g0 ltac:(lia)) as (g & HS & Hb).
  destruct (chosen_exists V g0 g ltac:(lia) (proj1 HS)) as (lines & W & HL & HW).
  rewrite (compact_ok V fuel maxWidth sep g0 g lines W); auto. lia.
Qed.

Lemma vertical_no_more_lines fuel maxWidth sep : 
  stop (merge V fuel c t all_ok items maxWidth sep true) = Finished ->
  (length (written (merge V fuel c t all_ok items maxWidth sep true)) <=
   length (written (merge V fuel c t all_ok items maxWidth sep false)))%nat.
Proof.
  intros HF. pose proof (estimate_pos t cols sep maxWidth) as Hp.
  destruct (Z.eq_dec (reckoned t cols sep mod 65536) 0) as [Hz|Hr].
  { rewrite (merge_divzero HP) in HF by auto. discriminate. }
  assert (Hg : Z.of_nat (g_init sep maxWidth (t := t) (cols := cols)) = estimate t cols sep maxWidth) by (unfold g_init; lia).
  set (g0 := g_init sep maxWidth) in *.
  rewrite (plain_ok V fuel maxWidth sep g0 (layout_lines V g0 rows)) by (auto; apply layout_ok; lia).
  destruct (merge_compact (c := c) HP V fuel all_ok maxWidth sep Hr) as [[K0 K]|(g' & K1 & K2 & K3 & K4)].
  { rewrite K0 in HF. discriminate. }
  fold g0 in K1, K2, K3, K4. rewrite K4. unfold all_ok. rewrite write_all. cbn [written]. unfold printed.
  rewrite !map_length, !layout_len. destruct (nil_or_pos rows) as [Hnil|[_ Hn]].
  - destruct (Nat.eq_dec g' g0) as [->|Hne]; [lia|]. exfalso.
    specialize (K2 g' ltac:(lia)). apply acceptable_spec in K2; [|lia]. apply vertical_limit in K2; [|lia]. subst. cbn in K2. lia.
  - apply lineCount_mono; lia.
Qed.

(** ** Horizontal termination *)
Lemma gidx_wide n g k : (n <= g)%nat -> (k < g)%nat ->
  gidx H n g (Z.of_nat k) = if (k <? n)%nat then [Z.of_nat k] else [].
Proof.
  intros Hn Hk. cbn [gidx]. unfold steps. destruct (Nat.ltb_spec k n).
  - replace ((Z.of_nat n - Z.of_nat k + Z.of_nat g - 1) / Z.of_nat g) with 1.
    + change (zrange 1) with [0]. cbn [map]. f_equal. lia.
    + apply Z.div_unique with (Z.of_nat n - Z.of_nat k - 1); lia.
  - rewrite Z.div_small by lia. reflexivity.
Qed.

Lemma wide_total sep g : (1 <= g)%nat -> (length rows <= g)%nat ->
  total sep cols (gwidths cols c H rows (S g)) (S g) =
  total sep cols (gwidths cols c H rows g) g + slen sep + slen cols - 1.
Proof.
  intros Hg1 Hn. unfold total. rewrite seq_S, map_app, zsum_app. cbn [map plus].
  assert (EL : forall k, (k < g)%nat -> gwidths cols c H rows (S g) k = gwidths cols c H rows g k).
  { intros k Hk. unfold gwidths. apply map_ext. intros i. rewrite !gidx_wide by lia. reflexivity. }
  assert (EZ : zsum (gwidths cols c H rows (S g) g) = 0).
  { unfold gwidths. rewrite gidx_wide by lia. destruct (Nat.ltb_spec g (length rows)); [lia|].
    generalize (seq 0 (length cols)). intros l. induction l as [|x l IH]; [reflexivity|]. exact IH. }
  change (zsum [zsum (gwidths cols c H rows (S g) g)]) with (zsum (gwidths cols c H rows (S g) g) + 0). rewrite EZ.
  rewrite (map_ext_in (fun k => zsum (gwidths cols c H rows (S g) k)) (fun k => zsum (gwidths cols c H rows g k)) (seq 0 g)).
  - lia.
  - intros k Hk. apply in_seq in Hk. rewrite EL by lia. reflexivity.
Qed.

Lemma horizontal_search maxWidth sep g0 : (1 <= g0)%nat ->
  1 <= slen sep + slen cols - 1 -> slen sep + slen cols - 1 <= 65535 - effective maxWidth ->
  exists g, Search c cols sep maxWidth H rows g0 g /\ Z.of_nat g <= Z.of_nat g0 + slen rows + effective maxWidth + 1.
Proof.
  intros Hg0 Hd1 Hd2. pose proof (effective_range maxWidth) as Heff.
  set (N := Nat.max (S g0) (length rows)).
  set (T := fun g => total sep cols (gwidths cols c H rows g) g mod 65536).
  set (d := slen sep + slen cols - 1) in *.
  assert (HT : forall g, (N <= g)%nat -> T g <= effective maxWidth -> T (S g) = T g + d).
  { intros g Hg Hle. unfold T in *. rewrite wide_total by lia.
    replace (total sep cols (gwidths cols c H rows g) g + slen sep + slen cols - 1) with
      (total sep cols (gwidths cols c H rows g) g + d) by (unfold d; lia).
    pose proof (Z.mod_pos_bound (total sep cols (gwidths cols c H rows g) g) 65536 ltac:(lia)).
    rewrite <- Zplus_mod_idemp_l. apply Z.mod_small. lia. }
  assert (Hgrow : forall j, (forall i, (i <= j)%nat -> T (N + i)%nat <= effective maxWidth) -> Z.of_nat j <= T (N + j)%nat).
  { induction j as [|j IH]; intros Hall.
    - rewrite Nat.add_0_r. unfold T. pose proof (Z.mod_pos_bound (total sep cols (gwidths cols c H rows N) N) 65536 ltac:(lia)). lia.
    - rewrite Nat.add_succ_r, HT by (try lia; apply Hall; lia).
      specialize (IH ltac:(intros; apply Hall; lia)). lia. }
  assert (Hex : exists j, (j <= S (Z.to_nat (effective maxWidth)))%nat /\ effective maxWidth < T (N + j)%nat).
  { assert (Hdec : forall j, (exists i, (i <= j)%nat /\ effective maxWidth < T (N + i)%nat) \/ (forall i, (i <= j)%nat -> T (N + i)%nat <= effective maxWidth)).
    { induction j as [|j [(i & Hi & HL)|IH]].
      - destruct (Z_lt_dec (effective maxWidth) (T (N + 0)%nat)); [left; exists 0%nat; auto|right]. intros i Hi. replace i with 0%nat by lia. lia.
      - left. exists i. split; [lia|auto].
      - destruct (Z_lt_dec (effective maxWidth) (T (N + S j)%nat)); [left; exists (S j); auto|right].
        intros i Hi. destruct (Nat.eq_dec i (S j)) as [->|]; [lia|]. apply IH. lia. }
    destruct (Hdec (S (Z.to_nat (effective maxWidth)))) as [K|K]; [exact K|]. exfalso.
    pose proof (Hgrow _ K). specialize (K (S (Z.to_nat (effective maxWidth))) ltac:(lia)). lia. }
  destruct Hex as (j & Hj & HTj).
  destruct (search_bounded (Acceptable c cols sep maxWidth H rows) (acceptable_or maxWidth sep H) g0 (N + j - 1 - g0) Hg0)
      as (g & H1 & H2 & H3).
  - replace (S (g0 + (N + j - 1 - g0))) with (N + j)%nat by lia. intros HA. apply acceptable_spec in HA; [|lia].
    unfold acceptable_b in HA. cbn [worth_b andb] in HA. unfold T in HTj. lia.
  - exists g. split; [split; [lia|]; auto|]. unfold slen. lia.
Qed.

Lemma horizontal_terminates fuel maxWidth sep : reckoned t cols sep mod 65536 <> 0 ->
  1 <= slen sep + slen cols - 1 -> slen sep + slen cols - 1 <= 65535 - effective maxWidth ->
  slen rows + effective maxWidth + 1 < Z.of_nat fuel ->
  stop (merge H fuel c t all_ok items maxWidth sep true) = Finished.
Proof.
  intros Hr H1 H2 H3. pose proof (estimate_pos t cols sep maxWidth) as Hp.
  assert (Hg : Z.of_nat (g_init sep maxWidth (t := t) (cols := cols)) = estimate t cols sep maxWidth) by (unfold g_init; lia).
  set (g0 := g_init sep maxWidth) in *.
  destruct (horizontal_search maxWidth sep g0 ltac:(lia) H1 H2) as (g & HS & Hb).
  destruct (chosen_exists H g0 g ltac:(lia) (proj1 HS)) as (lines & W & HL & HW).
  rewrite (compact_ok H fuel maxWidth sep g0 g lines W); auto. lia.
Qed.

Lemma horizontal_diverges_full maxWidth sep m g : (2 <= g)%nat -> effective maxWidth = 65535 -> m = H ->
  Acceptable c cols sep maxWidth m rows g.
Proof.
  intros Hg He ->. apply acceptable_spec; auto. unfold acceptable_b. cbn [worth_b andb]. rewrite He.
  pose proof (Z.mod_pos_bound (total sep cols (gwidths cols c H rows g) g) 65536 ltac:(lia)). lia.
Qed.

(** One column: the widths of its cells. *)
Definition first_width (row : list str) : Z := match row with s :: _ => vwidth c s | [] => 0 end.
Definition at_width (line : list (list str)) (k : nat) : Z :=
  match nth_error line k with Some row => first_width row | None => 0 end.

Lemma first_nonneg row : 0 <= first_width row.
Proof. unfold first_width. destruct row; [lia|]. apply u16_range. Qed.
Lemma at_nonneg line k : 0 <= at_width line k.
Proof. unfold at_width. destruct (nth_error line k); [apply first_nonneg|lia]. Qed.

Lemma zsum_map_nonneg {A} (f : A -> Z) l : (forall a, 0 <= f a) -> 0 <= zsum (map f l).
Proof.
  intros Hf. induction l as [|a l IH]; [cbn; lia|]. cbn [map]. change (0 <= f a + zsum (map f l)). specialize (Hf a). lia.
Qed.
Lemma zsum_map_in {A} (f : A -> Z) l a : (forall a, 0 <= f a) -> In a l -> f a <= zsum (map f l).
Proof.
  intros Hf. induction l as [|b l IH]; [intros []|]. cbn [map]. change (zsum (f b :: map f l)) with (f b + zsum (map f l)).
  pose proof (zsum_map_nonneg f l Hf). specialize (Hf b). intros [->|Hin]; [lia|]. specialize (IH Hin). lia.
Qed.
Lemma zsum_map_le {A} (f h : A -> Z) l : (forall a, In a l -> f a <= h a) -> zsum (map f l) <= zsum (map h l).
Proof.
  induction l as [|a l IH]; intros Hl; [cbn; lia|]. cbn [map]. change (f a + zsum (map f l) <= h a + zsum (map h l)).
  specialize (IH ltac:(intros; apply Hl; right; auto)). specialize (Hl a (or_introl eq_refl)). lia.
Qed.
Lemma zsum_map_add {A} (f h : A -> Z) l : zsum (map (fun a => f a + h a) l) = zsum (map f l) + zsum (map h l).
Proof.
  induction l as [|a l IH]; [reflexivity|]. cbn [map].
  change (f a + h a + zsum (map (fun a => f a + h a) l) = f a + zsum (map f l) + (h a + zsum (map h l))). lia.
Qed.
Lemma zsum_swap {A B} (f : A -> B -> Z) la lb :
  zsum (map (fun a => zsum (map (f a) lb)) la) = zsum (map (fun b => zsum (map (fun a => f a b) la)) lb).
Proof.
  induction la as [|a la IH].
  - cbn [map]. induction lb as [|b lb IHb]; [reflexivity|]. cbn [map]. change (0 = 0 + zsum (map (fun _ : B => zsum []) lb)). rewrite <- IHb. reflexivity.
  - cbn [map]. change (zsum (map (f a) lb) + zsum (map (fun a => zsum (map (f a) lb)) la) =
      zsum (map (fun b => f a b + zsum (map (fun a => f a b) la)) lb)). rewrite zsum_map_add. lia.
Qed.

Lemma line_sum line : forall s n, (length line <= n)%nat ->
  zsum (map (fun k => match nth_error line (k - s) with Some row => first_width row | None => 0 end) (seq s n)) = zsum (map first_width line).
Proof.
  induction line as [|row line IH]; intros s n Hn.
  - cbn [map]. clear. assert (H0 : forall l, zsum (map (fun k => match nth_error (@nil (list str)) (k - s) with Some row => first_width row | None => 0 end) l) = 0).
    { induction l as [|x l IH]; [reflexivity|]. cbn [map]. destruct (x - s)%nat; exact IH. }
    apply H0.
  - destruct n as [|n]; [cbn in Hn; lia|]. cbn [seq map]. rewrite Nat.sub_diag. cbn [nth_error].
    change (first_width row + zsum (map (fun k => match nth_error (row :: line) (k - s) with Some row => first_width row | None => 0 end) (seq (S s) n))
      = first_width row + zsum (map first_width line)). f_equal. rewrite <- (IH (S s) n) by (cbn in Hn; lia).
    f_equal. apply map_ext_in. intros k Hk. apply in_seq in Hk. replace (k - s)%nat with (S (k - S s)) by lia. reflexivity.
Qed.

Lemma narrow_total g : (1 <= g)%nat -> (length cols = 1)%nat ->
  zsum (map (fun k => zsum (gwidths cols c H rows g k)) (seq 0 g)) <= zsum (map first_width rows).
Proof.
  intros Hg Hc. pose proof (gwidths_ok cols c H rows g Hg) as HG.
  pose proof (layout_ok H g rows Hg) as HL. set (lines := layout_lines H g rows) in *.
  assert (Hrow : zsum (map first_width rows) = zsum (map (fun line => zsum (map first_width line)) lines)).
  { assert (E1 : concat lines = rows).
    { destruct HL as [[_ [E1 _]]|[-> E1]]; [exact E1|]. fold lines in E1. rewrite E1. destruct (2 <=? g)%nat; reflexivity. }
    rewrite <- E1 at 1. rewrite concat_map, zsum_concat, map_map. reflexivity. }
  rewrite Hrow.
  assert (E2 : zsum (map (fun line => zsum (map first_width line)) lines) =
    zsum (map (fun line => zsum (map (at_width line) (seq 0 g))) lines)).
  { f_equal. apply map_ext_in. intros line Hline. rewrite <- (line_sum line 0 g) by (eapply layout_line_len; eauto).
    f_equal. apply map_ext. intros k. unfold at_width. rewrite Nat.sub_0_r. reflexivity. }
  rewrite E2, zsum_swap. apply zsum_map_le. intros k Hk. apply in_seq in Hk.
  destruct (HG k ltac:(lia)) as [HLk HM]. destruct (gwidths cols c H rows g k) as [|w [|]] eqn:Ew; try (cbn in HLk; lia).
  destruct (HM 0%nat w eq_refl) as [HS _]. change (zsum [w]) with (w + 0). rewrite Z.add_0_r.
  destruct HS as [->|(line & row & s & Hin & Hrw & Hs & ->)].
  - apply zsum_map_nonneg. intros. apply at_nonneg.
  - eapply Z.le_trans; [|apply (zsum_map_in (fun line => at_width line k) lines line); [intros; apply at_nonneg|exact Hin]].
    unfold at_width. rewrite Hrw. unfold first_width. destruct row as [|s0 row]; [discriminate|]. injection Hs as ->. lia.
Qed.

Lemma horizontal_diverges fuel maxWidth sep : reckoned t cols sep mod 65536 <> 0 ->
  (effective maxWidth = 65535 \/
   (sep = [] /\ length cols = 1%nat /\ zsum (map first_width rows) <= effective maxWidth)) ->
  forall ok, merge H fuel c t ok items maxWidth sep true = {| written := []; stop := Running |}.
Proof.
  intros Hr HD ok. destruct (merge_compact (c := c) HP H fuel ok maxWidth sep Hr) as [[K0 _]|(g' & K1 & K2 & K3 & K4)]; [exact K0|].
  exfalso. pose proof (g_init_pos (t := t) (cols := cols) sep maxWidth) as Hp.
  assert (HA : acceptable_b c cols sep maxWidth H rows (S g') = true); [|congruence].
  destruct HD as [HD|(-> & Hc & HD)].
  - apply acceptable_spec; [lia|]. apply horizontal_diverges_full; auto. lia.
  - unfold acceptable_b. cbn [worth_b andb]. apply Z.leb_le.
    pose proof (effective_range maxWidth) as Heff. pose proof (narrow_total (S g') ltac:(lia) Hc) as HN.
    assert (ET : total [] cols (gwidths cols c H rows (S g')) (S g') = zsum (map (fun k => zsum (gwidths cols c H rows (S g') k)) (seq 0 (S g')))).
    { unfold total, slen. rewrite Hc. cbn [length]. lia. }
    rewrite ET. rewrite Z.mod_small; [lia|]. split; [|lia].
    apply zsum_map_nonneg. intros k. unfold gwidths. apply zsum_map_nonneg. intros i.
    pose proof (maxOf_max c rows i (gidx H (length rows) (S g') (Z.of_nat k))) as [_ HM]. apply HM. auto.
Qed.

(** ** Panics *)
Lemma merge_stops m fuel maxWidth sep compact : reckoned t cols sep mod 65536 <> 0 ->
  stop (merge m fuel c t all_ok items maxWidth sep compact) = Finished
  \/ (compact = true /\ stop (merge m fuel c t all_ok items maxWidth sep compact) = Running).
Proof.
  intros Hr. destruct compact.
  - destruct (merge_compact (c := c) HP m fuel all_ok maxWidth sep Hr) as [[K0 _]|(g' & K1 & K2 & K3 & K4)].
    + rewrite K0. auto.
    + rewrite K4. unfold all_ok. rewrite write_all. auto.
  - left. rewrite (merge_plain HP) by auto. unfold all_ok. rewrite write_all. reflexivity.
Qed.

Lemma divide_iff m fuel maxWidth sep compact :
  stop (merge m fuel c t all_ok items maxWidth sep compact) = Panicked DivideByZero <-> reckoned t cols sep mod 65536 = 0.
Proof.
  split.
  - intros HS. destruct (Z.eq_dec (reckoned t cols sep mod 65536) 0) as [|Hr]; [auto|].
    destruct (merge_stops m fuel maxWidth sep compact Hr) as [K|[_ K]]; congruence.
  - intros Hz. rewrite (merge_divzero HP) by auto. reflexivity.
Qed.

End Printing.

(** Only the rows matter: nothing else is asked of the items. *)
Lemma merge_rows_only m fuel c t cols items items' rows ok maxWidth sep compact :
  Printable t cols items rows -> Printable t cols items' rows ->
  merge (Item := Item) (Val := Val) (E := E) m fuel c t ok items maxWidth sep compact =
  merge m fuel c t ok items' maxWidth sep compact.
Proof.
  intros HP HP'. destruct (Z.eq_dec (reckoned t cols sep mod 65536) 0) as [Hz|Hr].
  { rewrite (merge_divzero HP), (merge_divzero HP') by auto. reflexivity. }
  destruct compact; [|rewrite (merge_plain HP), (merge_plain HP') by auto; reflexivity].
  destruct (merge_compact (c := c) HP m fuel ok maxWidth sep Hr) as [[K0 K]|(g & K1 & K2 & K3 & K4)];
  destruct (merge_compact (c := c) HP' m fuel ok maxWidth sep Hr) as [[J0 J]|(g' & J1 & J2 & J3 & J4)].
  - congruence.
  - exfalso. rewrite K in J3 by lia. discriminate.
  - exfalso. rewrite J in K3 by lia. discriminate.
  - assert (g' = g).
    { destruct (lt_eq_lt_dec g g') as [[L|L]|L]; auto; exfalso.
      - rewrite J2 in K3 by lia. discriminate.
      - rewrite K2 in J3 by lia. discriminate. }
    subst g'. congruence.
Qed.

Lemma merge_clamped m fuel c (t : Table Item Val E) ok items maxWidth sep compact :
  merge m fuel c t ok items maxWidth sep compact = merge m fuel c t ok items (effective maxWidth) sep compact.
Proof.
  assert (EC : clampWidth (effective maxWidth) = clampWidth maxWidth).
  { rewrite !clamp_effective. pose proof (effective_range maxWidth). unfold effective at 1.
    destruct (Z.gtb_spec (effective maxWidth) 65535); [lia|]. apply Z.mod_small. lia. }
  destruct m; unfold merge, MergeRowsHorizontal, MergeRowsVertical, initialGroupCount; rewrite EC; reflexivity.
Qed.

Lemma merge_nil_column m fuel c (t : Table Item Val E) ok items maxWidth sep compact :
  In None (Columns (tSpec t)) ->
  merge m fuel c t ok items maxWidth sep compact = {| written := []; stop := Panicked NilDereference |}.
Proof.
  intros HN. assert (ET : forall w, TableWidth t w = Panic NilDereference :> outcome E Z).
  { intros w. unfold TableWidth. generalize (u16 (u16 (u16 (ColumnCount (tSpec t)) - 1) * w)).
    induction (Columns (tSpec t)) as [|col l IH]; [contradiction|]. intros z. destruct HN as [->|HN]; [reflexivity|].
    cbn [tableWidth_loop]. destruct col; [apply IH; auto|reflexivity]. }
  destruct m; unfold merge, MergeRowsHorizontal, MergeRowsVertical, initialGroupCount; rewrite ET; reflexivity.
Qed.

(** The result does not depend on the step budget. *)
Lemma merge_fuel m fuel fuel' c t cols items rows ok maxWidth sep compact :
  Printable (Item := Item) (Val := Val) (E := E) t cols items rows -> (fuel <= fuel')%nat ->
  stop (merge m fuel c t ok items maxWidth sep compact) <> Running ->
  merge m fuel' c t ok items maxWidth sep compact = merge m fuel c t ok items maxWidth sep compact.
Proof.
  intros HP Hf HN. destruct (Z.eq_dec (reckoned t cols sep mod 65536) 0) as [Hz|Hr].
  { rewrite !(merge_divzero HP) by auto. reflexivity. }
  destruct compact; [|rewrite !(merge_plain HP) by auto; reflexivity].
  destruct (merge_compact (c := c) HP m fuel ok maxWidth sep Hr) as [[K0 K]|(g & K1 & K2 & K3 & K4)];
  destruct (merge_compact (c := c) HP m fuel' ok maxWidth sep Hr) as [[J0 J]|(g' & J1 & J2 & J3 & J4)].
  - rewrite K0 in HN. cbn in HN. congruence.
  - rewrite K0 in HN. cbn in HN. congruence.
  - exfalso. rewrite J in K3 by lia. discriminate.
  - assert (g' = g).
    { destruct (lt_eq_lt_dec g g') as [[L|L]|L]; auto; exfalso.
      - rewrite J2 in K3 by lia. discriminate.
      - rewrite K2 in J3 by lia. discriminate. }
    subst g'. congruence.
Qed.
End Types.
