(** * HeadlineProofs: the header repeated stands above merged rows. *)
From Coq Require Import ZifyBool ZifyNat.
From Verif Require Import GoBase Utf8 Runewidth ConditionSpec RunewidthProofs Width WidthProofs TextSpec AlignSpec AlignProofs Table TableContract TableOpsProofs StringWidthProofs
  Merge MergeSpec MergeLayout MergeRender MergeSearch MergeTheory MergeWidths MergePlan TerminalSpec TerminalProofs TerminalMerge VisualLawsProofs HeadlineSpec.
Local Open Scope Z_scope.

Section Types.
Context {Item Val E : Type}.
Notation Col := (Column Item Val E).

(** A column that centres. *)
Definition centred (c : Condition) (col : Col) : Col :=
  {| colGetter := colGetter col; colAlignment := Some (align ACenter c);
     colName := colName col; colTitle := colTitle col; colShortTitle := colShortTitle col |}.
Lemma centred_built c cols : Forall (BuiltIn c) (map (centred c) cols).
Proof. rewrite Forall_map. apply Forall_forall. intros col _. right. exists ACenter. reflexivity. Qed.

Lemma title_header (col : Col) w : title_for col w = header_text w (colTitle col) (colShortTitle col).
Proof. reflexivity. Qed.

Lemma header_as_cells c (t : Table Item Val E) cols : (forall col, In col cols -> 0 < Width t (colName col)) ->
  map (padColumnHeader c t) cols
  = cells c (map (centred c) cols) (recorded t cols) (map (fun col : Col => title_for col (Width t (colName col))) cols).
Proof.
  intros Hp. unfold recorded. induction cols as [|col cols IH]; [reflexivity|]. cbn [map cells]. rewrite IH by (intros; apply Hp; right; auto).
  rewrite header_cell by (apply Hp; left; auto). reflexivity.
Qed.

Lemma concat_join (sep : str) (l : list str) : l <> [] -> concat (map (fun s => s ++ sep) l) = TableContract.join sep l ++ sep.
Proof.
  induction l as [|a l IH]; [congruence|]. intros _. destruct l as [|b l].
  - cbn. rewrite app_nil_r. reflexivity.
  - change (TableContract.join sep (a :: b :: l)) with (a ++ sep ++ TableContract.join sep (b :: l)).
    change (concat (map (fun s => s ++ sep) (a :: b :: l))) with ((a ++ sep) ++ concat (map (fun s => s ++ sep) (b :: l))).
    rewrite IH by discriminate. rewrite <- !app_assoc. reflexivity.
Qed.

Lemma header_block c (t : Table Item Val E) cols : Columns (tSpec t) = map Some cols -> cols <> [] ->
  (forall col, In col cols -> 0 < Width t (colName col)) ->
  FormatHeader c t [space] = Ok (block c (map (centred c) cols) (recorded t cols) (map (fun col : Col => title_for col (Width t (colName col))) cols) ++ [space; x0a]) :> outcome E str.
Proof.
  intros HC Hne Hp. rewrite (header_line c t [space] cols HC). f_equal.
  rewrite <- (map_map (padColumnHeader c t) (fun s => s ++ [space])), concat_join by (destruct cols; [congruence|discriminate]).
  rewrite header_as_cells by auto. unfold block. rewrite <- app_assoc. reflexivity.
Qed.

Lemma repeat_blocks c (cols : list Col) ws row g : forall s, blocks_from c cols (fun _ => ws) s (repeat row g) = repeat (block c cols ws row) g.
Proof. induction g as [|g IH]; intros s; [reflexivity|]. cbn [repeat blocks_from]. rewrite IH. reflexivity. Qed.

Lemma styled_nil_ : Styled [].
Proof. apply st_end. split; constructor. Qed.

(** Titles of styled text, columns of some width. *)
Lemma titles_fit c (t : Table Item Val E) cols : Reachable c -> (forall name, 0 <= Width t name < 65536) ->
  Forall (fun col : Col => Styled (colTitle col) /\ Styled (colShortTitle col)) cols ->
  Fits c (recorded t cols) (map (fun col : Col => title_for col (Width t (colName col))) cols).
Proof.
  intros Hc Hw HT i s w Hs Hwi. unfold recorded in Hwi. rewrite nth_error_map in Hs, Hwi.
  destruct (nth_error cols i) as [col|] eqn:Ec; [|discriminate]. injection Hs as <-. injection Hwi as <-.
  rewrite Forall_forall in HT. destruct (HT col (nth_error_In _ _ Ec)) as [T1 T2]. specialize (Hw (colName col)).
  set (w := Width t (colName col)) in *. rewrite title_header.
  assert (S1 : Styled (header_text w (colTitle col) (colShortTitle col))) by (apply header_text_cases; auto using styled_nil_).
  pose proof (header_text_len w (colTitle col) (colShortTitle col) ltac:(lia)) as HL.
  pose proof (raw_valid_bytes c _ Hc (styled_valid _ S1)) as HB.
  assert (SC : StyledCell c (header_text w (colTitle col) (colShortTitle col))) by (split; [exact S1|lia]).
  split; [exact SC|]. rewrite styled_vwidth by auto. lia.
Qed.

Lemma headline_shown c (t : Table Item Val E) cols sep g : Reachable c -> Columns (tSpec t) = map Some cols -> cols <> [] ->
  (forall name, 0 <= Width t name < 65536) -> (forall col, In col cols -> 0 < Width t (colName col)) ->
  Forall (fun col : Col => Styled (colTitle col) /\ Styled (colShortTitle col)) cols -> Styled sep ->
  exists header, FormatHeader c t [space] = Ok (header ++ [space; x0a]) :> outcome E str
    /\ (forall k i col, (k < g)%nat -> nth_error cols i = Some col ->
        exists before p q after st st', headline sep header g = before ++ (spaces p ++ title_for col (Width t (colName col)) ++ spaces q) ++ after
          /\ show c home before = mkT Ground (cell_start c cols sep (fun _ => recorded t cols) k i) st
          /\ show c home (before ++ spaces p ++ title_for col (Width t (colName col)) ++ spaces q)
             = mkT Ground (cell_start c cols sep (fun _ => recorded t cols) k i + Width t (colName col)) st')
    /\ Styled header /\ rawWidth c header = zsum (recorded t cols) + slen cols - 1.
Proof.
  intros Hc HC Hne Hw Hp HT Hs. set (titles := map (fun col : Col => title_for col (Width t (colName col))) cols).
  set (hcols := map (centred c) cols).
  assert (HL : length (recorded t cols) = length hcols) by (unfold recorded, hcols; rewrite !map_length; reflexivity).
  assert (HTL : (length hcols <= length titles)%nat) by (unfold titles, hcols; rewrite !map_length; lia).
  assert (HR : Forall (fun w => 0 <= w < 65536) (recorded t cols)).
  { unfold recorded. rewrite Forall_map. apply Forall_forall. intros. apply Hw. }
  assert (HF : Fits c (recorded t cols) titles) by (apply titles_fit; auto).
  assert (Hhn : hcols <> []) by (unfold hcols; destruct cols; [congruence|discriminate]).
  exists (block c hcols (recorded t cols) titles). split; [apply header_block; auto|]. split.
  - intros k i col Hk Hi.
    assert (Hi1 : nth_error titles i = Some (title_for col (Width t (colName col)))) by (unfold titles; rewrite nth_error_map, Hi; reflexivity).
    assert (Hi2 : nth_error hcols i = Some (centred c col)) by (unfold hcols; rewrite nth_error_map, Hi; reflexivity).
    assert (Hk1 : nth_error (repeat titles g) k = Some titles).
    { clear - Hk. revert k Hk. induction g as [|g IH]; intros [|k] Hk; cbn; try lia; auto. apply IH. lia. }
    destruct (line_shown c hcols sep (fun _ => recorded t cols) g (repeat titles g) Hc Hhn (centred_built c cols) Hs) with (k := k) (row := titles) (i := i)
      (s := title_for col (Width t (colName col))) (col := centred c col) as (before & p & q & after & st & st' & E1 & E2 & E3 & _); auto.
    { intros j row Hj. apply nth_error_In, repeat_spec in Hj. subst row. auto. }
    assert (ES : cell_start c hcols sep (fun _ => recorded t cols) k i = cell_start c cols sep (fun _ => recorded t cols) k i).
    { unfold cell_start, group_width, hcols, slen. rewrite map_length. reflexivity. }
    rewrite ES in E2, E3. exists before, p, q, after, st, st'. split; [|split; [exact E2|]].
    + rewrite <- E1. unfold headline, line_text, blocks. rewrite repeat_blocks, repeat_length, Nat.ltb_irrefl, app_nil_r. reflexivity.
    + rewrite E3. f_equal. f_equal. unfold recorded. apply nth_error_nth. rewrite nth_error_map, Hi. reflexivity.
  - destruct (cells_raw c hcols Hc (centred_built c cols) (recorded t cols) titles HL HTL HR HF) as [C1 C2].
    destruct (join_raw c [space] (cells c hcols (recorded t cols) titles) Hc styled_space C1) as [J1 J2].
    { intros K. rewrite K in C2. unfold recorded in C2. destruct cols; [congruence|discriminate]. }
    split; [exact J1|]. unfold block. rewrite J2, C2, space_raw by auto. unfold slen.
    assert (length (cells c hcols (recorded t cols) titles) = length cols) as ->.
    { rewrite <- (map_length (rawWidth c)), C2. unfold recorded. apply map_length. }
    assert (0 < length cols)%nat by (destruct cols; [congruence|cbn; lia]). lia.
Qed.

Theorem headline_above c (t : Table Item Val E) cols items rows :
  Printable t cols items rows -> Reachable c -> Forall (BuiltIn c) cols ->
  Forall (Forall (fun s => Styled s /\ rawWidth c s < 65536)) rows ->
  (forall name, 0 <= Width t name < 65536) -> (forall col, In col cols -> 0 < Width t (colName col)) ->
  Forall (fun col : Col => Styled (colTitle col) /\ Styled (colShortTitle col)) cols ->
  forall m fuel sep maxWidth, Styled sep -> reckoned t cols sep mod 65536 <> 0 -> FitsRecorded c t cols rows ->
  let r := merge m fuel c t (fun _ => true) items maxWidth sep false in
  exists header g lines (start : nat -> nat -> Z),
    FormatHeader c t [space] = Ok (header ++ [space; x0a]) :> outcome E str
    /\ Z.of_nat g = estimate t cols sep maxWidth /\ stop r = Finished /\ Layout m g rows lines /\ length (written r) = length lines
    /\ (forall k i col, (k < g)%nat -> nth_error cols i = Some col ->
        exists before p q after st st', headline sep header g = before ++ (spaces p ++ title_for col (Width t (colName col)) ++ spaces q) ++ after
          /\ show c home before = mkT Ground (start k i) st
          /\ show c home (before ++ spaces p ++ title_for col (Width t (colName col)) ++ spaces q) = mkT Ground (start k i + Width t (colName col)) st')
    /\ (forall l line txt k row i s col, nth_error lines l = Some line -> nth_error (written r) l = Some txt ->
        nth_error line k = Some row -> nth_error row i = Some s -> nth_error cols i = Some col ->
        exists before p q after st st', txt = before ++ (spaces p ++ s ++ spaces q) ++ after ++ [x0a]
          /\ show c home before = mkT Ground (start k i) st
          /\ show c home (before ++ spaces p ++ s ++ spaces q) = mkT Ground (start k i + Width t (colName col)) st').
Proof.
  intros P Hc Hb Hst Hw Hpos HT m fuel sep maxWidth Hs Hr HF r.
  assert (Hf : stop r = Finished).
  { unfold r. rewrite (merge_plain P) by exact Hr. rewrite write_all. reflexivity. }
  assert (K : exists g lines W, Plan c t cols sep maxWidth m rows false g lines W /\ written r = printed c cols sep W g lines).
  { destruct m; [exact (horizontal_output c t cols items rows P fuel maxWidth sep false Hr Hf)
                |exact (vertical_output c t cols items rows P fuel maxWidth sep false Hr Hf)]. }
  destruct K as (g & lines & W & Pl & Ew). destruct Pl as (g0 & Hg0 & -> & HL & HW).
  destruct HW as [[_ ->]|[HX _]]; [|lia].
  assert (Hne : cols <> []) by (intros ->; apply Hr; reflexivity).
  destruct (headline_shown c t cols sep g0 Hc (pr_columns _ _ _ _ P) Hne Hw Hpos HT Hs) as (header & E1 & E2 & _).
  exists header, g0, lines, (cell_start c cols sep (fun _ => recorded t cols)).
  split; [exact E1|]. split; [exact Hg0|]. split; [exact Hf|]. split; [exact HL|]. rewrite Ew. unfold printed. rewrite map_length. split; [reflexivity|].
  split; [exact E2|].
  intros l line txt k row i s col Hl Ht Hk Hi Hcol. rewrite nth_error_map, Hl in Ht. injection Ht as <-.
  pose proof (estimate_pos t cols sep maxWidth) as Hp.
  assert (Hin : forall r0, In r0 line -> In r0 rows).
  { intros r0 H0. eapply line_rows with (g := g0); eauto; [lia|eapply nth_error_In; eauto]. }
  rewrite Forall_forall in Hst.
  assert (HI : IsolatedCells cols rows).
  { intros r0 j s0 H0 H1 _. specialize (Hst r0 H0). rewrite Forall_forall in Hst. destruct (Hst s0 (nth_error_In _ _ H1)) as [H2 _].
    split; [apply styled_not_prev|apply styled_not_next]; auto. }
  assert (HA : Aligned c cols (fun _ => recorded t cols) g0 line).
  { eapply recorded_aligned with (g := g0); eauto; [lia|eapply nth_error_In; eauto]. }
  destruct HA as [A1 A2 A3 A4]. rewrite Forall_forall in A2.
  destruct (line_shown c cols sep (fun _ => recorded t cols) g0 line Hc Hne Hb Hs) with (k := k) (row := row) (i := i) (s := s) (col := col)
    as (before & p & q & after & st & st' & F1 & F2 & F3 & _); auto.
  - intros j r0 Hj. destruct (A3 j) as [A5 A6]; [apply nth_some_lt in Hj; lia|]. split; auto. split; auto.
    split; [apply A2; eapply nth_error_In; eauto|].
    intros x y w Hy Hwx. destruct (A4 j r0 Hj x y w Hy Hwx) as [A7 _]. split; [|exact A7].
    specialize (Hst r0 (Hin r0 (nth_error_In _ _ Hj))). rewrite Forall_forall in Hst. apply (Hst y (nth_error_In _ _ Hy)).
  - exists before, p, q, after, st, st'. rewrite F1, <- !app_assoc. split; [reflexivity|]. split; [exact F2|].
    rewrite F3. f_equal. f_equal. unfold recorded. apply nth_error_nth. rewrite nth_error_map, Hcol. reflexivity.
Qed.

(** The number of items in a line, from what the methods return. *)
Lemma groups_number (t : Table Item Val E) cols sep maxWidth : Columns (tSpec t) = map Some cols ->
  exists tw, TableWidth t (slen sep mod 65536) = Ok tw :> outcome E Z
    /\ estimate t cols sep maxWidth = Z.max 1 (((effective maxWidth + slen sep) mod 65536) / ((tw + slen sep) mod 65536)).
Proof.
  intros HC. eexists. split; [apply (TableWidth_spec t (slen sep mod 65536) cols HC)|]. unfold estimate, reckoned, recorded.
  f_equal. f_equal. set (a := zsum _). set (n := slen cols). set (b := slen sep).
  assert (K : (a + (n - 1) * (b mod 65536)) mod 65536 = (a + (n - 1) * b) mod 65536) by (rewrite Zplus_mod, Zmult_mod_idemp_r, <- Zplus_mod; reflexivity).
  rewrite K, Zplus_mod_idemp_l. f_equal. lia.
Qed.

(** The headline fits where the lines fit. *)
Lemma headline_fits c (t : Table Item Val E) cols sep maxWidth header g : Reachable c -> Columns (tSpec t) = map Some cols -> cols <> [] ->
  (forall name, 0 <= Width t name < 65536) -> (forall col, In col cols -> 0 < Width t (colName col)) ->
  Forall (fun col : Col => Styled (colTitle col) /\ Styled (colShortTitle col)) cols -> Styled sep -> sep <> [] ->
  0 <= maxWidth -> maxWidth + slen sep < 65536 -> reckoned t cols sep < 65536 -> zsum (recorded t cols) + slen cols - 1 <= maxWidth ->
  FormatHeader c t [space] = Ok (header ++ [space; x0a]) :> outcome E str -> Z.of_nat g = estimate t cols sep maxWidth ->
  tMode (show c home (headline sep header g)) = Ground /\ 0 <= tCol (show c home (headline sep header g)) <= maxWidth.
Proof.
  intros Hc HC Hne Hw Hp HT Hs Hsn Hm Hms Hr Hone EH Hg.
  destruct (headline_shown c t cols sep g Hc HC Hne Hw Hp HT Hs) as (h & E1 & _ & S1 & R1). rewrite EH in E1.
  injection E1 as E1. apply app_inv_tail in E1. subst h.
  pose proof (estimate_pos t cols sep maxWidth) as Hge.
  destruct (join_raw c sep (repeat header g) Hc Hs) as [J1 J2].
  { apply Forall_forall. intros x Hx. apply repeat_spec in Hx. subst x. exact S1. }
  { destruct g; [lia|discriminate]. }
  destruct (show_styled c _ Hc J1) as (st & S). unfold headline, home. rewrite S. cbn [tMode tCol]. split; [reflexivity|].
  rewrite J2. unfold slen. rewrite repeat_length.
  assert (Z1 : zsum (map (rawWidth c) (repeat header g)) = Z.of_nat g * rawWidth c header).
  { clear. induction g as [|g IH]; [reflexivity|]. cbn [repeat map]. rewrite zsum_cons, IH. lia. }
  rewrite Z1, R1. pose proof (styled_nonneg c sep Hc Hs) as N1. pose proof (raw_valid_bytes c sep Hc (styled_valid _ Hs)) as N2.
  assert (L1 : 1 <= slen sep) by (unfold slen; destruct sep; [congruence|cbn [length]; lia]).
  assert (L2 : 1 <= slen cols) by (unfold slen; destruct cols; [congruence|cbn [length]; lia]).
  assert (ZR : 0 <= zsum (recorded t cols)).
  { unfold recorded. clear - Hw. induction cols as [|x l IH]; [cbn; lia|]. cbn [map]. rewrite zsum_cons. specialize (Hw (colName x)). lia. }
  pose proof Hg as Hg'. unfold estimate, effective in Hg. destruct (Z.gtb_spec maxWidth 65535); [lia|]. rewrite (Z.mod_small maxWidth) in Hg by lia.
  rewrite !Z.mod_small in Hg by (unfold reckoned in *; nia). unfold reckoned in Hg, Hr.
  assert (P1 : 0 < zsum (recorded t cols) + slen cols * slen sep) by nia.
  assert (G : g = 1%nat \/ Z.of_nat g * (zsum (recorded t cols) + slen cols * slen sep) <= maxWidth + slen sep).
  { destruct (Z.max_spec 1 ((maxWidth + slen sep) / (zsum (recorded t cols) + slen cols * slen sep))) as [[_ M]|[_ M]]; rewrite M in Hg; [right|left; lia].
    rewrite Hg. rewrite Z.mul_comm. apply Z.mul_div_le. exact P1. }
  set (a := zsum (recorded t cols)) in *. set (n := slen cols) in *. set (w := rawWidth c sep) in *. set (b := slen sep) in *. set (z := Z.of_nat g) in *.
  assert (Z2 : 1 <= z) by lia. assert (GZ : z = 1 \/ z * (a + n * b) <= maxWidth + b) by (destruct G as [G|G]; [left; unfold z; lia|right; exact G]).
  clear - N1 N2 L1 L2 ZR Z2 GZ Hone. clearbody a n w b z.
  assert (Q1 : 0 <= z * (a + n - 1)) by (apply Z.mul_nonneg_nonneg; lia).
  assert (Q2 : 0 <= (z - 1) * w) by (apply Z.mul_nonneg_nonneg; lia). split; [lia|].
  destruct GZ as [->|G]; [lia|].
  assert (Q3 : (z - 1) * w <= (z - 1) * b) by (apply Z.mul_le_mono_nonneg_l; lia).
  assert (Q4 : (n - 1) * 1 <= (n - 1) * b) by (apply Z.mul_le_mono_nonneg_l; lia).
  assert (Q5 : z * (n - 1) <= z * ((n - 1) * b)) by (apply Z.mul_le_mono_nonneg_l; lia).
  replace (z * (a + n * b)) with (z * a + z * ((n - 1) * b) + z * b) in G by ring.
  replace (z * (a + n - 1)) with (z * a + z * (n - 1)) by ring.
  replace ((z - 1) * b) with (z * b - b) in Q3 by ring. lia.
Qed.
End Types.
