(** * FarProofs: how far the compact search gets. *)
From Verif Require Import GoBase Runewidth Width AlignSpec Table Merge TableContract TableOpsProofs WidthTheory
  MergeSpec MergeLayout MergeRender MergeSearch MergeTheory MergePlan MergeScreens MergeRecorded FarSpec.
From Coq Require Import ZifyBool ZifyNat.
Local Open Scope Z_scope.

(** ** Vertically: as long as each group saves a line *)
Lemma saves n g : (1 <= g)%nat -> (1 <= n)%nat ->
  (g * lineCount n (S g) < n)%nat <-> (lineCount n (S g) < lineCount n g)%nat.
Proof.
  intros Hg Hn. pose proof (lineCount_spec n g Hg Hn) as [A B].
  set (L := lineCount n g) in *. set (L' := lineCount n (S g)) in *. split; intros K.
  - destruct (le_lt_dec L L') as [C|C]; [|exact C]. pose proof (Nat.mul_le_mono_l _ _ g C). lia.
  - assert (C : (L' <= L - 1)%nat) by lia. pose proof (Nat.mul_le_mono_l _ _ g C). lia.
Qed.

(** Two steps that save a line each. *)
Lemma two_steps n g : (1 <= g)%nat -> (1 <= n)%nat -> (lineCount n (S g) < lineCount n g)%nat ->
  (lineCount n (S (S g)) < lineCount n (S g))%nat -> (S (S g) * g < 2 * (n - 1))%nat.
Proof.
  intros Hg Hn K1 K2. destruct n as [|N]; [lia|]. unfold lineCount in *. replace (S N - 1)%nat with N by lia.
  pose proof (Nat.div_mod N g ltac:(lia)) as D1. pose proof (Nat.div_mod N (S (S g)) ltac:(lia)) as D2.
  pose proof (Nat.mod_upper_bound N (S (S g)) ltac:(lia)) as U2.
  set (a := (N / g)%nat) in *. set (b := (N / S (S g))%nat) in *. set (r := (N mod S (S g))%nat) in *. set (q := (N mod g)%nat) in *.
  set (mid := (N / S g)%nat) in *. assert (C : (b + 2 <= a)%nat) by lia.
  (* g (b+2) <= N, N < (g+2)(b+1); so N g < (g+2) g (b+1) <= (g+2)(N - g) *)
  pose proof (Nat.mul_le_mono_l _ _ g C) as M. assert (M1 : (g * (b + 1) + g <= N)%nat) by lia.
  assert (M2 : (N < S (S g) * (b + 1))%nat) by lia.
  assert (M3 : (g * N < g * (S (S g) * (b + 1)))%nat) by (apply Nat.mul_lt_mono_pos_l; lia).
  replace (g * (S (S g) * (b + 1)))%nat with (S (S g) * (g * (b + 1)))%nat in M3 by lia.
  assert (M4 : (S (S g) * (g * (b + 1)) <= S (S g) * (N - g))%nat) by (apply Nat.mul_le_mono_l; lia).
  rewrite Nat.mul_sub_distr_l in M4. assert (S (S g) * g <= S (S g) * N)%nat by (apply Nat.mul_le_mono_l; lia). lia.
Qed.

Section Types.
Context {Item Val E : Type}.

Theorem vertical_worth (rows : list (list str)) g : rows <> [] -> (1 <= g)%nat ->
  (Worth V rows (S g) <-> forall lines lines', Layout V g rows lines -> Layout V (S g) rows lines' -> (length lines' < length lines)%nat).
Proof.
  intros Hr Hg. assert (Hn : (1 <= length rows)%nat) by (destruct rows; [congruence|cbn [length]; lia]).
  rewrite worth_spec by lia. cbn [worth_b]. rewrite Nat.ltb_lt. replace (S g - 1)%nat with g by lia. rewrite (saves _ g Hg Hn). split.
  - intros K lines lines' HL HL'. apply layout_is in HL; [|lia]. apply layout_is in HL'; [|lia]. subst. rewrite !layout_len. exact K.
  - intros K. specialize (K _ _ (layout_ok V g rows Hg) (layout_ok V (S g) rows ltac:(lia))). rewrite !layout_len in K. exact K.
Qed.

Lemma search_far c (cols : list (Column Item Val E)) sep w rows g0 g : rows <> [] -> (1 <= g0)%nat -> Search c cols sep w V rows g0 g ->
  (g <= S g0 \/ g * (g - 2) < 2 * (length rows - 1))%nat.
Proof.
  intros Hr Hg0 (S1 & S2 & _). assert (Hn : (1 <= length rows)%nat) by (destruct rows; [congruence|cbn [length]; lia]).
  destruct (le_lt_dec g (S g0)) as [L|L]; [left; exact L|right].
  assert (St : forall h, (g0 <= h)%nat -> (S h <= g)%nat -> (lineCount (length rows) (S h) < lineCount (length rows) h)%nat).
  { intros h H1 H2. apply saves; [lia|exact Hn|]. destruct (S2 (S h)) as [Wh _]; [lia|]. apply worth_spec in Wh; [|lia].
    cbn [worth_b] in Wh. apply Nat.ltb_lt in Wh. replace (S h - 1)%nat with h in Wh by lia. exact Wh. }
  destruct g as [|[|g]]; [lia|lia|]. pose proof (two_steps _ g ltac:(lia) Hn (St g ltac:(lia) ltac:(lia)) (St (S g) ltac:(lia) ltac:(lia))) as T.
  replace (S (S g) - 2)%nat with g by lia. exact T.
Qed.

Section Printing.
Context {c : Condition} {t : Table Item Val E} {cols : list (Column Item Val E)} {items : FormattedItemList E} {rows : list (list str)}.
Hypothesis HP : Printable t cols items rows.
Hypothesis Hrows : rows <> [].

Theorem vertical_far fuel w sep : reckoned t cols sep mod 65536 <> 0 ->
  let r := merge V fuel c t (fun _ => true) items w sep true in stop r = Finished ->
  let n := slen rows in let L := slen (written r) in
  n <= L * (estimate t cols sep w + 1) \/ (n - L) * (n - L) < 2 * n * (L * L).
Proof.
  cbv zeta. intros Hz Hst. destruct (plan_output HP V fuel w sep true Hz Hst) as (g & lines & W & (g0 & Hg0 & HS & HL & _) & E1).
  rewrite E1. cbn [written]. unfold printed, slen. rewrite map_length. pose proof (estimate_pos t cols sep w) as Hp.
  assert (Hn : (1 <= length rows)%nat) by (destruct rows; [congruence|cbn [length]; lia]).
  assert (Hg : (1 <= g)%nat) by (destruct HS; lia). apply layout_is in HL; [|exact Hg]. subst lines. rewrite layout_len.
  pose proof (lineCount_spec (length rows) g Hg Hn) as [A B]. pose proof (lineCount_pos (length rows) g Hn) as P.
  set (n := length rows) in *. set (L := lineCount n g) in *.
  assert (HLn : (L <= n)%nat). { assert ((L - 1) * 1 <= (L - 1) * g)%nat by (apply Nat.mul_le_mono_l; lia). lia. }
  destruct (search_far c cols sep w rows g0 g Hrows ltac:(lia) HS) as [K|K].
  - left. rewrite <- Hg0. assert (L * g <= L * (g0 + 1))%nat by (apply Nat.mul_le_mono_l; lia). lia.
  - right. fold n in K.
    assert (K1 : ((g - 1) * (g - 1) < 2 * n)%nat).
    { destruct g as [|[|g]]; [lia|cbn; lia|]. replace (S (S g) - 2)%nat with g in K by lia. replace (S (S g) - 1)%nat with (S g) by lia. lia. }
    assert (K2 : (n - L <= L * (g - 1))%nat) by (rewrite Nat.mul_sub_distr_l; lia).
    assert (K3 : ((n - L) * (n - L) <= (L * (g - 1)) * (L * (g - 1)))%nat) by (apply Nat.mul_le_mono; exact K2).
    replace ((L * (g - 1)) * (L * (g - 1)))%nat with ((L * L) * ((g - 1) * (g - 1)))%nat in K3 by lia.
    assert (K4 : (0 < L * L)%nat) by (apply Nat.mul_pos_pos; lia).
    pose proof (proj1 (Nat.mul_lt_mono_pos_l (L * L) _ _ K4) K1) as K5. replace (L * L * (2 * n))%nat with (2 * n * (L * L))%nat in K5 by lia.
    assert (K6 : ((n - L) * (n - L) < 2 * n * (L * L))%nat) by lia. apply Nat2Z.inj_lt in K6. rewrite !Nat2Z.inj_mul, Nat2Z.inj_sub in K6 by exact HLn. exact K6.
Qed.

(** ** Rows that get narrower *)
Lemma maxOf_is (i : nat) js M : (js = [] /\ M = 0 \/ exists j, In j js /\ cellw c rows i j = M) ->
  (forall j, In j js -> cellw c rows i j <= M) -> maxOf c rows i js = M.
Proof.
  intros K1 K2. destruct (maxOf_max c rows i js) as [A B]. destruct K1 as [[-> ->]|(j & Hj & Ej)].
  - reflexivity.
  - apply Z.le_antisymm.
    + destruct A as [->|(j' & Hj' & ->)]; [rewrite <- Ej; apply cellw_nonneg|exact (K2 j' Hj')].
    + apply B. right. exists j. auto.
Qed.

Hypothesis HN : Narrowing c cols rows.

Lemma cellw_down i a b : (i < length cols)%nat -> (a <= b)%nat -> cellw c rows i (Z.of_nat b) <= cellw c rows i (Z.of_nat a).
Proof.
  intros Hi Hab. unfold cellw at 1. rewrite Nat2Z.id. unfold get2. destruct (nth_error rows b) as [r'|] eqn:Eb; [|apply cellw_nonneg].
  destruct (nth_error r' i) as [s'|] eqn:Es'; [|apply cellw_nonneg].
  pose proof (nth_some_lt _ _ _ Eb) as Hb. destruct (nth_error rows a) as [r|] eqn:Ea; [|apply nth_error_None in Ea; lia].
  pose proof (proj1 (Forall_forall _ _) (pr_long _ _ _ _ HP) r (nth_error_In _ _ Ea)) as Hl. cbn beta in Hl.
  destruct (nth_error r i) as [s|] eqn:Es; [|apply nth_error_None in Es; exfalso; apply (Nat.lt_irrefl i), (Nat.lt_le_trans _ _ _ Hi), (Nat.le_trans _ _ _ Hl Es)].
  unfold cellw. rewrite Nat2Z.id. unfold get2. rewrite Ea, Es. exact (HN a b r r' i s s' Hab Ea Eb Hi Es Es').
Qed.

Lemma first_line m g k i : (1 <= g)%nat -> (k < g)%nat -> (i < length cols)%nat ->
  maxOf c rows i (gidx m (length rows) g (Z.of_nat k)) = cellw c rows i (Z.of_nat (pos m g (lineCount (length rows) g) 0 k)).
Proof.
  intros Hg Hk Hi. assert (Hn : (1 <= length rows)%nat) by (destruct rows; [congruence|cbn [length]; lia]).
  set (p := pos m g (lineCount (length rows) g) 0 k).
  apply maxOf_is.
  - destruct (le_lt_dec (length rows) p) as [L|L].
    + left. split.
      * destruct (gidx m (length rows) g (Z.of_nat k)) as [|j js] eqn:Ej; [reflexivity|]. exfalso.
        assert (In j (gidx m (length rows) g (Z.of_nat k))) as Hj by (rewrite Ej; left; reflexivity).
        apply gidx_spec in Hj; [|exact Hg|exact Hk]. destruct Hj as (l & _ & _ & Hl). unfold p in L. destruct m; cbn [pos] in *; lia.
      * unfold cellw. rewrite Nat2Z.id. unfold get2. rewrite (proj2 (nth_error_None rows p) L). reflexivity.
    + right. exists (Z.of_nat p). split; [|reflexivity]. apply gidx_spec; [exact Hg|exact Hk|]. exists 0%nat.
      split; [pose proof (lineCount_pos (length rows) g Hn); lia|]. split; [reflexivity|exact L].
  - intros j Hj. apply gidx_spec in Hj; [|exact Hg|exact Hk]. destruct Hj as (l & _ & -> & _). apply cellw_down; [exact Hi|].
    unfold p. destruct m; cbn [pos]; lia.
Qed.

Lemma zsum_map_le {A} (f h : A -> Z) l : (forall a, In a l -> f a <= h a) -> zsum (map f l) <= zsum (map h l).
Proof.
  induction l as [|a l IH]; intros K; [reflexivity|]. cbn [map]. change (zsum (f a :: map f l)) with (f a + zsum (map f l)). change (zsum (h a :: map h l)) with (h a + zsum (map h l)).
  apply Z.add_le_mono; [apply K; left; reflexivity|]. apply IH. intros b Hb. apply K. right. exact Hb.
Qed.

Lemma total_up sep m g g' : cols <> [] -> (1 <= g)%nat -> (g <= g')%nat ->
  total sep cols (gwidths cols c m rows g) g <= total sep cols (gwidths cols c m rows g') g'.
Proof.
  intros Hc Hg Hgg. assert (Hn : (1 <= length rows)%nat) by (destruct rows; [congruence|cbn [length]; lia]). unfold total.
  assert (A : slen sep * (Z.of_nat g - 1) <= slen sep * (Z.of_nat g' - 1)) by (apply Z.mul_le_mono_nonneg_l; unfold slen; lia).
  assert (1 <= slen cols) by (unfold slen; destruct cols; [congruence|cbn [length]; lia]).
  assert (B : (slen cols - 1) * Z.of_nat g <= (slen cols - 1) * Z.of_nat g') by (apply Z.mul_le_mono_nonneg_l; lia).
  enough (zsum (map (fun k => zsum (gwidths cols c m rows g k)) (seq 0 g)) <= zsum (map (fun k => zsum (gwidths cols c m rows g' k)) (seq 0 g'))) by lia.
  replace (seq 0 g') with (seq 0 g ++ seq (0 + g) (g' - g)) by (rewrite <- seq_app; f_equal; lia). rewrite map_app, zsum_app.
  assert (0 <= zsum (map (fun k => zsum (gwidths cols c m rows g' k)) (seq (0 + g) (g' - g)))).
  { apply zsum_nonneg'. apply Forall_forall. intros x Hx. apply in_map_iff in Hx. destruct Hx as (k & <- & _). apply zsum_nonneg'.
    apply Forall_forall. intros y Hy. unfold gwidths in Hy. apply in_map_iff in Hy. destruct Hy as (i & <- & _).
    apply (proj2 (maxOf_max c rows i _)). left. reflexivity. }
  enough (zsum (map (fun k => zsum (gwidths cols c m rows g k)) (seq 0 g)) <= zsum (map (fun k => zsum (gwidths cols c m rows g' k)) (seq 0 g))) by lia.
  apply zsum_map_le. intros k Hk. apply in_seq in Hk. apply zsum_map_le. intros i Hi. apply in_seq in Hi.
  rewrite !first_line by lia. apply cellw_down; [lia|]. destruct m; cbn [pos]; [lia|].
  pose proof (lineCount_mono (length rows) g g' Hg Hgg Hn) as M. pose proof (Nat.mul_le_mono_l _ _ k M). lia.
Qed.

Lemma no_more sep w m g0 g g' : cols <> [] -> (1 <= g0)%nat -> Search c cols sep w m rows g0 g -> Worth m rows (S g) -> (g < g')%nat ->
  ~ FitsIn c cols sep (effective w) m rows g'.
Proof.
  intros Hc Hg0 (S1 & _ & S3) HW Hg' (x & Hx & Hle). apply CompactTotal_is in Hx; [|lia]. subst x. apply S3. split; [exact HW|].
  eexists. split; [apply CompactTotal_is; [lia|reflexivity]|].
  pose proof (total_up sep m (S g) g' Hc ltac:(lia) ltac:(lia)) as M.
  assert (Hpos : 0 <= total sep cols (gwidths cols c m rows (S g)) (S g)).
  { unfold total. assert (0 <= slen sep * (Z.of_nat (S g) - 1)) by (apply Z.mul_nonneg_nonneg; unfold slen; lia).
    assert (0 <= (slen cols - 1) * Z.of_nat (S g)) by (apply Z.mul_nonneg_nonneg; [unfold slen; destruct cols; [congruence|cbn [length]; lia]|lia]).
    enough (0 <= zsum (map (fun k => zsum (gwidths cols c m rows (S g) k)) (seq 0 (S g)))) by lia.
    apply zsum_nonneg'. apply Forall_forall. intros x Hx. apply in_map_iff in Hx. destruct Hx as (k & <- & _). apply zsum_nonneg'.
    apply Forall_forall. intros y Hy. unfold gwidths in Hy. apply in_map_iff in Hy. destruct Hy as (i & <- & _).
    apply (proj2 (maxOf_max c rows i _)). left. reflexivity. }
  pose proof (Z.mod_le _ 65536 Hpos ltac:(lia)). lia.
Qed.

Lemma has_columns sep : reckoned t cols sep mod 65536 <> 0 -> cols <> [].
Proof. intros Hz ->. apply Hz. reflexivity. Qed.

(** Horizontally nothing that fits takes fewer lines. *)
Theorem horizontal_best fuel w sep : reckoned t cols sep mod 65536 <> 0 ->
  let r := merge H fuel c t (fun _ => true) items w sep true in stop r = Finished ->
  forall g lines, (1 <= g)%nat -> Layout H g rows lines -> FitsIn c cols sep (effective w) H rows g -> (length (written r) <= length lines)%nat.
Proof.
  cbv zeta. intros Hz Hst g' lines' Hg' HL' HF. destruct (plan_output HP H fuel w sep true Hz Hst) as (g & lines & W & (g0 & Hg0 & HS & HL & _) & E1).
  rewrite E1. cbn [written]. unfold printed. rewrite map_length. pose proof (estimate_pos t cols sep w) as Hp.
  destruct (le_lt_dec g' g) as [K|K].
  - apply (layout_mono H H g' g rows lines' lines); auto.
  - exfalso. exact (no_more sep w H g0 g g' (has_columns sep Hz) ltac:(lia) HS Logic.I K HF).
Qed.

(** Vertically too, unless one group more would not have saved a line. *)
Theorem vertical_best fuel w sep : reckoned t cols sep mod 65536 <> 0 ->
  let r := merge V fuel c t (fun _ => true) items w sep true in stop r = Finished ->
  (exists g lines, (1 <= g)%nat /\ length lines = length (written r) /\ Layout V g rows lines
     /\ forall lines', Layout V (S g) rows lines' -> length lines' = length lines)
  \/ forall g lines, (1 <= g)%nat -> Layout V g rows lines -> FitsIn c cols sep (effective w) V rows g -> (length (written r) <= length lines)%nat.
Proof.
  cbv zeta. intros Hz Hst. destruct (plan_output HP V fuel w sep true Hz Hst) as (g & lines & W & (g0 & Hg0 & HS & HL & _) & E1).
  rewrite E1. cbn [written]. unfold printed. rewrite map_length. pose proof (estimate_pos t cols sep w) as Hp. assert (Hg : (1 <= g)%nat) by (destruct HS; lia).
  destruct (worth_b V (length rows) (S g)) eqn:Ew.
  - right. apply worth_spec in Ew; [|lia]. intros g' lines' Hg' HL' HF. destruct (le_lt_dec g' g) as [K|K].
    + apply (layout_mono V V g' g rows lines' lines); auto.
    + exfalso. exact (no_more sep w V g0 g g' (has_columns sep Hz) ltac:(lia) HS Ew K HF).
  - left. exists g, lines. split; [exact Hg|]. split; [reflexivity|]. split; [exact HL|]. intros lines' HL'. apply Nat.le_antisymm.
    + apply (layout_mono V V g (S g) rows lines lines'); auto.
    + destruct (le_lt_dec (length lines) (length lines')) as [K|K]; [exact K|exfalso].
      assert (Worth V rows (S g)) as Hw.
      { apply vertical_worth; [exact Hrows|exact Hg|]. intros l l' H1 H2. rewrite (layout_unique V g rows l lines H1 HL), (layout_unique V (S g) rows l' lines' H2 HL'). exact K. }
      apply worth_spec in Hw; [|lia]. congruence.
Qed.
End Printing.
End Types.
