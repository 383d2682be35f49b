(** * PickProofs: columns put in another order, renamed or left out. *)
From Verif Require Import GoBase Runewidth Width AlignSpec Table Merge TableContract TableOpsProofs WidthTheory
  MergeSpec MergeLayout MergeRender MergeSearch MergeTheory MergePlan MergeScreens MergeRecorded GrowSpec GrowProofs ReadProofs PickSpec.
From Coq Require Import ZifyBool ZifyNat Permutation.
Local Open Scope Z_scope.

(** ** Picking *)
Lemma pick_nth {A} (l : list A) : forall p, Forall (fun i => (i < length l)%nat) p -> forall j,
  nth_error (pick p l) j = match nth_error p j with Some i => nth_error l i | None => None end.
Proof.
  induction 1 as [|i p Hi HF IH]; intros j; [destruct j; reflexivity|]. cbn [pick flat_map].
  destruct (nth_error l i) as [a|] eqn:Ea; [|apply nth_error_None in Ea; lia]. cbn [app]. destruct j as [|j]; [cbn; congruence|]. apply IH.
Qed.
Lemma pick_len {A} (l : list A) p : Forall (fun i => (i < length l)%nat) p -> length (pick p l) = length p.
Proof.
  induction 1 as [|i p Hi HF IH]; [reflexivity|]. cbn [pick flat_map]. destruct (nth_error l i) as [a|] eqn:Ea; [|apply nth_error_None in Ea; lia].
  cbn. f_equal. exact IH.
Qed.
Lemma pick_map {A B} (f : A -> B) p l : pick p (map f l) = map f (pick p l).
Proof.
  induction p as [|i p IH]; [reflexivity|]. cbn [pick flat_map]. unfold pick in IH. rewrite IH, map_app, nth_error_map. destruct (nth_error l i); reflexivity.
Qed.
Lemma pick_app {A} p q (l : list A) : pick (p ++ q) l = pick p l ++ pick q l.
Proof. unfold pick. apply flat_map_app. Qed.
Lemma pick_all {A} (l : list A) : pick (seq 0 (length l)) l = l.
Proof.
  enough (G : forall pre, pick (seq (length pre) (length l)) (pre ++ l) = l) by exact (G []).
  induction l as [|a l IH]; intros pre; [reflexivity|]. cbn [length seq pick flat_map]. rewrite nth_error_app2, Nat.sub_diag by lia. cbn [nth_error app]. f_equal.
  specialize (IH (pre ++ [a])). rewrite app_length, Nat.add_1_r, <- app_assoc in IH. exact IH.
Qed.
Lemma pick_perm {A} p q (l : list A) : Permutation p q -> Permutation (pick p l) (pick q l).
Proof. intros HP. unfold pick. apply Permutation_flat_map. exact HP. Qed.
Lemma zsum_perm l l' : Permutation l l' -> zsum l = zsum l'.
Proof.
  induction 1; [reflexivity| | |congruence].
  - change (x + zsum l = x + zsum l'). lia.
  - change (y + (x + zsum l) = x + (y + zsum l)). lia.
Qed.
(** The places not picked. *)
Lemma rest_of n p : NoDup p -> Forall (fun i => (i < n)%nat) p -> exists q, Permutation (p ++ q) (seq 0 n) /\ (length p + length q = n)%nat.
Proof.
  intros HN HF. exists (filter (fun i => negb (existsb (Nat.eqb i) p)) (seq 0 n)).
  assert (In_p : forall i, existsb (Nat.eqb i) p = true <-> In i p).
  { intros i. rewrite existsb_exists. split; [intros (x & Hx & Ex); apply Nat.eqb_eq in Ex; subst; exact Hx|intros K; exists i; split; [exact K|apply Nat.eqb_refl]]. }
  assert (HP : Permutation (p ++ filter (fun i => negb (existsb (Nat.eqb i) p)) (seq 0 n)) (seq 0 n)).
  { apply NoDup_Permutation.
    - apply NoDup_app_remove_r with (l' := []) || idtac.
      clear -HN In_p. revert In_p. generalize (seq_NoDup n 0). generalize (seq 0 n). intros l Hl In_p.
      assert (Hf : NoDup (filter (fun i => negb (existsb (Nat.eqb i) p)) l)) by (apply NoDup_filter; exact Hl).
      assert (Hd : forall i, In i p -> ~ In i (filter (fun i => negb (existsb (Nat.eqb i) p)) l)).
      { intros i Hi K. apply filter_In in K. destruct K as [_ K]. apply In_p in Hi. rewrite Hi in K. discriminate. }
      revert Hf Hd. generalize (filter (fun i => negb (existsb (Nat.eqb i) p)) l). intros q Hf Hd. clear In_p.
      induction HN as [|x p Hx HN IH]; [exact Hf|]. cbn [app]. constructor; [|apply IH; intros i Hi; apply Hd; right; exact Hi].
      rewrite in_app_iff. intros [K|K]; [exact (Hx K)|exact (Hd x (or_introl eq_refl) K)].
    - apply seq_NoDup.
    - intros i. rewrite in_app_iff, filter_In, in_seq. split.
      + intros [K|[K _]]; [|lia]. rewrite Forall_forall in HF. specialize (HF i K). lia.
      + intros K. destruct (existsb (Nat.eqb i) p) eqn:Ei; [left; apply In_p; exact Ei|right; split; [lia|reflexivity]]. }
  split; [exact HP|]. apply Permutation_length in HP. rewrite app_length, seq_length in HP. exact HP.
Qed.
Lemma zsum_pick_all l p : NoDup p -> Forall (fun i => (i < length l)%nat) p -> length p = length l -> zsum (pick p l) = zsum l.
Proof.
  intros HN HF HL. destruct (rest_of (length l) p HN HF) as (q & HP & Hq). destruct q; [|cbn in Hq; lia]. rewrite app_nil_r in HP.
  rewrite <- (pick_all l) at 2. apply zsum_perm, pick_perm, HP.
Qed.
Lemma zsum_pick_le l p : NoDup p -> Forall (fun i => (i < length l)%nat) p -> Forall (fun x => 0 <= x) l -> 0 <= zsum (pick p l) <= zsum l.
Proof.
  intros HN HF HZ. destruct (rest_of (length l) p HN HF) as (q & HP & _).
  assert (E : zsum l = zsum (pick p l) + zsum (pick q l)).
  { rewrite <- zsum_app, <- pick_app. rewrite <- (pick_all l) at 1. symmetry. apply zsum_perm, pick_perm, HP. }
  assert (K : forall r, 0 <= zsum (pick r l)).
  { intros r. apply zsum_nonneg'. apply Forall_forall. intros x Hx. unfold pick in Hx. apply in_flat_map in Hx. destruct Hx as (i & _ & Hx).
    destruct (nth_error l i) as [a|] eqn:Ea; [|destruct Hx]. destruct Hx as [<-|[]]. rewrite Forall_forall in HZ. exact (HZ a (nth_error_In _ _ Ea)). }
  pose proof (K p). pose proof (K q). lia.
Qed.

(** ** Writing *)
Section Write.
Context {E : Type}.
Lemma loop_same ok (f f' : Z -> outcome E str) : forall ls k acc acc', length acc = length acc' ->
  (forall i, In i ls -> (exists s, f i = Ok s) /\ exists s, f' i = Ok s) ->
  stop (lines_loop ok f ls k acc) = stop (lines_loop ok f' ls k acc') /\
  length (written (lines_loop ok f ls k acc)) = length (written (lines_loop ok f' ls k acc')).
Proof.
  induction ls as [|i ls IH]; intros k acc acc' Ha HF; [split; [reflexivity|exact Ha]|]. cbn [lines_loop].
  destruct (HF i (or_introl eq_refl)) as [[s ->] [s' ->]]. destruct (ok k); [|split; [reflexivity|exact Ha]].
  apply IH; [rewrite !app_length; cbn; lia|intros j Hj; apply HF; right; exact Hj].
Qed.
Lemma write_same ok (ls ls' : list str) : length ls = length ls' ->
  stop (write (E := E) ok ls) = stop (write ok ls') /\ length (written (write (E := E) ok ls)) = length (written (write (E := E) ok ls')).
Proof.
  intros HL. unfold write, slen. rewrite <- HL. apply loop_same; [reflexivity|]. intros i Hi. rewrite zrange_nat in Hi. apply in_map_iff in Hi.
  destruct Hi as (j & <- & Hj). apply in_seq in Hj. rewrite Nat2Z.id. split.
  - destruct (nth_error ls j) eqn:Ej; [eauto|apply nth_error_None in Ej; lia].
  - destruct (nth_error ls' j) eqn:Ej; [eauto|apply nth_error_None in Ej; lia].
Qed.
Lemma loop_first ok (ls : list str) : forall pre acc,
  let r := lines_loop (E := E) ok (fun i => match nth_error (pre ++ ls) (Z.to_nat i) with Some s => Ok s | None => Panic IndexOutOfRange end)
    (map Z.of_nat (seq (length pre) (length ls))) (length pre) acc in
  exists k, (k <= length ls)%nat /\ written r = acc ++ firstn k (map (fun s => s ++ [x0a]) ls) /\ (stop r = Finished -> k = length ls).
Proof.
  induction ls as [|s ls IH]; intros pre acc; cbv zeta.
  - exists 0%nat. cbn. rewrite app_nil_r. split; [lia|]. split; reflexivity.
  - cbn [length seq map lines_loop]. rewrite Nat2Z.id, nth_error_app2, Nat.sub_diag by lia. cbn [nth_error]. destruct (ok (length pre)).
    + specialize (IH (pre ++ [s]) (acc ++ [s ++ [x0a]])). cbv zeta in IH. rewrite app_length, Nat.add_1_r, <- app_assoc in IH. cbn [app] in IH.
      destruct IH as (k & Hk & Hw & Hs). exists (S k). split; [lia|]. split; [rewrite Hw, <- app_assoc; reflexivity|]. intros K. rewrite (Hs K). reflexivity.
    + exists 0%nat. cbn. rewrite app_nil_r. split; [lia|]. split; [reflexivity|discriminate].
Qed.
Lemma write_first ok (ls : list str) : let r := write (E := E) ok ls in
  written r = firstn (length (written r)) (map (fun s => s ++ [x0a]) ls) /\ (stop r = Finished -> length (written r) = length ls).
Proof.
  unfold write, slen. rewrite zrange_nat. destruct (loop_first ok ls [] []) as (k & Hk & Hw & Hs). cbn [app length] in Hw, Hs.
  cbv zeta. rewrite Hw. rewrite firstn_length, map_length, Nat.min_l by exact Hk. split; [reflexivity|]. intros K. apply Hs, K.
Qed.
End Write.

Section Types.
Context {Item Val E : Type}.

Section Picking.
Context {c : Condition} {p : list nat} {t t' : Table Item Val E} {cols cols' : list (Column Item Val E)}
  {items items' : FormattedItemList E} {rows : list (list str)}.
Hypothesis HK : Picked p t cols t' cols'.
Hypothesis HP : Printable t cols items rows.
Hypothesis HP' : Printable t' cols' items' (map (pick p) rows).

Lemma places : Forall (fun i => (i < length cols)%nat) p.
Proof.
  destruct HK as [_ HF]. clear -HF. induction HF as [|i col' p cols' (col & Hi & _) HF IH]; constructor; [|exact IH]. apply nth_some_lt in Hi. exact Hi.
Qed.
Lemma places_row row : In row rows -> Forall (fun i => (i < length row)%nat) p.
Proof.
  intros Hr. pose proof (pr_long _ _ _ _ HP) as HL. rewrite Forall_forall in HL. specialize (HL row Hr). eapply Forall_impl; [|exact places]. intros i Hi. exact (Nat.lt_le_trans _ _ _ Hi HL).
Qed.
Lemma picked_len : length cols' = length p.
Proof. symmetry. exact (CacheProofs.Forall2_len _ _ _ (pk_columns _ _ _ _ _ HK)). Qed.

Lemma picked_recorded : recorded t' cols' = pick p (recorded t cols).
Proof.
  destruct HK as [_ HF]. unfold recorded. clear -HF. induction HF as [|i col' p cols' (col & Hi & _ & Hw) HF IH]; [reflexivity|].
  cbn [map pick flat_map]. rewrite nth_error_map, Hi. cbn [option_map app]. rewrite Hw. f_equal. exact IH.
Qed.

Lemma picked_cellw j i (jz : Z) : nth_error p j = Some i -> cellw c (map (pick p) rows) j jz = cellw c rows i jz.
Proof.
  intros Hj. unfold cellw, get2. rewrite nth_error_map. destruct (nth_error rows (Z.to_nat jz)) as [row|] eqn:Er; [|reflexivity]. cbn [option_map].
  rewrite pick_nth by (apply places_row; exact (nth_error_In _ _ Er)). rewrite Hj. reflexivity.
Qed.
Lemma picked_gwidths m g k : gwidths cols' c m (map (pick p) rows) g k = pick p (gwidths cols c m rows g k).
Proof.
  apply nth_ext. intros j. unfold gwidths at 1. rewrite nth_map, nth_seq, picked_len.
  rewrite pick_nth by (unfold gwidths; rewrite map_length, seq_length; exact places).
  destruct (Nat.ltb_spec j (length p)) as [L|L]; [|rewrite (proj2 (nth_error_None p j)) by lia; reflexivity].
  destruct (nth_error p j) as [i|] eqn:Ei; [|apply nth_error_None in Ei; lia]. cbn [option_map plus]. unfold gwidths. rewrite nth_map, nth_seq.
  pose proof places as Hpl. rewrite Forall_forall in Hpl. specialize (Hpl i (nth_error_In _ _ Ei)). destruct (Nat.ltb_spec i (length cols)); [|lia]. cbn [option_map plus].
  f_equal. unfold maxOf. rewrite map_length. f_equal. apply map_ext. intros jz. apply picked_cellw, Ei.
Qed.

Lemma picked_cells ws row : length ws = length cols -> (length cols <= length row)%nat ->
  cells c cols' (pick p ws) (pick p row) = pick p (cells c cols ws row).
Proof.
  intros Hw Hr. assert (CN : forall cs (vs : list Z) (rs : list str) i col w s, nth_error cs i = Some col -> nth_error vs i = Some w -> nth_error rs i = Some s ->
    nth_error (cells (Item := Item) (Val := Val) (E := E) c cs vs rs) i = Some (alignment_of c col s w)).
  { induction cs as [|c0 cs IH]; intros vs rs i col w s H1 H2 H3; [destruct i; discriminate|]. destruct vs as [|v vs]; [destruct i; discriminate|]. destruct rs as [|r rs]; [destruct i; discriminate|].
    destruct i as [|i]; cbn in *; [congruence|]. apply IH; assumption. }
  destruct HK as [_ HF]. clear HP' HP. revert HF. clear HK. induction 1 as [|i col' p' cols0 (col & Hi & Ha & _) HF IH]; [reflexivity|].
  pose proof (nth_some_lt _ _ _ Hi) as Li.
  destruct (nth_error ws i) as [w|] eqn:Ew; [|apply nth_error_None in Ew; lia]. destruct (nth_error row i) as [s|] eqn:Es; [|apply nth_error_None in Es; lia].
  unfold pick in *. cbn [flat_map]. rewrite Ew, Es, (CN _ _ _ _ _ _ _ Hi Ew Es). cbn [app cells]. f_equal; [unfold alignment_of; rewrite Ha; reflexivity|exact IH].
Qed.

Lemma bf_ext (cs : list (Column Item Val E)) W W' line : forall k, (forall j, (k <= j < k + length line)%nat -> W j = W' j) -> blocks_from c cs W k line = blocks_from c cs W' k line.
Proof.
  induction line as [|row line IH]; intros k HW; [reflexivity|]. cbn [blocks_from]. rewrite (HW k) by (cbn [length]; lia). f_equal. apply IH. intros j Hj. apply HW. cbn [length]. lia.
Qed.
Lemma layout_pick m g : layout_lines m g (map (pick p) rows) = map (map (pick p)) (layout_lines m g rows).
Proof. unfold layout_lines. rewrite map_length, map_map. apply map_ext. intros l. apply picks_map. Qed.

(** *** All columns *)
Section All.
Hypothesis Hall : length p = length cols.

Lemma picked_reckoned sep : reckoned t' cols' sep = reckoned t cols sep.
Proof.
  unfold reckoned. rewrite picked_recorded. rewrite zsum_pick_all; [|exact (pk_once _ _ _ _ _ HK)| |].
  - unfold slen. rewrite picked_len, Hall. reflexivity.
  - unfold recorded. rewrite map_length. exact places.
  - unfold recorded. rewrite map_length. exact Hall.
Qed.
Lemma picked_estimate sep w : estimate t' cols' sep w = estimate t cols sep w.
Proof. unfold estimate. rewrite picked_reckoned. reflexivity. Qed.
Lemma picked_total m g sep : total sep cols' (gwidths cols' c m (map (pick p) rows) g) g = total sep cols (gwidths cols c m rows g) g.
Proof.
  unfold total. unfold slen at 2 4. rewrite picked_len, Hall. f_equal. f_equal. apply map_ext. intros k. rewrite picked_gwidths.
  assert (EL : length (gwidths cols c m rows g k) = length cols) by (unfold gwidths; rewrite map_length, seq_length; reflexivity).
  apply zsum_pick_all; [exact (pk_once _ _ _ _ _ HK)|rewrite EL; exact places|rewrite EL; exact Hall].
Qed.
Lemma picked_acceptable m g sep w : acceptable_b c cols' sep w m (map (pick p) rows) g = acceptable_b c cols sep w m rows g.
Proof. unfold acceptable_b. rewrite map_length, picked_total. reflexivity. Qed.

Theorem reordered m fuel ok maxWidth sep compact :
  let r := merge m fuel c t ok items maxWidth sep compact in
  let r' := merge m fuel c t' ok items' maxWidth sep compact in
  stop r' = stop r /\ length (written r') = length (written r)
  /\ exists g lines W, (1 <= g)%nat /\ Layout m g rows lines /\ (forall k, (k < g)%nat -> length (W k) = length cols)
     /\ written r = firstn (length (written r)) (printed c cols sep W g lines)
     /\ written r' = firstn (length (written r)) (printed c cols' sep (fun k => pick p (W k)) g (map (map (pick p)) lines))
     /\ (stop r = Finished -> length (written r) = length lines).
Proof.
  cbv zeta.
  assert (Empty : forall st : status E, st <> Finished -> forall r r' : run E, r = {| written := []; stop := st |} -> r' = {| written := []; stop := st |} ->
    stop r' = stop r /\ length (written r') = length (written r)
    /\ exists g lines W, (1 <= g)%nat /\ Layout m g rows lines /\ (forall k, (k < g)%nat -> length (W k) = length cols)
     /\ written r = firstn (length (written r)) (printed c cols sep W g lines)
     /\ written r' = firstn (length (written r)) (printed c cols' sep (fun k => pick p (W k)) g (map (map (pick p)) lines))
     /\ (stop r = Finished -> length (written r) = length lines)).
  { intros st Hst r r' -> ->. split; [reflexivity|]. split; [reflexivity|]. exists 1%nat, (layout_lines m 1 rows), (fun _ => recorded t cols).
    split; [lia|]. split; [apply layout_ok; lia|]. split; [intros k _; unfold recorded; apply map_length|]. split; [reflexivity|]. split; [reflexivity|]. cbn [stop]. congruence. }
  assert (Full : forall g W W', (1 <= g)%nat -> (forall k, (k < g)%nat -> length (W k) = length cols) -> (forall k, (k < g)%nat -> W' k = pick p (W k)) ->
    forall r r' : run E, r = write ok (map (line_text c cols sep W g) (layout_lines m g rows)) ->
    r' = write ok (map (line_text c cols' sep W' g) (layout_lines m g (map (pick p) rows))) ->
    stop r' = stop r /\ length (written r') = length (written r)
    /\ exists g lines W, (1 <= g)%nat /\ Layout m g rows lines /\ (forall k, (k < g)%nat -> length (W k) = length cols)
     /\ written r = firstn (length (written r)) (printed c cols sep W g lines)
     /\ written r' = firstn (length (written r)) (printed c cols' sep (fun k => pick p (W k)) g (map (map (pick p)) lines))
     /\ (stop r = Finished -> length (written r) = length lines)).
  { intros g W W' Hg HW HW' r r' -> ->.
    assert (EL : length (map (line_text c cols' sep W' g) (layout_lines m g (map (pick p) rows))) = length (map (line_text c cols sep W g) (layout_lines m g rows))).
    { rewrite !map_length, layout_pick, map_length. reflexivity. }
    destruct (write_same (E := E) ok _ _ EL) as [S1 S2]. split; [exact S1|]. split; [exact S2|]. exists g, (layout_lines m g rows), W.
    split; [exact Hg|]. split; [apply layout_ok, Hg|]. split; [exact HW|].
    destruct (write_first (E := E) ok (map (line_text c cols sep W g) (layout_lines m g rows))) as [F1 F2].
    destruct (write_first (E := E) ok (map (line_text c cols' sep W' g) (layout_lines m g (map (pick p) rows)))) as [F1' _].
    rewrite map_map in F1, F1'. split; [exact F1|]. split.
    - rewrite <- S2. rewrite F1' at 1. f_equal. unfold printed. rewrite layout_pick, !map_map. apply map_ext_in. intros line Hl. f_equal.
      unfold line_text. rewrite !map_length. f_equal. f_equal. unfold blocks. apply bf_ext. intros j Hj. apply HW'. refine (Nat.lt_le_trans _ _ _ (proj2 Hj) _). clear Hj j.
      rewrite map_length. cbn [plus]. unfold layout_lines in Hl. apply in_map_iff in Hl. destruct Hl as (l & <- & _).
      generalize (pos m g (lineCount (length rows) g) l). intros f. generalize (seq_length g 0). generalize (seq 0 g). intros ks <-. clear. induction ks as [|k ks IH]; [reflexivity|]. cbn [picks length].
      destruct (nth_error rows _); [apply le_n_S, IH|apply Nat.le_0_l].
    - intros K. rewrite (F2 K), map_length. reflexivity. }
  destruct (Z.eq_dec (reckoned t cols sep mod 65536) 0) as [Hz|Hz].
  { apply (Empty (Panicked DivideByZero)); [discriminate|apply (merge_divzero HP); exact Hz|apply (merge_divzero HP'); rewrite picked_reckoned; exact Hz]. }
  assert (Hz' : reckoned t' cols' sep mod 65536 <> 0) by (rewrite picked_reckoned; exact Hz).
  assert (EI : g_init (t := t') (cols := cols') sep maxWidth = g_init (t := t) (cols := cols) sep maxWidth) by (unfold g_init; rewrite picked_estimate; reflexivity).
  assert (Lr : forall k : nat, length (recorded t cols) = length cols) by (intros _; unfold recorded; apply map_length).
  destruct compact.
  - destruct (merge_compact (c := c) HP m fuel ok maxWidth sep Hz) as [[K0 K]|(g & K1 & K2 & K3 & K4)];
    destruct (merge_compact (c := c) HP' m fuel ok maxWidth sep Hz') as [[K0' K']|(g' & K1' & K2' & K3' & K4')]; rewrite EI in *.
    + apply (Empty Running); [discriminate|exact K0|exact K0'].
    + exfalso. rewrite picked_acceptable in K3'. rewrite K in K3' by lia. discriminate.
    + exfalso. specialize (K' (S g) ltac:(lia)). rewrite picked_acceptable, K3 in K'. discriminate.
    + assert (g' = g).
      { destruct (Nat.lt_trichotomy g g') as [L|[L|L]]; [|congruence|].
        - specialize (K2' (S g) ltac:(lia)). rewrite picked_acceptable, K3 in K2'. discriminate.
        - specialize (K2 (S g') ltac:(lia)). rewrite picked_acceptable, K2 in K3'. discriminate. }
      subst g'. pose proof (g_init_pos (t := t) (cols := cols) sep maxWidth). refine (Full g _ _ ltac:(lia) _ _ _ _ K4 K4').
      * intros k Hk. destruct (g =? _)%nat; [apply Lr; exact k|]. unfold gwidths. rewrite map_length, seq_length. reflexivity.
      * intros k Hk. cbv beta. destruct (g =? _)%nat; [exact picked_recorded|apply picked_gwidths].
  - refine (Full _ _ _ (g_init_pos sep maxWidth) _ _ _ _ (merge_plain HP m fuel ok maxWidth sep Hz) _).
    + intros k _. apply Lr. exact k.
    + intros k _. symmetry. symmetry. exact picked_recorded.
    + rewrite (merge_plain HP' m fuel ok maxWidth sep Hz'), EI. reflexivity.
Qed.
End All.

(** *** Some columns *)
Theorem fewer m fuel fuel' sep w compact : rows <> [] -> (forall col, In col cols -> 0 <= Width t (colName col)) ->
  reckoned t cols sep < 65536 -> Narrow c cols sep m rows ->
  let r := merge m fuel c t (fun _ => true) items w sep compact in
  let r' := merge m fuel' c t' (fun _ => true) items' w sep compact in
  stop r = Finished -> stop r' = Finished -> (length (written r') <= length (written r))%nat.
Proof.
  intros Hne Hnn H16 HN r r' Hr Hr'.
  destruct (Z.eq_dec (reckoned t cols sep mod 65536) 0) as [Hz|Hz]; [unfold r in Hr; rewrite (merge_divzero HP) in Hr by exact Hz; discriminate|].
  destruct (Z.eq_dec (reckoned t' cols' sep mod 65536) 0) as [Hz'|Hz']; [unfold r' in Hr'; rewrite (merge_divzero HP') in Hr' by exact Hz'; discriminate|].
  assert (Hc' : cols' <> []) by (intros K; rewrite K in Hz'; apply Hz', no_columns).
  assert (Hlen : (length cols' <= length cols)%nat).
  { rewrite picked_len. destruct (rest_of (length cols) p (pk_once _ _ _ _ _ HK) places) as (q & _ & K). lia. }
  assert (NN : Forall (fun x => 0 <= x) (recorded t cols)) by (apply Forall_forall; intros x Hx; apply in_map_iff in Hx; destruct Hx as (col & <- & Hx); exact (Hnn col Hx)).
  assert (HR : 0 <= reckoned t' cols' sep <= reckoned t cols sep).
  { unfold reckoned. rewrite picked_recorded. destruct (zsum_pick_le (recorded t cols) p (pk_once _ _ _ _ _ HK)) as [Q1 Q2]; [unfold recorded; rewrite map_length; exact places|exact NN|].
    unfold slen. assert (Z.of_nat (length cols') * Z.of_nat (length sep) <= Z.of_nat (length cols) * Z.of_nat (length sep)) by (apply Z.mul_le_mono_nonneg_r; lia).
    assert (0 <= Z.of_nat (length cols') * Z.of_nat (length sep)) by (apply Z.mul_nonneg_nonneg; lia). lia. }
  assert (HE : estimate t cols sep w <= estimate t' cols' sep w).
  { unfold estimate. rewrite !(Z.mod_small (reckoned _ _ _)) in * by lia. apply Z.max_le_compat_l. apply Z.div_le_compat_l; [apply Z.mod_pos_bound; lia|lia]. }
  assert (Hrows' : map (pick p) rows <> []) by (destruct rows; [congruence|discriminate]).
  destruct (plan_output HP m fuel w sep compact Hz Hr) as (g & lines & W & (g0 & Hg0 & HS & HL & _) & E1).
  destruct (plan_output HP' m fuel' w sep compact Hz' Hr') as (g' & lines' & W' & (g0' & Hg0' & HS' & HL' & _) & E2).
  unfold r, r'. rewrite E1, E2. cbn [written]. unfold printed. rewrite !map_length.
  pose proof (estimate_pos t cols sep w) as Hp. pose proof (estimate_pos t' cols' sep w) as Hp'.
  assert (Hg : (1 <= g)%nat) by (destruct compact; [destruct HS|]; lia).
  assert (Hg' : (1 <= g')%nat) by (destruct compact; [destruct HS'|]; lia).
  apply layout_is in HL; [|exact Hg]. apply layout_is in HL'; [|exact Hg']. subst lines lines'. rewrite !layout_len, map_length.
  assert (N1 : (1 <= length rows)%nat) by (destruct rows; [congruence|cbn; lia]).
  assert (K : (g <= g' \/ length rows <= g')%nat).
  { destruct compact; [|lia]. destruct HS as (S1 & S2 & S3). destruct HS' as (S1' & S2' & S3').
    destruct (le_lt_dec g g') as [L|L]; [auto|]. destruct (le_lt_dec (length rows) g') as [L2|L2]; [auto|]. exfalso. apply S3'.
    specialize (S2 (S g') ltac:(lia)). apply acceptable_spec in S2; [|lia]. apply acceptable_spec; [lia|]. unfold acceptable_b in *. rewrite map_length.
    apply andb_true_iff in S2. destruct S2 as [A1 A2]. apply andb_true_iff. split; [exact A1|]. apply Z.leb_le in A2. apply Z.leb_le.
    assert (B : total sep cols (gwidths cols c m rows (S g')) (S g') < 65536) by (apply (HN (S g')); [lia|]; apply CompactTotal_is; [lia|reflexivity]).
    assert (P : 0 <= total sep cols' (gwidths cols' c m (map (pick p) rows) (S g')) (S g')) by (apply total_nonneg; [lia|exact Hc']).
    assert (T : total sep cols' (gwidths cols' c m (map (pick p) rows) (S g')) (S g') <= total sep cols (gwidths cols c m rows (S g')) (S g')).
    { unfold total. assert ((slen cols' - 1) * Z.of_nat (S g') <= (slen cols - 1) * Z.of_nat (S g')) by (apply Z.mul_le_mono_nonneg_r; unfold slen; lia).
      assert (zsum (map (fun k => zsum (gwidths cols' c m (map (pick p) rows) (S g') k)) (seq 0 (S g'))) <= zsum (map (fun k => zsum (gwidths cols c m rows (S g') k)) (seq 0 (S g')))); [|lia].
      apply zsum_map_le. intros k _. rewrite picked_gwidths. apply zsum_pick_le; [exact (pk_once _ _ _ _ _ HK)|unfold gwidths; rewrite map_length, seq_length; exact places|].
      apply Forall_forall. intros x Hx. unfold gwidths in Hx. apply in_map_iff in Hx. destruct Hx as (i & <- & _). apply (maxOf_max c rows i). left. reflexivity. }
    rewrite Z.mod_small in A2 by lia. rewrite Z.mod_small by lia. lia. }
  destruct K as [K|K]; [apply lineCount_mono; lia|].
  pose proof (lineCount_pos (length rows) g N1). pose proof (lineCount_spec (length rows) g' Hg' N1) as C.
  assert (lineCount (length rows) g' <= 1)%nat; [|lia]. destruct (lineCount (length rows) g') as [|[|x]]; [lia|lia|]. exfalso. cbn in C. lia.
Qed.
End Picking.

(** ** Formatting *)
Lemma max_same (P Q : Z -> Prop) m n : (forall x, P x <-> Q x) -> IsMax P m -> IsMax Q n -> m = n.
Proof. intros HE [H1 H2] [H3 H4]. apply Z.le_antisymm; [apply H4, HE, H1|apply H2, HE, H3]. Qed.
Lemma names_once (cols : list (Column Item Val E)) i j a b : NoDup (map colName cols) -> nth_error cols i = Some a -> nth_error cols j = Some b ->
  colName a = colName b -> i = j.
Proof.
  intros HN Hi Hj He. rewrite NoDup_nth_error in HN. apply HN; [rewrite map_length; exact (nth_some_lt _ _ _ Hi)|]. rewrite !nth_map, Hi, Hj. cbn. congruence.
Qed.
Lemma f2_nth {A B} (R : A -> B -> Prop) l l' : Forall2 R l l' -> forall j b, nth_error l' j = Some b -> exists a, nth_error l j = Some a /\ R a b.
Proof. induction 1 as [|a b l l' Hab HF IH]; intros [|j] x Hx; try discriminate; [injection Hx as <-; exists a; split; [reflexivity|exact Hab]|exact (IH j x Hx)]. Qed.

Lemma pick_format c p (t t' : Table Item Val E) cols cols' item t1 row : columnWidth t <> None -> columnWidth t' <> None ->
  Columns (tSpec t) = map Some cols -> Columns (tSpec t') = map Some cols' -> Picked p t cols t' cols' -> SameGetters p cols cols' ->
  FormatItem c t item = (t1, Ok row) ->
  exists t1', FormatItem c t' item = (t1', Ok (pick p row)) /\ Picked p t1 cols t1' cols'
    /\ columnWidth t1 <> None /\ columnWidth t1' <> None /\ Columns (tSpec t1) = map Some cols /\ Columns (tSpec t1') = map Some cols'
    /\ length row = length cols.
Proof.
  intros Hm Hm' Hc Hc' HK (N1 & N2 & HG) HF.
  assert (HA : AllOk (cell item) (map Some cols) row).
  { rewrite <- Hc. apply (FormatItem_ok c t item row Hm). exists t1. exact HF. }
  assert (HL : length row = length cols) by (apply CacheProofs.Forall2_len in HA; rewrite map_length in HA; congruence).
  assert (HA' : AllOk (cell item) (map Some cols') (pick p row)).
  { clear -HG HA. unfold AllOk. induction HG as [|i col' p cols' (col & Hi & Hg) HG IH]; [constructor|].
    destruct (AllOk_nth_l _ _ _ HA i (Some col)) as (v & Hv & Hcv); [rewrite nth_map, Hi; reflexivity|].
    cbn [map pick flat_map]. rewrite Hv. cbn [app]. constructor; [|exact IH]. unfold cell in *. rewrite Hg. exact Hcv. }
  destruct (FormatItem c t' item) as [t1' out'] eqn:HF'.
  assert (Eo : out' = Ok (pick p row)).
  { destruct (proj2 (FormatItem_ok c t' item (pick p row) Hm')) as (tt & K); [rewrite Hc'; exact HA'|]. congruence. }
  subst out'. exists t1'. split; [reflexivity|].
  destruct (FormatItem_spec c t item t1 _ Hm HF) as (_ & _ & _ & S1 & S2 & _).
  destruct (FormatItem_spec c t' item t1' _ Hm' HF') as (_ & _ & _ & S1' & S2' & _).
  pose proof (FormatItem_widths c t item t1 row Hm HF) as HW. pose proof (FormatItem_widths c t' item t1' _ Hm' HF') as HW'. rewrite Hc in HW. rewrite Hc' in HW'.
  split; [|rewrite S1, S1'; auto]. destruct HK as [HN HP]. constructor; [exact HN|].
  assert (Hpl : Forall (fun i => (i < length row)%nat) p) by (rewrite HL; exact (places (p := p) (t := t) (cols := cols) (t' := t') (cols' := cols') {| pk_once := HN; pk_columns := HP |})).
  assert (G : forall j i col', nth_error p j = Some i -> nth_error cols' j = Some col' -> exists col, nth_error cols i = Some col
    /\ colAlignment col' = colAlignment col /\ Width t1' (colName col') = Width t1 (colName col)).
  { intros j i col' Hj Hc1. destruct (f2_nth _ _ _ HP j col' Hc1) as (i' & Hi' & col & Hi & Ha & Hw). assert (i' = i) by congruence. subst i'.
    exists col. split; [exact Hi|]. split; [exact Ha|]. eapply max_same; [|apply HW'|apply HW]. intros x. cbv beta. rewrite Hw.
    apply or_iff_compat_l. split.
    - intros (j' & cl & v & K1 & K2 & K3 & ->). rewrite nth_map in K1. destruct (nth_error cols' j') as [cl'|] eqn:K4; [|discriminate]. injection K1 as ->.
      assert (j' = j) by exact (names_once _ _ _ _ _ N2 K4 Hc1 K3). subst j'. rewrite pick_nth, Hj in K2 by exact Hpl.
      exists i, col, v. rewrite nth_map, Hi. auto.
    - intros (i' & cl & v & K1 & K2 & K3 & ->). rewrite nth_map in K1. destruct (nth_error cols i') as [cl'|] eqn:K4; [|discriminate]. injection K1 as ->.
      assert (i' = i) by exact (names_once _ _ _ _ _ N1 K4 Hi K3). subst i'. exists j, col', v. rewrite nth_map, Hc1, pick_nth, Hj by exact Hpl. auto. }
  assert (EL : length p = length cols') by exact (CacheProofs.Forall2_len _ _ _ HP).
  clear -G EL. revert cols' EL G. induction p as [|i p IH]; intros [|col' cols'] EL G; try discriminate; constructor.
  - exact (G 0%nat i col' eq_refl eq_refl).
  - apply IH; [cbn in EL; lia|]. intros j. exact (G (S j)).
Qed.

Lemma pick_formats c p cols cols' (t : Table Item Val E) its t1 rows : Formats c t its t1 rows -> forall t',
  columnWidth t <> None -> columnWidth t' <> None ->
  Columns (tSpec t) = map Some cols -> Columns (tSpec t') = map Some cols' -> Picked p t cols t' cols' -> SameGetters p cols cols' ->
  exists t1', Formats c t' its t1' (map (pick p) rows) /\ Picked p t1 cols t1' cols'
    /\ Columns (tSpec t1) = map Some cols /\ Columns (tSpec t1') = map Some cols'.
Proof.
  induction 1 as [t|t item rest t1 row t2 rows HF HR IH]; intros t' Hm Hm' Hc Hc' HK HG; [exists t'; split; [constructor|auto]|].
  destruct (pick_format c p t t' cols cols' item t1 row Hm Hm' Hc Hc' HK HG HF) as (t1' & F1 & F2 & F3 & F4 & F5 & F6 & _).
  destruct (IH t1' F3 F4 F5 F6 F2 HG) as (t2' & G1 & G2 & G3 & G4). exists t2'. split; [cbn [map]; econstructor; eassumption|auto].
Qed.
End Types.
