(** * SepProofs: separators of the same length, and longer ones. *)
From Verif Require Import GoBase Runewidth Width AlignSpec Table Merge TableContract TableOpsProofs WidthTheory
  MergeSpec MergeLayout MergeRender MergeSearch MergeTheory MergePlan MergeScreens MergeRecorded GrowSpec GrowProofs PickProofs.
From Coq Require Import ZifyBool ZifyNat.
Local Open Scope Z_scope.

Lemma longer_estimate a b d n : 0 < b -> 0 <= d -> 1 <= n -> Z.max 1 ((a + d) / (b + n * d)) <= Z.max 1 (a / b).
Proof.
  intros Hb Hd Hn. assert (0 <= n * d) by (apply Z.mul_nonneg_nonneg; lia). set (q := (a + d) / (b + n * d)).
  destruct (Z.le_gt_cases q 1) as [L|L]; [lia|]. enough (q <= a / b) by lia. apply Z.div_le_lower_bound; [exact Hb|].
  pose proof (Z.mul_div_le (a + d) (b + n * d) ltac:(lia)) as K. fold q in K.
  assert (1 * d <= (q * n) * d) by (apply Z.mul_le_mono_nonneg_r; [exact Hd|]; pose proof (Z.mul_le_mono_nonneg 1 q 1 n); lia).
  rewrite Z.mul_add_distr_r in K. rewrite <- Z.mul_assoc in H0. replace (n * d * q) with (q * (n * d)) in K by apply Z.mul_comm. lia.
Qed.

Section Types.
Context {Item Val E : Type}.
Context {c : Condition} {t : Table Item Val E} {cols : list (Column Item Val E)} {items : FormattedItemList E} {rows : list (list str)}.
Hypothesis HP : Printable t cols items rows.

Section Same.
Context {sep sep' : str}.
Hypothesis HL : length sep' = length sep.
Lemma sep_reckoned : reckoned t cols sep' = reckoned t cols sep.
Proof. unfold reckoned, slen. rewrite HL. reflexivity. Qed.
Lemma sep_estimate w : estimate t cols sep' w = estimate t cols sep w.
Proof. unfold estimate. rewrite sep_reckoned. unfold slen. rewrite HL. reflexivity. Qed.
Lemma sep_acceptable m g w : acceptable_b c cols sep' w m rows g = acceptable_b c cols sep w m rows g.
Proof. unfold acceptable_b, total, slen. rewrite HL. reflexivity. Qed.

Theorem same_length m fuel ok w compact :
  let r := merge m fuel c t ok items w sep compact in
  let r' := merge m fuel c t ok items w sep' compact in
  stop r' = stop r /\ length (written r') = length (written r)
  /\ exists g lines W, (1 <= g)%nat /\ Layout m g rows lines
     /\ written r = firstn (length (written r)) (printed c cols sep W g lines)
     /\ written r' = firstn (length (written r)) (printed c cols sep' W g lines)
     /\ (stop r = Finished -> length (written r) = length lines).
Proof.
  cbv zeta. set (goal := fun r r' : run E => stop r' = stop r /\ length (written r') = length (written r)
  /\ exists g lines W, (1 <= g)%nat /\ Layout m g rows lines
     /\ written r = firstn (length (written r)) (printed c cols sep W g lines)
     /\ written r' = firstn (length (written r)) (printed c cols sep' W g lines)
     /\ (stop r = Finished -> length (written r) = length lines)).
  enough (G : goal (merge m fuel c t ok items w sep compact) (merge m fuel c t ok items w sep' compact)) by exact G.
  assert (Empty : forall st : status E, st <> Finished -> forall r r' : run E, r = {| written := []; stop := st |} -> r' = {| written := []; stop := st |} -> goal r r').
  { intros st Hst r r' -> ->. split; [reflexivity|]. split; [reflexivity|]. exists 1%nat, (layout_lines m 1 rows), (fun _ => []).
    split; [lia|]. split; [apply layout_ok; lia|]. split; [reflexivity|]. split; [reflexivity|]. cbn [stop]. congruence. }
  assert (Full : forall g W, (1 <= g)%nat ->
    forall r r' : run E, r = write ok (map (line_text c cols sep W g) (layout_lines m g rows)) ->
    r' = write ok (map (line_text c cols sep' W g) (layout_lines m g rows)) -> goal r r').
  { intros g W Hg r r' -> ->.
    assert (EL : length (map (line_text c cols sep' W g) (layout_lines m g rows)) = length (map (line_text c cols sep W g) (layout_lines m g rows))) by (rewrite !map_length; reflexivity).
    destruct (write_same (E := E) ok _ _ EL) as [S1 S2]. split; [exact S1|]. split; [exact S2|]. exists g, (layout_lines m g rows), W.
    split; [exact Hg|]. split; [apply layout_ok, Hg|].
    destruct (write_first (E := E) ok (map (line_text c cols sep W g) (layout_lines m g rows))) as [F1 F2].
    destruct (write_first (E := E) ok (map (line_text c cols sep' W g) (layout_lines m g rows))) as [F1' _].
    rewrite map_map in F1, F1'. split; [exact F1|]. split; [rewrite <- S2; exact F1'|]. intros K. rewrite (F2 K), map_length. reflexivity. }
  destruct (Z.eq_dec (reckoned t cols sep mod 65536) 0) as [Hz|Hz].
  { apply (Empty (Panicked DivideByZero)); [discriminate|apply (merge_divzero HP); exact Hz|apply (merge_divzero HP); rewrite sep_reckoned; exact Hz]. }
  assert (Hz' : reckoned t cols sep' mod 65536 <> 0) by (rewrite sep_reckoned; exact Hz).
  assert (EI : g_init (t := t) (cols := cols) sep' w = g_init (t := t) (cols := cols) sep w) by (unfold g_init; rewrite sep_estimate; reflexivity).
  destruct compact.
  - destruct (merge_compact (c := c) HP m fuel ok w sep Hz) as [[K0 K]|(g & K1 & K2 & K3 & K4)];
    destruct (merge_compact (c := c) HP m fuel ok w sep' Hz') as [[K0' K']|(g' & K1' & K2' & K3' & K4')]; rewrite EI in *.
    + apply (Empty Running); [discriminate|exact K0|exact K0'].
    + exfalso. rewrite sep_acceptable in K3'. rewrite K in K3' by lia. discriminate.
    + exfalso. specialize (K' (S g) ltac:(lia)). rewrite sep_acceptable, K3 in K'. discriminate.
    + assert (g' = g).
      { destruct (Nat.lt_trichotomy g g') as [L|[L|L]]; [|congruence|].
        - specialize (K2' (S g) ltac:(lia)). rewrite sep_acceptable, K3 in K2'. discriminate.
        - specialize (K2 (S g') ltac:(lia)). rewrite sep_acceptable, K2 in K3'. discriminate. }
      subst g'. pose proof (g_init_pos (t := t) (cols := cols) sep w). exact (Full g _ ltac:(lia) _ _ K4 K4').
  - refine (Full _ _ (g_init_pos sep w) _ _ (merge_plain HP m fuel ok w sep Hz) _).
    rewrite (merge_plain HP m fuel ok w sep' Hz'), EI. reflexivity.
Qed.
End Same.

Theorem longer m fuel fuel' sep sep' w compact : rows <> [] -> (length sep <= length sep')%nat ->
  (forall col, In col cols -> 0 <= Width t (colName col)) ->
  reckoned t cols sep' < 65536 -> effective w + slen sep' < 65536 -> Narrow c cols sep' m rows ->
  let r := merge m fuel c t (fun _ => true) items w sep compact in
  let r' := merge m fuel' c t (fun _ => true) items w sep' compact in
  stop r = Finished -> stop r' = Finished -> (length (written r) <= length (written r'))%nat.
Proof.
  intros Hne HL Hnn H16 Hw HN r r' Hr Hr'.
  destruct (Z.eq_dec (reckoned t cols sep mod 65536) 0) as [Hz|Hz]; [unfold r in Hr; rewrite (merge_divzero HP) in Hr by exact Hz; discriminate|].
  destruct (Z.eq_dec (reckoned t cols sep' mod 65536) 0) as [Hz'|Hz']; [unfold r' in Hr'; rewrite (merge_divzero HP) in Hr' by exact Hz'; discriminate|].
  assert (Hc : cols <> []) by (intros K; rewrite K in Hz; apply Hz, no_columns).
  assert (Hn : 1 <= slen cols) by (unfold slen; destruct cols; [congruence|cbn [length]; lia]).
  assert (NN : 0 <= zsum (recorded t cols)) by (apply zsum_nonneg', Forall_forall; intros x Hx; apply in_map_iff in Hx; destruct Hx as (col & <- & Hx); exact (Hnn col Hx)).
  set (d := slen sep' - slen sep). assert (Hd : 0 <= d) by (unfold d, slen; lia).
  assert (0 <= slen cols * d) by (apply Z.mul_nonneg_nonneg; lia).
  assert (HR : reckoned t cols sep' = reckoned t cols sep + slen cols * d) by (unfold reckoned, d; rewrite Z.mul_sub_distr_l; lia).
  assert (H0 : 0 <= reckoned t cols sep) by (unfold reckoned; assert (0 <= slen cols * slen sep) by (apply Z.mul_nonneg_nonneg; unfold slen; lia); lia).
  assert (He : 0 <= effective w) by (unfold effective; destruct (w >? 65535); [lia|]; apply Z.mod_pos_bound; lia).
  assert (HE : estimate t cols sep' w <= estimate t cols sep w).
  { unfold estimate. rewrite !(Z.mod_small (reckoned _ _ _)) in * by lia. rewrite !Z.mod_small by (unfold slen in *; lia).
    rewrite HR. replace (effective w + slen sep') with (effective w + slen sep + d) by (unfold d; lia). apply longer_estimate; lia. }
  destruct (plan_output HP m fuel w sep compact Hz Hr) as (g & lines & W & (g0 & Hg0 & HS & HLy & _) & E1).
  destruct (plan_output HP m fuel' w sep' compact Hz' Hr') as (g' & lines' & W' & (g0' & Hg0' & HS' & HLy' & _) & E2).
  unfold r, r'. rewrite E1, E2. cbn [written]. unfold printed. rewrite !map_length.
  pose proof (estimate_pos t cols sep w) as Hp. pose proof (estimate_pos t cols sep' w) as Hp'.
  assert (Hg : (1 <= g)%nat) by (destruct compact; [destruct HS|]; lia).
  assert (Hg' : (1 <= g')%nat) by (destruct compact; [destruct HS'|]; lia).
  apply layout_is in HLy; [|exact Hg]. apply layout_is in HLy'; [|exact Hg']. subst lines lines'. rewrite !layout_len.
  assert (N1 : (1 <= length rows)%nat) by (destruct rows; [congruence|cbn; lia]).
  assert (K : (g' <= g \/ length rows <= g)%nat).
  { destruct compact; [|lia]. destruct HS as (S1 & S2 & S3). destruct HS' as (S1' & S2' & S3').
    destruct (le_lt_dec g' g) as [L|L]; [auto|]. destruct (le_lt_dec (length rows) g) as [L2|L2]; [auto|]. exfalso. apply S3.
    specialize (S2' (S g) ltac:(lia)). apply acceptable_spec in S2'; [|lia]. apply acceptable_spec; [lia|]. unfold acceptable_b in *.
    apply andb_true_iff in S2'. destruct S2' as [A1 A2]. apply andb_true_iff. split; [exact A1|]. apply Z.leb_le in A2. apply Z.leb_le.
    assert (B : total sep' cols (gwidths cols c m rows (S g)) (S g) < 65536) by (apply (HN (S g)); [lia|]; apply CompactTotal_is; [lia|reflexivity]).
    assert (P : 0 <= total sep cols (gwidths cols c m rows (S g)) (S g)) by (apply total_nonneg; [lia|exact Hc]).
    assert (T : total sep cols (gwidths cols c m rows (S g)) (S g) <= total sep' cols (gwidths cols c m rows (S g)) (S g)).
    { unfold total. assert (slen sep * (Z.of_nat (S g) - 1) <= slen sep' * (Z.of_nat (S g) - 1)) by (apply Z.mul_le_mono_nonneg_r; unfold slen in *; lia). lia. }
    rewrite Z.mod_small in A2 by lia. rewrite Z.mod_small by lia. lia. }
  destruct K as [K|K]; [apply lineCount_mono; lia|].
  pose proof (lineCount_pos (length rows) g' N1). pose proof (lineCount_spec (length rows) g Hg N1) as C.
  assert (lineCount (length rows) g <= 1)%nat; [|lia]. destruct (lineCount (length rows) g) as [|[|x]]; [lia|lia|]. exfalso. cbn in C. lia.
Qed.
End Types.
