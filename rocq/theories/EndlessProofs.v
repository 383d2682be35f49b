(** * EndlessProofs: when the compact search has no end. *)
From Verif Require Import GoBase Runewidth Width AlignSpec Table Merge TableContract TableOpsProofs WidthTheory
  MergeSpec MergeLayout MergeRender MergeSearch MergeTheory EndlessSpec.
From Coq Require Import ZifyBool ZifyNat.
Local Open Scope Z_scope.

(** ** Arithmetic progressions modulo 65536 *)
Lemma grain_facts d : 0 < Z.gcd d 65536 /\ (Z.gcd d 65536 | d) /\ (Z.gcd d 65536 | 65536).
Proof.
  split; [|split; [apply Z.gcd_divide_l|apply Z.gcd_divide_r]].
  pose proof (Z.gcd_nonneg d 65536). destruct (Z.eq_dec (Z.gcd d 65536) 0) as [E|]; [|lia].
  apply Z.gcd_eq_0_r in E. discriminate.
Qed.

Lemma progression_le b d n : (b + n * d) mod 65536 <= 65536 - Z.gcd d 65536 + b mod Z.gcd d 65536.
Proof.
  destruct (grain_facts d) as (Hp & (d' & Hd) & (M & HM)). set (p := Z.gcd d 65536) in *.
  set (x := (b + n * d) mod 65536). assert (Hx : 0 <= x < 65536) by (apply Z.mod_pos_bound; lia).
  assert (E : x mod p = b mod p).
  { unfold x. rewrite (Z.mod_eq (b + n * d) 65536) by lia.
    replace (b + n * d - 65536 * ((b + n * d) / 65536)) with (b + (n * d' - M * ((b + n * d) / 65536)) * p) by (rewrite Hd at 2; rewrite HM at 2; ring).
    apply Z_mod_plus_full. }
  pose proof (Z.div_mod x p ltac:(lia)) as D. rewrite E in D.
  assert (x / p <= M - 1).
  { assert (x / p < M); [|lia]. apply Z.div_lt_upper_bound; lia. }
  assert (p * (x / p) <= p * (M - 1)) by (apply Z.mul_le_mono_nonneg_l; lia). lia.
Qed.

Lemma progression_reaches b d : exists n, 0 <= n < 65536 / Z.gcd d 65536 /\
  (b + n * d) mod 65536 = 65536 - Z.gcd d 65536 + b mod Z.gcd d 65536.
Proof.
  destruct (grain_facts d) as (Hp & (d' & Hd) & (M & HM)).
  destruct (Z.gcd_bezout d 65536 _ eq_refl) as (u & v & HB). set (p := Z.gcd d 65536) in *.
  assert (HM' : 65536 / p = M) by (rewrite HM; apply Z.div_mul; lia).
  assert (Mpos : 0 < M) by (destruct (Z_lt_dec 0 M); [auto|]; assert (M * p <= 0) by (apply Z.mul_nonpos_nonneg; lia); lia).
  set (e := M - 1 - b / p). exists ((u * e) mod M). split; [rewrite HM'; apply Z.mod_pos_bound; lia|].
  pose proof (Z.div_mod b p ltac:(lia)) as D. pose proof (Z.mod_pos_bound b p ltac:(lia)) as B.
  assert (p <= 65536) by (apply Z.divide_pos_le; [lia|exists M; exact HM]).
  symmetry. apply Z.mod_unique with (- (e * v) - d' * (u * e / M) + 0); [left; lia|].
  rewrite (Z.mod_eq (u * e) M) by lia.
  replace (b + (u * e - M * (u * e / M)) * d) with (b + e * (u * d) - (M * p) * (d' * (u * e / M))) by (rewrite Hd; ring).
  rewrite <- HM. replace (u * d) with (p - v * 65536) by lia.
  assert (Eb : b + e * p = 65536 - p + b mod p) by (unfold e; rewrite HM at 1; rewrite D at 1; ring). 
  replace (b + e * (p - v * 65536)) with (b + e * p - 65536 * (e * v)) by ring. rewrite Eb. ring.
Qed.

(** ** Totals of layouts with a group for every item *)
Lemma maxOf_one c rows i j : maxOf c rows i [j] = cellw c rows i j.
Proof. unfold maxOf. cbn [map fold_right]. pose proof (cellw_nonneg c rows i j). lia. Qed.

Lemma zsum_zero {A} (f : A -> Z) l : (forall a, In a l -> f a = 0) -> zsum (map f l) = 0.
Proof.
  induction l as [|a l IH]; intros H; [reflexivity|]. cbn [map]. change (f a + zsum (map f l) = 0).
  rewrite IH by (intros; apply H; right; auto). rewrite H by (left; auto). reflexivity.
Qed.

Lemma map_seq_nth {A B} (f : A -> B) (h : nat -> B) (l : list A) :
  (forall k a, nth_error l k = Some a -> h k = f a) -> map h (seq 0 (length l)) = map f l.
Proof.
  revert h. induction l as [|a l IH]; intros h Hh; [reflexivity|]. cbn [length seq map]. f_equal; [apply Hh; reflexivity|].
  rewrite <- seq_shift, map_map. apply IH. intros k a' E. apply (Hh (S k)). exact E.
Qed.

Section Types.
Context {Item Val E : Type}.

Lemma row_widths c (rows : list (list str)) k row n : nth_error rows k = Some row -> (n <= length row)%nat ->
  map (fun i => maxOf c rows i [Z.of_nat k]) (seq 0 n) = map (vwidth c) (firstn n row).
Proof.
  intros Ek Hn. rewrite <- (firstn_length_le row Hn) at 1. apply map_seq_nth. intros i s Es.
  rewrite maxOf_one. unfold cellw, get2. rewrite Nat2Z.id, Ek.
  assert (L : (i < n)%nat) by (rewrite <- (firstn_length_le row Hn); apply nth_error_Some; rewrite Es; discriminate).
  rewrite <- (firstn_skipn n row), nth_error_app1, Es; [reflexivity|]. rewrite firstn_length_le; auto.
Qed.

Lemma wide_sum c (cols : list (Column Item Val E)) rows g : Forall (fun row => (length cols <= length row)%nat) rows ->
  (1 <= g)%nat -> (length rows <= g)%nat ->
  zsum (map (fun k => zsum (gwidths cols c H rows g k)) (seq 0 g)) = cells_width c cols rows.
Proof.
  intros HF Hg Hn. assert (Es : seq 0 g = seq 0 (length rows) ++ seq (0 + length rows) (g - length rows))
    by (rewrite <- seq_app; f_equal; lia).
  rewrite Es, map_app, zsum_app. rewrite (zsum_zero _ (seq (0 + length rows) _)).
  - rewrite Z.add_0_r. unfold cells_width. f_equal. apply map_seq_nth. intros k row Ek. f_equal.
    assert (Hk : (k < length rows)%nat) by (apply nth_error_Some; rewrite Ek; discriminate).
    unfold gwidths. rewrite gidx_wide by lia. destruct (Nat.ltb_spec k (length rows)); [|lia].
    apply row_widths; auto. rewrite Forall_forall in HF. apply HF. eapply nth_error_In; eauto.
  - intros k Hk. apply in_seq in Hk. unfold gwidths. rewrite gidx_wide by lia.
    destruct (Nat.ltb_spec k (length rows)); [lia|]. apply zsum_zero. reflexivity.
Qed.

Lemma wide_is c (cols : list (Column Item Val E)) sep rows g : Forall (fun row => (length cols <= length row)%nat) rows ->
  (1 <= g)%nat -> (length rows <= g)%nat ->
  total sep cols (gwidths cols c H rows g) g = (cells_width c cols rows - slen sep) + Z.of_nat g * stride cols sep.
Proof. intros HF Hg Hn. unfold total. rewrite wide_sum by auto. unfold stride. ring. Qed.

Lemma wide_acceptable c (cols : list (Column Item Val E)) sep maxWidth rows g :
  Forall (fun row => (length cols <= length row)%nat) rows -> (2 <= g)%nat -> (length rows <= g)%nat ->
  (Acceptable c cols sep maxWidth H rows g <->
   ((cells_width c cols rows - slen sep) + Z.of_nat g * stride cols sep) mod 65536 <= effective maxWidth).
Proof.
  intros HF Hg Hn. rewrite acceptable_spec by auto. unfold acceptable_b. cbn [worth_b andb].
  rewrite wide_is by (auto; lia). apply Z.leb_le.
Qed.

(** The greatest total is reached, whatever number of groups one starts from. *)
Lemma summit_reached c (cols : list (Column Item Val E)) sep rows N : exists g, (N <= g)%nat
  /\ Z.of_nat g < Z.of_nat N + 65536 / grain cols sep
  /\ ((cells_width c cols rows - slen sep) + Z.of_nat g * stride cols sep) mod 65536 = summit c cols sep rows.
Proof.
  set (b := cells_width c cols rows - slen sep). set (d := stride cols sep).
  destruct (progression_reaches (b + Z.of_nat N * d) d) as (n & Hn & En).
  exists (N + Z.to_nat n)%nat. split; [lia|]. split; [unfold grain; fold d; lia|].
  replace (b + Z.of_nat (N + Z.to_nat n) * d) with (b + Z.of_nat N * d + n * d).
  - rewrite En. unfold summit, grain. fold b d. f_equal. destruct (grain_facts d) as (Hp & (d' & Hd) & _).
    set (p := Z.gcd d 65536) in *. replace (b + Z.of_nat N * d) with (b + (Z.of_nat N * d') * p) by (rewrite Hd; ring).
    apply Z_mod_plus_full.
  - rewrite Nat2Z.inj_add, Z2Nat.id by lia. ring.
Qed.

Section Printing.
Context {c : Condition} {t : Table Item Val E} {cols : list (Column Item Val E)} {items : FormattedItemList E}
  {rows : list (list str)}.
Hypothesis HP : Printable t cols items rows.

Lemma endless_iff maxWidth sep g0 : reckoned t cols sep mod 65536 <> 0 ->
  Z.of_nat g0 = estimate t cols sep maxWidth ->
  ((forall fuel, stop (MergeRowsHorizontal fuel c t (fun _ => true) items maxWidth sep true) = Running) <->
   (forall g, (g0 < g <= length rows)%nat -> Acceptable c cols sep maxWidth H rows g)
   /\ summit c cols sep rows <= effective maxWidth).
Proof.
  intros Hr Hg. pose proof (estimate_pos t cols sep maxWidth) as Hp. pose proof (pr_long _ _ _ _ HP) as HF. split.
  - intros HA. assert (HB : forall g, (g0 < g)%nat -> Acceptable c cols sep maxWidth H rows g).
    { intros g Lg. specialize (HA (g - g0)%nat).
      apply (proj1 (compact_running HP H (g - g0) maxWidth sep g0 Hr Hg) HA). lia. }
    split; [intros g Lg; apply HB; lia|].
    destruct (summit_reached c cols sep rows (Nat.max (S g0) (length rows))) as (g & Lg & _ & Eg).
    rewrite <- Eg. apply wide_acceptable; [exact HF|lia|lia|]. apply HB. lia.
  - intros [HA HS] fuel. apply (compact_running HP H fuel maxWidth sep g0 Hr Hg). intros g Lg.
    destruct (Nat.le_gt_cases g (length rows)) as [L|L]; [apply HA; lia|].
    apply wide_acceptable; [exact HF|lia|lia|]. eapply Z.le_trans; [|exact HS].
    apply progression_le.
Qed.

Lemma ends_soon maxWidth sep fuel fuel' : reckoned t cols sep mod 65536 <> 0 ->
  stop (MergeRowsHorizontal fuel c t (fun _ => true) items maxWidth sep true) <> Running ->
  slen rows + 65536 / grain cols sep < Z.of_nat fuel' ->
  stop (MergeRowsHorizontal fuel' c t (fun _ => true) items maxWidth sep true) = Finished.
Proof.
  intros Hr Hn Hf. pose proof (estimate_pos t cols sep maxWidth) as Hp. pose proof (pr_long _ _ _ _ HP) as HF.
  assert (Hg : Z.of_nat (Z.to_nat (estimate t cols sep maxWidth)) = estimate t cols sep maxWidth) by lia.
  set (g0 := Z.to_nat (estimate t cols sep maxWidth)) in *.
  destruct (merge_stops (c := c) HP H fuel' maxWidth sep true Hr) as [K|[_ K]]; [exact K|]. exfalso. apply Hn.
  pose proof (proj1 (compact_running HP H fuel' maxWidth sep g0 Hr Hg) K) as HA.
  refine (proj2 (endless_iff maxWidth sep g0 Hr Hg) _ fuel). split.
  - intros g Lg. apply HA. unfold slen in Hf. pose proof (Z.div_pos 65536 (grain cols sep) ltac:(lia) (proj1 (grain_facts _))). lia.
  - destruct (summit_reached c cols sep rows (Nat.max (S g0) (length rows))) as (g & Lg & Ug & Eg).
    rewrite <- Eg. apply wide_acceptable; [exact HF|lia|lia|]. apply HA. unfold slen in Hf. lia.
Qed.

Lemma ends_above maxWidth sep : reckoned t cols sep mod 65536 <> 0 -> effective maxWidth < summit c cols sep rows ->
  forall fuel, slen rows + 65536 / grain cols sep < Z.of_nat fuel ->
  stop (MergeRowsHorizontal fuel c t (fun _ => true) items maxWidth sep true) = Finished.
Proof.
  intros Hr Hs fuel Hf. pose proof (estimate_pos t cols sep maxWidth) as Hp.
  assert (Hg : Z.of_nat (Z.to_nat (estimate t cols sep maxWidth)) = estimate t cols sep maxWidth) by lia.
  set (g0 := Z.to_nat (estimate t cols sep maxWidth)) in *.
  destruct (merge_stops (c := c) HP H fuel maxWidth sep true Hr) as [K|[_ K]]; [exact K|]. exfalso.
  apply Z.lt_nge in Hs. apply Hs. pose proof (proj1 (compact_running HP H fuel maxWidth sep g0 Hr Hg) K) as HA.
  destruct (summit_reached c cols sep rows (Nat.max (S g0) (length rows))) as (g & Lg & Ug & Eg).
  rewrite <- Eg. apply wide_acceptable; [exact (pr_long _ _ _ _ HP)|lia|lia|]. apply HA. unfold slen in Hf. lia.
Qed.

Lemma ends_fine maxWidth sep : reckoned t cols sep mod 65536 <> 0 -> grain cols sep <= 65535 - effective maxWidth ->
  forall fuel, slen rows + 65536 / grain cols sep < Z.of_nat fuel ->
  stop (MergeRowsHorizontal fuel c t (fun _ => true) items maxWidth sep true) = Finished.
Proof.
  intros Hr Hs. apply ends_above; [exact Hr|]. pose proof (proj1 (grain_facts (stride cols sep))) as G.
  unfold summit. pose proof (Z.mod_pos_bound (cells_width c cols rows - slen sep) (grain cols sep) G). lia.
Qed.

Lemma odd_grain sep : Z.odd (stride cols sep) = true -> grain cols sep = 1.
Proof.
  intros Ho. unfold grain. change 65536 with (2 ^ 16). destruct (grain_facts (stride cols sep)) as (Hp & (d & Hd) & Hm).
  change 65536 with (2 ^ 16) in *. set (p := Z.gcd (stride cols sep) (2 ^ 16)) in *.
  assert (Op : Z.odd p = true).
  { rewrite Hd, Z.odd_mul, andb_true_iff in Ho. tauto. }
  assert (R : Z.gcd p 2 = 1).
  { assert (D : (Z.gcd p 2 | 2)) by apply Z.gcd_divide_r. apply Z.divide_pos_le in D as D'; [|lia].
    pose proof (Z.gcd_nonneg p 2). assert (C : Z.gcd p 2 = 0 \/ Z.gcd p 2 = 1 \/ Z.gcd p 2 = 2) by lia.
    destruct C as [C|[C|C]]; [apply Z.gcd_eq_0_r in C; discriminate|exact C|].
    assert (D2 : (Z.gcd p 2 | p)) by apply Z.gcd_divide_l. rewrite C in D2. destruct D2 as (q & ->).
    rewrite Z.odd_mul in Op. rewrite andb_false_r in Op. discriminate. }
  assert (forall n : nat, (p | 2 ^ Z.of_nat n) -> p = 1) as K; [|apply (K 16%nat); exact Hm].
  induction n as [|n IH]; intros Hn.
  - change (2 ^ Z.of_nat 0) with 1 in Hn. apply Z.divide_pos_le in Hn; lia.
  - apply IH. rewrite Nat2Z.inj_succ, Z.pow_succ_r in Hn by lia. eapply Z.gauss; eauto.
Qed.

Lemma ends_odd maxWidth sep : reckoned t cols sep mod 65536 <> 0 -> Z.odd (stride cols sep) = true ->
  effective maxWidth <> 65535 -> forall fuel, slen rows + 65536 < Z.of_nat fuel ->
  stop (MergeRowsHorizontal fuel c t (fun _ => true) items maxWidth sep true) = Finished.
Proof.
  intros Hr Ho Hm fuel Hf. apply odd_grain in Ho. apply ends_fine; [exact Hr| |]; rewrite Ho.
  - assert (effective maxWidth < 65536); [|lia]. unfold effective. destruct (maxWidth >? 65535); [lia|].
    apply Z.mod_pos_bound. lia.
  - change (65536 / 1) with 65536. exact Hf.
Qed.
End Printing.
End Types.
