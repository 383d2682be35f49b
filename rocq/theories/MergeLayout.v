(** * MergeLayout: layouts exist and are determined. *)
From Verif Require Import GoBase Merge MergeSpec.
From Coq Require Import ZifyBool ZifyNat.

(** ** Lists *)
Lemma nth_ext {A} (l l' : list A) : (forall i, nth_error l i = nth_error l' i) -> l = l'.
Proof.
  revert l'. induction l as [|a l IH]; intros [|b l'] H; auto.
  - specialize (H 0). discriminate.
  - specialize (H 0). discriminate.
  - pose proof (H 0) as H0. injection H0 as ->. f_equal. apply IH. intros i. exact (H (S i)).
Qed.

Lemma nth_firstn {A} n (l : list A) i : nth_error (firstn n l) i = if i <? n then nth_error l i else None.
Proof.
  revert n i. induction l as [|a l IH]; intros [|n] [|i]; auto; cbn [firstn nth_error].
  - destruct (S i <? S n); auto.
  - rewrite IH. reflexivity.
Qed.

Lemma nth_skipn {A} n (l : list A) i : nth_error (skipn n l) i = nth_error l (n + i).
Proof. revert n. induction l as [|a l IH]; intros [|n]; auto. - destruct i; auto. - apply IH. Qed.

Lemma firstn_add {A} n m (l : list A) : firstn (n + m) l = firstn n l ++ firstn m (skipn n l).
Proof.
  revert l. induction n as [|n IH]; intros l; [reflexivity|]. destruct l as [|a l].
  - cbn. rewrite firstn_nil. reflexivity.
  - cbn. f_equal. apply IH.
Qed.

Lemma nth_map {A B} (f : A -> B) l i : nth_error (map f l) i = option_map f (nth_error l i).
Proof. revert i. induction l as [|a l IH]; intros [|i]; auto. apply IH. Qed.

Lemma nth_seq s n i : nth_error (seq s n) i = if i <? n then Some (s + i) else None.
Proof.
  revert s i. induction n as [|n IH]; intros s [|i]; auto; cbn [seq nth_error].
  - cbn. f_equal. lia.
  - rewrite IH. change (S i <? S n) with (i <? n). destruct (i <? n); auto. f_equal. lia.
Qed.

Lemma nth_some_lt {A} (l : list A) i a : nth_error l i = Some a -> i < length l.
Proof. intros H. apply nth_error_Some. congruence. Qed.

(** ** Chunks *)
Definition chunks {A} (w : nat) (L : nat) (rows : list A) : list (list A) :=
  map (fun l => firstn w (skipn (l * w) rows)) (seq 0 L).

Lemma concat_chunks {A} w L (rows : list A) : concat (chunks w L rows) = firstn (L * w) rows.
Proof.
  induction L as [|L IH]; [reflexivity|]. unfold chunks in *. rewrite seq_S, map_app, concat_app, IH.
  cbn [map concat plus]. rewrite app_nil_r. replace (S L * w) with (L * w + w) by lia. rewrite firstn_add. reflexivity.
Qed.

Lemma chunks_len {A} w L (rows : list A) : length (chunks w L rows) = L.
Proof. unfold chunks. rewrite map_length, seq_length. reflexivity. Qed.

Lemma chunks_nth {A} w L (rows : list A) i : nth_error (chunks w L rows) i =
  if i <? L then Some (firstn w (skipn (i * w) rows)) else None.
Proof. unfold chunks. rewrite nth_map, nth_seq. destruct (i <? L); reflexivity. Qed.

Lemma chunks_rectangle {A} w L (rows : list A) : 1 <= w -> (L - 1) * w < length rows ->
  Rectangle w (chunks w L rows).
Proof.
  intros Hw HL. split.
  - apply Forall_forall. intros r Hr. unfold chunks in Hr. apply in_map_iff in Hr. destruct Hr as (l & <- & Hl).
    apply in_seq in Hl. assert (HH : length (firstn w (skipn (l * w) rows)) = Nat.min w (length rows - l * w)).
    { rewrite firstn_length, skipn_length. reflexivity. }
    assert (l * w <= (L - 1) * w) by (apply Nat.mul_le_mono_r; lia).
    split; [|lia]. intros E. rewrite E in HH. cbn in HH. lia.
  - intros pre r r' post E. assert (N1 : nth_error (chunks w L rows) (length pre) = Some r).
    { rewrite E, nth_error_app2, Nat.sub_diag by lia. reflexivity. }
    assert (N2 : S (length pre) < L).
    { rewrite <- (chunks_len w L rows), E, app_length. cbn. lia. }
    rewrite chunks_nth in N1. destruct (Nat.ltb_spec (length pre) L); [|lia]. injection N1 as <-.
    rewrite firstn_length, skipn_length.
    assert (length pre * w + w <= (L - 1) * w).
    { replace (length pre * w + w) with ((length pre + 1) * w) by lia. apply Nat.mul_le_mono_r; lia. }
    lia.
Qed.

Lemma Rectangle_tail {A} w (r : list A) rs : Rectangle w (r :: rs) -> Rectangle w rs.
Proof.
  intros [HF HS]. split; [inversion HF; auto|]. intros pre x x' post E. apply (HS (r :: pre) x x' post). rewrite E. reflexivity.
Qed.

Lemma Rectangle_unique {A} w (rs rs' : list (list A)) : Rectangle w rs -> Rectangle w rs' ->
  concat rs = concat rs' -> rs = rs'.
Proof.
  revert rs'. induction rs as [|r rs IH]; intros [|r' rs'] HR HR' E; auto.
  - destruct HR' as [HF _]. inversion HF as [|? ? [Hne _] _]; subst. cbn in E. symmetry in E. apply app_eq_nil in E. tauto.
  - destruct HR as [HF _]. inversion HF as [|? ? [Hne _] _]; subst. cbn in E. apply app_eq_nil in E. tauto.
  - assert (Hlen : forall (a b : list A) (as_ bs : list (list A)), Rectangle w (a :: as_) -> Rectangle w (b :: bs) ->
      a ++ concat as_ = b ++ concat bs -> length a <= length b).
    { clear. intros a b as_ bs [Ha1 Ha2] [Hb1 Hb2] E. inversion Ha1 as [|? ? [_ La] Ha3]; subst.
      destruct bs as [|b' bs].
      - cbn in E. rewrite app_nil_r in E. rewrite <- E, app_length. lia.
      - rewrite (Hb2 [] b b' bs eq_refl). lia. }
    cbn [concat] in E.
    assert (L : length r = length r').
    { apply Nat.le_antisymm; [eapply (Hlen r r')|eapply (Hlen r' r)]; eauto. }
    assert (r = r').
    { transitivity (firstn (length r) (r ++ concat rs)); [rewrite firstn_app, firstn_all, Nat.sub_diag; cbn; rewrite app_nil_r; auto|].
      rewrite E, L. rewrite firstn_app, firstn_all, Nat.sub_diag. cbn. apply app_nil_r. }
    subst r'. apply app_inv_head in E. f_equal. apply IH; eauto using Rectangle_tail.
Qed.

Lemma Rectangle_bound {A} w (rs : list (list A)) : Rectangle w rs -> length (concat rs) <= length rs * w.
Proof.
  intros [HF _]. induction HF as [|r rs [_ Hr] _ IH]; [cbn; lia|]. cbn [concat length]. rewrite app_length. lia.
Qed.

(** ** The lines laid out *)
Definition lineCount (n g : nat) : nat :=
  match n with O => if 2 <=? g then 1 else 0 | S n' => n' / g + 1 end.

Lemma lineCountOf_nat n g : 1 <= g -> lineCountOf (Z.of_nat n) (Z.of_nat g) = Z.of_nat (lineCount n g).
Proof.
  intros Hg. unfold lineCountOf, lineCount. destruct n as [|n].
  - destruct (Nat.leb_spec 2 g).
    + change (Z.of_nat 0 - 1)%Z with (-(1))%Z. rewrite Z.quot_opp_l by lia. rewrite Z.quot_small by lia. reflexivity.
    + replace g with 1 by lia. reflexivity.
  - replace (Z.of_nat (S n) - 1)%Z with (Z.of_nat n) by lia.
    rewrite Z.quot_div_nonneg by lia. rewrite <- Nat2Z.inj_div, Nat2Z.inj_add. reflexivity.
Qed.

Lemma lineCount_spec n g : 1 <= g -> 1 <= n -> (lineCount n g - 1) * g < n <= lineCount n g * g.
Proof.
  intros Hg Hn. destruct n as [|n]; [lia|]. unfold lineCount.
  pose proof (Nat.div_mod n g ltac:(lia)). pose proof (Nat.mod_upper_bound n g ltac:(lia)). nia.
Qed.

Lemma lineCount_pos n g : 1 <= n -> 1 <= lineCount n g.
Proof. intros Hn. destruct n as [|n]; [lia|]. unfold lineCount. generalize (n / g). intros x. lia. Qed.

Lemma lineCount_mono n g g' : 1 <= g -> g <= g' -> 1 <= n -> lineCount n g' <= lineCount n g.
Proof.
  intros Hg Hle Hn. destruct n as [|n]; [lia|]. unfold lineCount. apply Nat.add_le_mono_r.
  apply Nat.div_le_compat_l. lia.
Qed.

(** The rows at positions [p k], up to the first that is missing. *)
Fixpoint picks {A} (p : nat -> nat) (ks : list nat) (rows : list A) : list A :=
  match ks with
  | [] => []
  | k :: ks => match nth_error rows (p k) with Some r => r :: picks p ks rows | None => [] end
  end.

Lemma picks_nth {A} p (rows : list A) : (forall k, p k <= p (S k)) -> forall n s j,
  nth_error (picks p (seq s n) rows) j = if j <? n then nth_error rows (p (s + j)) else None.
Proof.
  intros Hp n. assert (Hm : forall a b, p a <= p (a + b)).
  { intros a b. induction b as [|b IH]; [rewrite Nat.add_0_r; auto|]. rewrite Nat.add_succ_r. specialize (Hp (a + b)). lia. }
  induction n as [|n IH]; intros s j.
  - destruct j; reflexivity.
  - cbn [seq picks]. destruct (nth_error rows (p s)) eqn:E.
    + destruct j as [|j]; [rewrite Nat.add_0_r; cbn; auto|]. cbn [nth_error]. rewrite IH.
      replace (S s + j) with (s + S j) by lia. reflexivity.
    + apply nth_error_None in E. destruct (Nat.ltb_spec j (S n)); [|destruct j; auto].
      rewrite (proj2 (nth_error_None rows (p (s + j)))); [destruct j; auto|]. specialize (Hm s j). lia.
Qed.

Definition pos (m : mode) (g L l k : nat) : nat := match m with H => l * g + k | V => k * L + l end.
Lemma pos_mono m g L l k : pos m g L l k <= pos m g L l (S k).
Proof. destruct m; cbn; lia. Qed.

Definition layout_lines {A} (m : mode) (g : nat) (rows : list A) : list (list A) :=
  let L := lineCount (length rows) g in
  map (fun l => picks (pos m g L l) (seq 0 g) rows) (seq 0 L).

Lemma layout_len {A} m g (rows : list A) : length (layout_lines m g rows) = lineCount (length rows) g.
Proof. unfold layout_lines. rewrite map_length, seq_length. reflexivity. Qed.

Lemma layout_get2 {A} m g (rows : list A) l k :
  get2 (layout_lines m g rows) l k =
  if (l <? lineCount (length rows) g) && (k <? g) then nth_error rows (pos m g (lineCount (length rows) g) l k) else None.
Proof.
  unfold get2, layout_lines. rewrite nth_map, nth_seq. destruct (l <? _); [|reflexivity].
  cbn [option_map andb]. rewrite picks_nth by (apply pos_mono). reflexivity.
Qed.

Lemma layout_h {A} g (rows : list A) : layout_lines H g rows = chunks g (lineCount (length rows) g) rows.
Proof.
  unfold layout_lines, chunks. apply map_ext. intros l. apply nth_ext. intros i.
  rewrite picks_nth by (apply pos_mono). rewrite nth_firstn, nth_skipn. reflexivity.
Qed.

Lemma nil_or_pos {A} (rows : list A) : rows = [] \/ (rows <> [] /\ 1 <= length rows).
Proof. destruct rows; [auto|right; split; [discriminate|cbn; lia]]. Qed.

Lemma layout_ok {A} m g (rows : list A) : 1 <= g -> Layout m g rows (layout_lines m g rows).
Proof.
  intros Hg. destruct (nil_or_pos rows) as [->|[Hne Hn]].
  - right. split; auto. unfold layout_lines. cbn [length lineCount]. destruct (Nat.leb_spec 2 g) as [L|L]; [|reflexivity].
    cbn [seq map]. destruct g as [|g]; [lia|]. cbn [seq picks]. destruct m; reflexivity.
  - left. split; auto. pose proof (lineCount_spec (length rows) g Hg Hn) as HL.
    pose proof (lineCount_pos (length rows) g Hn) as HL1. destruct m.
    + rewrite layout_h. split.
      * rewrite concat_chunks. apply firstn_all2. lia.
      * apply chunks_rectangle; lia.
    + set (L := lineCount (length rows) g) in *.
      pose proof (lineCount_spec (length rows) L HL1 Hn) as HG. set (G := lineCount (length rows) L) in *.
      assert (G <= g) by nia.
      exists (chunks L G rows). rewrite layout_len. fold L. repeat split.
      * rewrite concat_chunks. apply firstn_all2. lia.
      * apply chunks_rectangle; lia.
      * apply (chunks_rectangle L G rows); lia.
      * rewrite chunks_len. lia.
      * intros l k. rewrite layout_get2. fold L. unfold get2. rewrite chunks_nth. cbn [pos].
        destruct (Nat.ltb_spec k G).
        -- rewrite nth_firstn, nth_skipn. destruct (Nat.ltb_spec l L); [|reflexivity].
           destruct (Nat.ltb_spec k g); [reflexivity|lia].
        -- destruct ((l <? L) && (k <? g)); [|reflexivity]. apply nth_error_None. nia.
      * apply Forall_forall. intros line Hin E. subst line. apply In_nth_error in Hin. destruct Hin as (l & Hl).
        pose proof (layout_get2 V g rows l 0) as K. unfold get2 in K. rewrite Hl in K. fold L in K.
        apply nth_some_lt in Hl. rewrite layout_len in Hl. fold L in Hl.
        destruct (Nat.ltb_spec l L); [|lia]. destruct (Nat.ltb_spec 0 g); [|lia]. cbn in K. symmetry in K.
        apply nth_error_None in K. nia.
      * lia.
Qed.

Lemma get2_ext {A} (m m' : list (list A)) : (forall i j, get2 m i j = get2 m' i j) ->
  Forall (fun r => r <> []) m -> Forall (fun r => r <> []) m' -> m = m'.
Proof.
  intros HE H1 H2. apply nth_ext. intros i.
  assert (K : forall (x y : list (list A)) r, (forall i j, get2 x i j = get2 y i j) -> Forall (fun r => r <> []) x ->
    nth_error x i = Some r -> nth_error y i = Some r).
  { clear. intros x y r HE Hx Hr. rewrite Forall_forall in Hx. pose proof (Hx r (nth_error_In _ _ Hr)) as Hne.
    unfold get2 in HE. pose proof (fun j => HE i j) as Hi. rewrite Hr in Hi.
    destruct (nth_error y i) as [r'|]; [f_equal; symmetry; apply nth_ext; auto|].
    specialize (Hi 0). destruct r; [congruence|discriminate]. }
  destruct (nth_error m i) as [r|] eqn:E1.
  - symmetry. apply (K m m'); auto.
  - destruct (nth_error m' i) as [r'|] eqn:E2; [|reflexivity].
    apply (K m' m) in E2; auto. congruence.
Qed.

Lemma concat_nonempty_len {A} (rs : list (list A)) : rs = [] -> concat rs = [].
Proof. intros ->. reflexivity. Qed.

Lemma layout_unique {A} m g (rows : list A) lines lines' :
  Layout m g rows lines -> Layout m g rows lines' -> lines = lines'.
Proof.
  intros [[Hne HL]|[HE HL]] [[Hne' HL']|[HE' HL']]; try congruence. destruct m.
  - destruct HL as [E1 R1], HL' as [E2 R2]. eapply Rectangle_unique; eauto. congruence.
  - destruct HL as (cs & E1 & R1 & B1 & T1 & N1 & M1), HL' as (cs' & E2 & R2 & B2 & T2 & N2 & M2).
    assert (E : length lines = length lines').
    { pose proof (Rectangle_bound _ _ R1) as K1. pose proof (Rectangle_bound _ _ R2) as K2. rewrite E1 in K1. rewrite E2 in K2.
      assert (length cs * length lines <= g * length lines) by (apply Nat.mul_le_mono_r; auto).
      assert (length cs' * length lines' <= g * length lines') by (apply Nat.mul_le_mono_r; auto).
      nia. }
    rewrite E in R1. assert (cs = cs') by (eapply Rectangle_unique; eauto; congruence). subst cs'.
    apply get2_ext; auto. intros. rewrite T1, T2. reflexivity.
Qed.

Lemma layout_is {A} m g (rows : list A) lines : 1 <= g -> Layout m g rows lines -> lines = layout_lines m g rows.
Proof. intros Hg HL. eapply layout_unique; eauto. apply layout_ok; auto. Qed.

(** Every line holds at most [g] rows. *)
Lemma layout_line_len {A} m g (rows : list A) line : In line (layout_lines m g rows) -> length line <= g.
Proof.
  unfold layout_lines. rewrite in_map_iff. intros (l & <- & _).
  generalize (pos m g (lineCount (length rows) g) l). intros p. clear. generalize 0.
  induction g as [|g IH]; intros s; [cbn; lia|]. cbn [seq picks].
  destruct (nth_error rows (p s)); [|cbn; lia]. cbn [length]. specialize (IH (S s)). lia.
Qed.

(** The number of lines, and never more for more groups. *)
Lemma layout_mono {A} m m' g g' (rows : list A) lines lines' : 1 <= g -> g <= g' -> rows <> [] ->
  Layout m g rows lines -> Layout m' g' rows lines' -> length lines' <= length lines.
Proof.
  intros Hg Hle Hne HL HL'. apply layout_is in HL; [|auto]. apply layout_is in HL'; [|lia]. subst.
  rewrite !layout_len. apply lineCount_mono; auto. destruct rows; [congruence|cbn; lia].
Qed.
