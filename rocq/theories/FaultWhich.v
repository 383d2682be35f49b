(** * FaultWhich: the item a compact merge panics for. *)
From Verif Require Import GoBase Runewidth Width Table Merge TableContract TableOpsProofs MergeSpec MergeLayout MergeRender MergeSearch MergeTheory
  MergeAsked MergeAskedProofs FaultSpec FaultProofs.
From Coq Require Import ZifyBool ZifyNat.
Local Open Scope Z_scope.

Lemma flat_map_split {A B} (f : A -> list B) l pre x post : flat_map f l = pre ++ x :: post ->
  exists l1 a l2 p1 p2, l = l1 ++ a :: l2 /\ f a = p1 ++ x :: p2 /\ pre = flat_map f l1 ++ p1.
Proof.
  revert pre. induction l as [|a l IH]; intros pre K; cbn [flat_map] in K; [destruct pre; discriminate|].
  apply app_eq_app in K. destruct K as (z & [[E1 E2]|[E1 E2]]).
  - destruct z as [|y z].
    + cbn in E2. destruct (IH [] (eq_sym E2)) as (l1 & b & l2 & p1 & p2 & K1 & K2 & K3).
      exists (a :: l1), b, l2, p1, p2. split; [rewrite K1; reflexivity|]. split; [exact K2|]. cbn [flat_map]. rewrite <- app_assoc, <- K3, E1, !app_nil_r. reflexivity.
    + injection E2 as <- E2. exists [], a, l, pre, z. auto.
  - destruct (IH z E2) as (l1 & b & l2 & p1 & p2 & K1 & K2 & K3). exists (a :: l1), b, l2, p1, p2.
    split; [rewrite K1; reflexivity|]. split; [exact K2|]. cbn [flat_map]. rewrite <- app_assoc, <- K3. exact E1.
Qed.
Lemma map_split {A B} (f : A -> B) l pre x post : map f l = pre ++ x :: post ->
  exists l1 a l2, l = l1 ++ a :: l2 /\ f a = x /\ pre = map f l1.
Proof.
  revert l. induction pre as [|y pre IH]; intros [|a l] K; try discriminate; cbn in K; injection K as K1 K2.
  - exists [], a, l. auto.
  - destruct (IH l K2) as (l1 & b & l2 & E1 & E2 & E3). exists (a :: l1), b, l2. rewrite E1, E3, <- K1. auto.
Qed.

Section Types.
Context {Item Val E : Type}.
Lemma omap_first {A B} (f : A -> outcome E B) l1 a l2 p : (forall x, In x l1 -> exists b, f x = Ok b) -> f a = Panic p -> omap f (l1 ++ a :: l2) = Panic p.
Proof.
  intros Hg Hp. induction l1 as [|x l1 IH]; cbn [app omap]; [rewrite Hp; reflexivity|].
  destruct (Hg x (or_introl eq_refl)) as (b & ->). cbn [obind]. rewrite IH; [reflexivity|]. intros; apply Hg; right; assumption.
Qed.
Lemma omap_good {A B} (f : A -> outcome E B) l : (forall x, In x l -> exists b, f x = Ok b) -> exists bs, omap f l = Ok bs.
Proof.
  intros Hg. induction l as [|x l IH]; cbn [omap]; [eauto|]. destruct (Hg x (or_introl eq_refl)) as (b & ->). cbn [obind].
  destruct IH as (bs & ->); [intros; apply Hg; right; assumption|]. cbn. eauto.
Qed.

Section Printing.
Context {c : Condition} {t : Table Item Val E} {cols : list (Column Item Val E)} {items : FormattedItemList E} {n : nat}.
Hypothesis HC : Columns (tSpec t) = map Some cols.
Hypothesis HN : fiLen items = Z.of_nat n.

Lemma cell_good i js mw : (forall j, In j js -> GoodCell items j i) -> exists w, maxCell c items (Z.of_nat i) (map Z.of_nat js) mw = Ok w.
Proof.
  revert mw. induction js as [|j js IH]; intros mw Hg; cbn [map maxCell]; [eauto|]. destruct (Hg j (or_introl eq_refl)) as (row & -> & Hi). cbn [obind].
  destruct (nth_error row i) as [s|] eqn:Es; [|apply nth_error_None in Es; lia]. rewrite (index_nat _ _ _ Es). cbn [obind]. apply IH. intros; apply Hg; right; assumption.
Qed.
Lemma cell_bad i l1 j l2 mw p : (forall j', In j' l1 -> GoodCell items j' i) -> BadCell items j i p ->
  maxCell c items (Z.of_nat i) (map Z.of_nat (l1 ++ j :: l2)) mw = Panic p.
Proof.
  revert mw. induction l1 as [|j' l1 IH]; intros mw Hg Hb; cbn [app map maxCell].
  - destruct Hb as [->|(-> & row & -> & Hi)]; [reflexivity|]. cbn [obind]. unfold index, at_index.
    destruct (Z.ltb_spec (Z.of_nat i) 0); [lia|]. rewrite Nat2Z.id, (proj2 (nth_error_None row i) Hi). reflexivity.
  - destruct (Hg j' (or_introl eq_refl)) as (row & -> & Hi). cbn [obind].
    destruct (nth_error row i) as [s|] eqn:Es; [|apply nth_error_None in Es; lia]. rewrite (index_nat _ _ _ Es). cbn [obind]. apply IH; [intros; apply Hg; right; assumption|exact Hb].
Qed.

Lemma widths_first m g idxs pre j i post p : (1 <= g)%nat ->
  (forall k, (k < g)%nat -> idxs (Z.of_nat k) = gidx m n g (Z.of_nat k)) ->
  cell_order (length cols) g (layout_lines m g (seq 0 n)) = pre ++ (j, i) :: post ->
  Forall (fun '(j', i') => GoodCell items j' i') pre -> BadCell items j i p ->
  widthsOf c items (ColumnCount (tSpec t)) idxs (Z.of_nat g) = Panic p.
Proof.
  intros Hg Hidx HS Hpre Hb. unfold cell_order in HS. apply flat_map_split in HS. destruct HS as (ks & k & ks' & p1 & p2 & E1 & E2 & ->).
  apply flat_map_split in E2. destruct E2 as (is_ & i0 & is' & q1 & q2 & E3 & E4 & ->). apply map_split in E4. destruct E4 as (js & j0 & js' & E5 & E6 & ->).
  injection E6 as -> ->. apply Forall_app in Hpre. destruct Hpre as [Hk Hpre]. apply Forall_app in Hpre. destruct Hpre as [Hi Hj].
  rewrite Forall_forall in Hk, Hi, Hj.
  assert (Kg : forall k', In k' (seq 0 g) -> (k' < g)%nat) by (intros k' K; apply in_seq in K; lia).
  assert (Hkg : (k < g)%nat) by (apply Kg; rewrite E1; apply in_elt).
  unfold widthsOf, ColumnCount. rewrite HC. unfold slen. rewrite map_length, !zrange_nat. rewrite E1, map_app. cbn [map].
  rewrite (omap_first _ _ _ _ p); [reflexivity| |].
  - intros kz Hkz. apply in_map_iff in Hkz. destruct Hkz as (k' & <- & Hk'). assert (k' < g)%nat by (apply Kg; rewrite E1; apply in_or_app; auto).
    apply omap_good. intros iz Hiz. apply in_map_iff in Hiz. destruct Hiz as (i' & <- & Hi'). rewrite Hidx, group_gidx by assumption. apply cell_good.
    intros j' Hj'. apply (Hk (j', i')). apply in_flat_map. exists k'. split; [exact Hk'|]. apply in_flat_map. exists i'. split; [exact Hi'|]. apply (in_map (fun j => (j, i'))), Hj'.
  - rewrite E3, map_app. cbn [map]. rewrite Hidx, group_gidx by assumption. apply omap_first.
    + intros iz Hiz. apply in_map_iff in Hiz. destruct Hiz as (i' & <- & Hi'). apply cell_good. intros j' Hj'. apply (Hi (j', i')). apply in_flat_map. exists i'.
      split; [exact Hi'|]. apply (in_map (fun j => (j, i'))), Hj'.
    + rewrite E5. apply cell_bad; [|exact Hb]. intros j' Hj'. apply (Hj (j', i)). apply (in_map (fun j => (j, i))), Hj'.
Qed.

Lemma compact_which m fuel maxWidth sep g0 lines pre j i post p (rows : list (list str)) : length rows = n ->
  reckoned t cols sep mod 65536 <> 0 -> (1 <= fuel)%nat ->
  Z.of_nat g0 = estimate t cols sep maxWidth -> Worth m rows (S g0) -> Layout m (S g0) (seq 0 n) lines ->
  cell_order (length cols) (S g0) lines = pre ++ (j, i) :: post -> Forall (fun '(j', i') => GoodCell items j' i') pre -> BadCell items j i p ->
  forall ok, merge m fuel c t ok items maxWidth sep true = {| written := []; stop := Panicked p |}.
Proof.
  intros Ln Hr Hfu Hg Hw HL HS Hpre Hb ok. pose proof (estimate_pos t cols sep maxWidth) as Hp.
  apply layout_is in HL; [|lia]. subst lines. rewrite worth_spec, Ln in Hw by lia.
  destruct fuel as [|fuel]; [lia|]. destruct m; unfold merge, MergeRowsHorizontal, MergeRowsVertical; rewrite (estimate_ok t cols maxWidth sep HC);
    (destruct (Z.eqb_spec (reckoned t cols sep mod 65536) 0); [lia|]); rewrite <- Hg; cbn [compactCalcH_loop compactCalcV_loop];
    replace (Z.of_nat g0 + 0 + 1) with (Z.of_nat (S g0)) by lia.
  - unfold mergedRowsWidthH. rewrite (widths_first H (S g0) _ pre j i post p) by (try assumption; try lia; intros; rewrite HN; reflexivity). reflexivity.
  - unfold mergedRowsWidthV. rewrite HN, lineCountOf_nat by lia. set (L := lineCount n (S g0)).
    assert (Hn : (1 <= n)%nat).
    { destruct n as [|n']; [|lia]. exfalso. cbn [worth_b] in Hw. apply Nat.ltb_lt in Hw. lia. }
    assert (HL : (1 <= L)%nat) by (apply lineCount_pos; lia). destruct (Z.eqb_spec (Z.of_nat L) 0) as [|_]; [lia|].
    cbn [worth_b] in Hw. fold L in Hw. apply Nat.ltb_lt in Hw.
    assert (HW : (Z.of_nat (S g0) >? Z.quot (Z.of_nat n - 1) (Z.of_nat L) + 1) = false).
    { rewrite Z.quot_div_nonneg by lia.
      pose proof (Z.mul_succ_div_gt (Z.of_nat n - 1) (Z.of_nat L) ltac:(lia)) as K2.
      set (q := (Z.of_nat n - 1) / Z.of_nat L) in *. apply not_true_iff_false. intros K. apply Z.gtb_lt in K.
      assert (q + 1 <= Z.of_nat g0) as K3 by lia. pose proof (Z.mul_le_mono_nonneg_l _ _ (Z.of_nat L) ltac:(lia) K3).
      replace (Z.succ q) with (q + 1) in K2 by lia. replace (S g0 - 1)%nat with g0 in Hw by lia. lia. }
    rewrite HW. rewrite (widths_first V (S g0) _ pre j i post p) by (try assumption; try lia; intros; reflexivity). reflexivity.
Qed.
End Printing.
End Types.
