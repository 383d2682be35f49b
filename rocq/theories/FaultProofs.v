(** * FaultProofs: merging rows some of which cannot be printed. *)
From Verif Require Import GoBase Runewidth Width AlignSpec Table Merge TableContract TableOpsProofs MergeSpec MergeLayout MergeRender MergeSearch MergeTheory FaultSpec.
From Coq Require Import ZifyBool ZifyNat.
Local Open Scope Z_scope.

Lemma numbered_nth {A} (rows : list A) i : nth_error (numbered rows) i = option_map (fun r => (i, r)) (nth_error rows i).
Proof.
  unfold numbered. enough (G : forall s, nth_error (combine (seq s (length rows)) rows) i = option_map (fun r => ((s + i)%nat, r)) (nth_error rows i)) by apply (G 0%nat).
  revert i. induction rows as [|r rows IH]; intros [|i] s; cbn [length seq combine nth_error option_map]; try reflexivity.
  - rewrite Nat.add_0_r. reflexivity.
  - rewrite IH. destruct (nth_error rows i); cbn; [do 2 f_equal; lia|reflexivity].
Qed.
Lemma numbered_len {A} (rows : list A) : length (numbered rows) = length rows.
Proof. unfold numbered. rewrite combine_length, seq_length. lia. Qed.

Section Types.
Context {Item Val E : Type}.
Section Printing.
Context {c : Condition} {t : Table Item Val E} {cols : list (Column Item Val E)} {items : FormattedItemList E}
  {rows : list (list str)} {fails : nat -> option panic_reason}.
Hypothesis HF : Faulty t cols items rows fails.

Lemma cells_short (getWidth : Z -> Z -> outcome E Z) item k (cs : list (Column Item Val E)) : forall i,
  (length item < i + length cs)%nat -> (i <= length item)%nat ->
  (forall j, (i <= j < i + length cs)%nat -> exists w, getWidth (Z.of_nat j) k = Ok w) ->
  cells_loop c getWidth (map Some cs) item (Z.of_nat i) k = Panic IndexOutOfRange.
Proof.
  induction cs as [|col cs IH]; intros i H1 H2 Hw; cbn [length] in *; [lia|]. cbn [map cells_loop].
  destruct (nth_error item i) as [s|] eqn:Es.
  - rewrite (index_nat _ _ _ Es). cbn [obind]. destruct (Hw i) as (w & Ew); [lia|]. rewrite Ew. cbn [obind].
    replace (Z.of_nat i + 1) with (Z.of_nat (S i)) by lia. apply nth_some_lt in Es. rewrite IH; [reflexivity|lia|lia|].
    intros j Hj. apply Hw. lia.
  - unfold index, at_index. destruct (Z.ltb_spec (Z.of_nat i) 0); [lia|]. rewrite Nat2Z.id, Es. reflexivity.
Qed.

Lemma render_good getWidth W g i k row : Reads getWidth (length cols) g W -> (k < g)%nat -> nth_error rows i = Some row -> fails i = None ->
  renderItem c t items getWidth (Z.of_nat i) (Z.of_nat k) = Ok (block c cols (W k) row).
Proof.
  intros HR Hk Hrow Hf. destruct HF as [Hc Hn Hg]. specialize (Hg i row Hrow). rewrite Hf in Hg. destruct Hg as [Hg Hl].
  unfold renderItem. rewrite Hg. cbn [obind]. rewrite Hc. destruct (HR k Hk) as [HL HW].
  change 0 with (Z.of_nat 0). rewrite (cells_ok c getWidth row (Z.of_nat k) cols (W k) 0); auto.
Qed.
Lemma render_bad getWidth W g i k row p : Reads getWidth (length cols) g W -> (k < g)%nat -> nth_error rows i = Some row -> fails i = Some p ->
  renderItem c t items getWidth (Z.of_nat i) (Z.of_nat k) = Panic p.
Proof.
  intros HR Hk Hrow Hf. destruct HF as [Hc Hn Hg]. specialize (Hg i row Hrow). rewrite Hf in Hg. unfold renderItem.
  destruct Hg as [->|(-> & short & -> & Hl)]; [reflexivity|]. cbn [obind]. rewrite Hc. change 0 with (Z.of_nat 0). rewrite cells_short; [reflexivity|cbn; lia|cbn; lia|].
  intros j Hj. destruct (HR k Hk) as [HL HW]. destruct (nth_error (W k) j) as [w|] eqn:Ew; [eauto|]. apply nth_error_None in Ew. lia.
Qed.

Lemma groups_good getWidth W g (p : nat -> nat) (P : Z -> Z) : Reads getWidth (length cols) g W ->
  (forall k, P (Z.of_nat k) = Z.of_nat (p k)) -> forall n s, (s + n <= g)%nat ->
  faultless fails (picks p (seq s n) (numbered rows)) ->
  groups_loop (fiLen items) P (renderItem c t items getWidth) (map Z.of_nat (seq s n)) =
  Ok (blocks_from c cols W s (map snd (picks p (seq s n) (numbered rows))) ++
      if (length (picks p (seq s n) (numbered rows)) <? n)%nat then [[]] else []).
Proof.
  intros HR Hpos. pose proof (fa_len _ _ _ _ _ HF) as HN. unfold slen in HN.
  induction n as [|n IH]; intros s Hs Hg; [reflexivity|].
  cbn [seq map groups_loop picks] in *. rewrite Hpos, HN. rewrite numbered_nth in *.
  destruct (nth_error rows (p s)) as [row|] eqn:Er; cbn [option_map] in *.
  - pose proof (nth_some_lt _ _ _ Er). destruct (Z.geb_spec (Z.of_nat (p s)) (Z.of_nat (length rows))); [lia|].
    inversion Hg; subst. rewrite (render_good getWidth W g (p s) s row HR) by (auto; lia). cbn [obind].
    rewrite <- HN, IH by (auto; lia). cbn [obind map snd blocks_from app length]. reflexivity.
  - apply nth_error_None in Er. destruct (Z.geb_spec (Z.of_nat (p s)) (Z.of_nat (length rows))); [|lia]. reflexivity.
Qed.
Lemma groups_bad getWidth W g (p : nat -> nat) (P : Z -> Z) i row q : Reads getWidth (length cols) g W ->
  (forall k, P (Z.of_nat k) = Z.of_nat (p k)) -> fails i = Some q -> forall n s before after, (s + n <= g)%nat ->
  picks p (seq s n) (numbered rows) = before ++ (i, row) :: after -> faultless fails before ->
  groups_loop (fiLen items) P (renderItem c t items getWidth) (map Z.of_nat (seq s n)) = Panic q.
Proof.
  intros HR Hpos Hq. pose proof (fa_len _ _ _ _ _ HF) as HN. unfold slen in HN.
  induction n as [|n IH]; intros s before after Hs Hp Hg; [destruct before; discriminate|].
  cbn [seq map groups_loop picks] in *. rewrite Hpos, HN. rewrite numbered_nth in Hp.
  destruct (nth_error rows (p s)) as [row'|] eqn:Er; cbn [option_map] in *; [|destruct before; discriminate].
  pose proof (nth_some_lt _ _ _ Er). destruct (Z.geb_spec (Z.of_nat (p s)) (Z.of_nat (length rows))); [lia|].
  destruct before as [|[i' r'] before].
  - injection Hp as <- <- _. rewrite (render_bad getWidth W g (p s) s row' q HR) by (auto; lia). reflexivity.
  - injection Hp as <- <- Hp. inversion Hg; subst. rewrite (render_good getWidth W g (p s) s row' HR) by (auto; lia). cbn [obind].
    rewrite <- HN, (IH (S s) before after) by (auto; lia). reflexivity.
Qed.

Lemma lines_loop_prefix (f : Z -> outcome E str) (h : nat -> str) n : forall s k acc rest,
  (forall l, (s <= l < s + n)%nat -> f (Z.of_nat l) = Ok (h l)) ->
  lines_loop (fun _ => true) f (map Z.of_nat (seq s n) ++ rest) k acc
  = lines_loop (fun _ => true) f rest (k + n) (acc ++ map (fun l => h l ++ [x0a]) (seq s n)).
Proof.
  induction n as [|n IH]; intros s k acc rest H; cbn [seq map app].
  - rewrite Nat.add_0_r, app_nil_r. reflexivity.
  - cbn [lines_loop]. rewrite H by lia. rewrite IH by (intros; apply H; lia). rewrite <- app_assoc. cbn [app].
    replace (S k + n)%nat with (k + S n)%nat by lia. reflexivity.
Qed.

Lemma unfold_plain m fuel maxWidth sep : reckoned t cols sep mod 65536 <> 0 ->
  merge m fuel c t (fun _ => true) items maxWidth sep false =
  emitLines c t items sep (fun _ => true) (estimate t cols sep maxWidth) (getWidth_default t) (zpos m (estimate t cols sep maxWidth)).
Proof.
  intros Hr. destruct m; unfold merge, MergeRowsHorizontal, MergeRowsVertical; rewrite (estimate_ok t cols maxWidth sep (fa_columns _ _ _ _ _ HF));
    (destruct (Z.eqb_spec (reckoned t cols sep mod 65536) 0); [lia|]); reflexivity.
Qed.

Lemma default_reads g : Reads (getWidth_default t) (length cols) g (fun _ => recorded t cols).
Proof.
  intros k Hk. unfold recorded. rewrite map_length. split; [reflexivity|]. intros i w Hi.
  rewrite nth_map in Hi. destruct (nth_error cols i) as [col|] eqn:Ec; [|discriminate]. cbn in Hi. injection Hi as <-.
  unfold getWidth_default. rewrite (fa_columns _ _ _ _ _ HF), (index_nat _ i (Some col)) by (rewrite nth_map, Ec; reflexivity). reflexivity.
Qed.

Lemma plain_fault m fuel maxWidth sep g lines : reckoned t cols sep mod 65536 <> 0 ->
  Z.of_nat g = estimate t cols sep maxWidth -> Layout m g (numbered rows) lines ->
  let r := merge m fuel c t (fun _ => true) items maxWidth sep false in
  let text := fun ls => printed c cols sep (fun _ => recorded t cols) g (map (map snd) ls) in
  (Forall (faultless fails) lines -> r = {| written := text lines; stop := Finished |})
  /\ forall pre before i row after post p, lines = pre ++ (before ++ (i, row) :: after) :: post ->
     Forall (faultless fails) pre -> faultless fails before -> fails i = Some p ->
     r = {| written := text pre; stop := Panicked p |}.
Proof.
  intros Hr Hg HL r text. pose proof (estimate_pos t cols sep maxWidth) as Hp. assert (Hg1 : (1 <= g)%nat) by lia.
  apply layout_is in HL; [|exact Hg1]. set (L := lineCount (length rows) g).
  assert (EL : lines = map (fun l => picks (pos m g L l) (seq 0 g) (numbered rows)) (seq 0 L)) by (rewrite HL; unfold layout_lines; rewrite numbered_len; reflexivity).
  set (f := fun lineI : Z => obind (groups_loop (fiLen items) (zpos m (Z.of_nat g) (Z.of_nat L) lineI) (renderItem c t items (getWidth_default t)) (zrange (Z.of_nat g)))
              (fun blocks => Ok (GoBase.join sep blocks))).
  assert (Er : r = lines_loop (fun _ => true) f (map Z.of_nat (seq 0 L)) 0 []).
  { unfold r. rewrite unfold_plain by exact Hr. rewrite <- Hg. unfold emitLines, f. pose proof (fa_len _ _ _ _ _ HF) as HN. unfold slen in HN. rewrite HN, lineCountOf_nat by exact Hg1. fold L.
    rewrite (zrange_nat L). reflexivity. }
  assert (Hpos : forall l k, zpos m (Z.of_nat g) (Z.of_nat L) (Z.of_nat l) (Z.of_nat k) = Z.of_nat (pos m g L l k)) by (intros; destruct m; cbn [zpos pos]; lia).
  set (pl := fun l => picks (pos m g L l) (seq 0 g) (numbered rows)) in *.
  assert (Good : forall l, faultless fails (pl l) -> f (Z.of_nat l) = Ok (line_text c cols sep (fun _ => recorded t cols) g (map snd (pl l)))).
  { intros l Hl. unfold f. rewrite zrange_nat, (groups_good _ _ g (pos m g L l) _ (default_reads g)) by (auto). cbn [obind].
    unfold line_text, blocks. rewrite map_length. reflexivity. }
  split.
  - intros Hall. rewrite Er, <- (app_nil_r (map Z.of_nat (seq 0 L))).
    rewrite (lines_loop_prefix f (fun l => line_text c cols sep (fun _ => recorded t cols) g (map snd (pl l)))).
    + cbn [lines_loop app]. f_equal. unfold text, printed. rewrite EL, !map_map. reflexivity.
    + intros l Hl. apply Good. rewrite Forall_forall in Hall. apply Hall. rewrite EL. apply in_map, in_seq. lia.
  - intros pre before i row after post p El Hpre Hbef Hf.
    assert (HlenL : length lines = L) by (rewrite EL, map_length, seq_length; reflexivity).
    assert (Hn : (length pre < L)%nat) by (rewrite <- HlenL, El, app_length; cbn; lia).
    assert (Hnth : forall l x, nth_error lines l = Some x -> x = pl l).
    { intros l x Hx. rewrite EL, nth_map, nth_seq in Hx. destruct (l <? L)%nat; [|discriminate]. injection Hx as <-. reflexivity. }
    assert (Hbad : before ++ (i, row) :: after = pl (length pre)).
    { apply Hnth. rewrite El, nth_error_app2, Nat.sub_diag by lia. reflexivity. }
    rewrite Er. replace L with (length pre + S (L - length pre - 1))%nat at 1 by lia. rewrite seq_app, map_app. cbn [seq map plus].
    rewrite (lines_loop_prefix f (fun l => line_text c cols sep (fun _ => recorded t cols) g (map snd (pl l)))).
    + cbn [lines_loop]. unfold f at 1. rewrite zrange_nat.
      rewrite (groups_bad _ _ g (pos m g L (length pre)) _ i row p (default_reads g) (Hpos _) Hf g 0%nat before after) by (try exact Hbef; try (symmetry; exact Hbad); lia).
      cbn [obind app]. f_equal. unfold text, printed. rewrite map_map.
      assert (Epre : pre = map pl (seq 0 (length pre))).
      { apply MergeLayout.nth_ext. intros j. rewrite nth_map, nth_seq. destruct (Nat.ltb_spec j (length pre)) as [Hj|Hj]; [|apply nth_error_None; lia].
        destruct (nth_error pre j) as [x|] eqn:Ej; [|apply nth_error_None in Ej; lia]. cbn. f_equal. apply Hnth. rewrite El, nth_error_app1 by lia. exact Ej. }
      rewrite Epre at 2. rewrite map_map. reflexivity.
    + intros l Hl. apply Good. destruct (nth_error pre l) as [x|] eqn:Ex; [|apply nth_error_None in Ex; lia].
      rewrite Forall_forall in Hpre. rewrite <- (Hnth l x); [apply Hpre; eapply nth_error_In; exact Ex|]. rewrite El, nth_error_app1 by lia. exact Ex.
Qed.

(** ** Compact *)
Definition FaultOf (p : panic_reason) : Prop := exists i, (i < length rows)%nat /\ fails i = Some p.

Lemma maxCell_cases i : (i < length cols)%nat -> forall js mw,
  (forall j, In j js -> exists jn, j = Z.of_nat jn /\ (jn < length rows)%nat) ->
  (exists w, maxCell c items (Z.of_nat i) js mw = Ok w) \/ (exists p, maxCell c items (Z.of_nat i) js mw = Panic p /\ FaultOf p).
Proof.
  intros Hi. induction js as [|j js IH]; intros mw Hj; cbn [maxCell]; [eauto|].
  destruct (Hj j (or_introl eq_refl)) as (jn & -> & Hjn). destruct (nth_error rows jn) as [row|] eqn:Er; [|apply nth_error_None in Er; lia].
  pose proof (fa_get _ _ _ _ _ HF jn row Er) as HG. assert (K : forall mw, (exists w, maxCell c items (Z.of_nat i) js mw = Ok w) \/ (exists p, maxCell c items (Z.of_nat i) js mw = Panic p /\ FaultOf p)).
  { intros mw'. apply IH. intros j' Hj'. apply Hj. right. exact Hj'. }
  destruct (fails jn) as [p|] eqn:Ef.
  - destruct HG as [->|(-> & short & -> & Hs)]; cbn [obind]; [right; exists p; split; [reflexivity|exists jn; auto]|].
    destruct (nth_error short i) as [s|] eqn:Es; [rewrite (index_nat _ _ _ Es); cbn [obind]; apply K|].
    right. exists IndexOutOfRange. split; [|exists jn; auto]. unfold index, at_index. destruct (Z.ltb_spec (Z.of_nat i) 0); [lia|]. rewrite Nat2Z.id, Es. reflexivity.
  - destruct HG as [-> HL]. cbn [obind]. destruct (nth_error row i) as [s|] eqn:Es; [|apply nth_error_None in Es; lia].
    rewrite (index_nat _ _ _ Es). cbn [obind]. apply K.
Qed.
Lemma maxCell_bad b : fails b <> None -> (b < length rows)%nat -> (1 <= length cols)%nat -> forall js mw w, In (Z.of_nat b) js ->
  maxCell c items (Z.of_nat (length cols - 1)) js mw <> Ok w.
Proof.
  intros Hb Hl Hc. induction js as [|j js IH]; intros mw w []; cbn [maxCell].
  - subst j. destruct (nth_error rows b) as [row|] eqn:Er; [|apply nth_error_None in Er; lia].
    pose proof (fa_get _ _ _ _ _ HF b row Er) as HG. destruct (fails b) as [p|] eqn:Ef; [|congruence].
    destruct HG as [->|(-> & short & -> & Hs)]; cbn [obind]; [discriminate|].
    unfold index, at_index. destruct (Z.ltb_spec (Z.of_nat (length cols - 1)) 0); [lia|]. rewrite Nat2Z.id, (proj2 (nth_error_None short _)) by lia. discriminate.
  - destruct (fiGet items j); cbn [obind]; try discriminate. destruct (index _ _); cbn [obind]; try discriminate. apply IH. assumption.
Qed.
Lemma omap_cases {A B} (f : A -> outcome E B) (Q : panic_reason -> Prop) l :
  (forall a, In a l -> (exists b, f a = Ok b) \/ (exists p, f a = Panic p /\ Q p)) ->
  (exists bs, omap f l = Ok bs) \/ (exists p, omap f l = Panic p /\ Q p).
Proof.
  induction l as [|a l IH]; intros Hf; cbn [omap]; [eauto|]. destruct (Hf a (or_introl eq_refl)) as [(b & ->)|(p & -> & HQ)]; cbn [obind]; [|eauto].
  destruct IH as [(bs & ->)|(p & -> & HQ)]; cbn [obind]; [intros; apply Hf; right; assumption|eauto|eauto].
Qed.
Lemma omap_bad {A B} (f : A -> outcome E B) l a : In a l -> (forall b, f a <> Ok b) -> forall bs, omap f l <> Ok bs.
Proof.
  induction l as [|x l IH]; intros [] Hf bs; cbn [omap].
  - subst x. destruct (f a) as [b|e|p]; cbn [obind]; try discriminate. destruct (Hf b eq_refl).
  - destruct (f x); cbn [obind]; try discriminate. destruct (omap f l) eqn:Eo; cbn [obind]; try discriminate. destruct (IH H Hf a1 eq_refl).
Qed.

Lemma widths_bad m g idxs b : (1 <= g)%nat -> (1 <= length cols)%nat -> fails b <> None -> (b < length rows)%nat ->
  (forall k, (k < g)%nat -> idxs (Z.of_nat k) = gidx m (length rows) g (Z.of_nat k)) ->
  exists p, widthsOf c items (ColumnCount (tSpec t)) idxs (Z.of_nat g) = Panic p /\ FaultOf p.
Proof.
  intros Hg Hc Hb Hl Hidx. unfold widthsOf, ColumnCount. rewrite (fa_columns _ _ _ _ _ HF). unfold slen. rewrite map_length, !zrange_nat.
  set (row_f := fun groupI => omap (fun colI => maxCell c items colI (idxs groupI) 0) (map Z.of_nat (seq 0 (length cols)))).
  destruct (omap_cases row_f FaultOf (map Z.of_nat (seq 0 g))) as [(bs & K)|(p & K & HQ)].
  - intros kz Hk. apply in_map_iff in Hk. destruct Hk as (k & <- & Hk). apply in_seq in Hk. apply omap_cases.
    intros iz Hi. apply in_map_iff in Hi. destruct Hi as (i & <- & Hi). apply in_seq in Hi. apply maxCell_cases; [lia|].
    rewrite Hidx by lia. intros j Hj. apply gidx_spec in Hj; [|auto|lia]. destruct Hj as (l & _ & -> & Hlt). eauto.
  - exfalso.
    destruct (layout_once m g (numbered rows) (layout_lines m g (numbered rows)) b Hg (layout_ok m g _ Hg)) as (l & k & Hp & Hk & HlL & _).
    { rewrite numbered_len. exact Hl. }
    rewrite layout_len, numbered_len in *.
    apply (omap_bad row_f (map Z.of_nat (seq 0 g)) (Z.of_nat k)) in K; [exact K|apply in_map, in_seq; lia|].
    intros bs'. apply (omap_bad _ _ (Z.of_nat (length cols - 1))); [apply in_map, in_seq; lia|]. intros w. apply (maxCell_bad b); [assumption..|].
    rewrite Hidx by exact Hk. apply gidx_spec; [exact Hg|exact Hk|]. exists l. split; [exact HlL|].
    assert (pos m g (lineCount (length rows) g) l k = b) by (destruct m; exact Hp). rewrite H. auto.
  - rewrite K. exists p. auto.
Qed.

Lemma compact_fault m fuel maxWidth sep g0 b : reckoned t cols sep mod 65536 <> 0 -> (1 <= fuel)%nat ->
  Z.of_nat g0 = estimate t cols sep maxWidth -> (b < length rows)%nat -> fails b <> None ->
  (Worth m rows (S g0) -> exists p, FaultOf p /\ merge m fuel c t (fun _ => true) items maxWidth sep true = {| written := []; stop := Panicked p |})
  /\ (~ Worth m rows (S g0) -> merge m fuel c t (fun _ => true) items maxWidth sep true = merge m fuel c t (fun _ => true) items maxWidth sep false).
Proof.
  intros Hr Hfu Hg Hl Hb. pose proof (estimate_pos t cols sep maxWidth) as Hp. assert (Hc : (1 <= length cols)%nat).
  { destruct cols as [|x cs] eqn:Ec; [|cbn; lia]. exfalso. apply Hr. unfold reckoned. cbn. reflexivity. }
  pose proof (fa_len _ _ _ _ _ HF) as HN. unfold slen in HN.
  rewrite unfold_plain by exact Hr. rewrite <- Hg. rewrite worth_spec by lia.
  assert (U : merge m fuel c t (fun _ => true) items maxWidth sep true =
    match calc m fuel c t items (clampWidth maxWidth) (u16 (slen sep)) (Z.of_nat g0) 0 [] with
    | None => {| written := []; stop := Running |}
    | Some (Panic p) => {| written := []; stop := Panicked p |}
    | Some (Err e) => {| written := []; stop := Failed e |}
    | Some (Ok (extra, cellWidth)) =>
      if extra >? 0
      then emitLines c t items sep (fun _ => true) (Z.of_nat g0 + extra) (getWidth_compact (ColumnCount (tSpec t)) cellWidth) (zpos m (Z.of_nat g0 + extra))
      else emitLines c t items sep (fun _ => true) (Z.of_nat g0) (getWidth_default t) (zpos m (Z.of_nat g0))
    end).
  { rewrite Hg. destruct m; unfold merge, MergeRowsHorizontal, MergeRowsVertical; rewrite (estimate_ok t cols maxWidth sep (fa_columns _ _ _ _ _ HF));
    (destruct (Z.eqb_spec (reckoned t cols sep mod 65536) 0); [lia|]); reflexivity. }
  rewrite U. destruct fuel as [|fuel]; [lia|].
  destruct m; cbn [calc compactCalcH_loop compactCalcV_loop worth_b]; replace (Z.of_nat g0 + 0 + 1) with (Z.of_nat (S g0)) by lia.
  - split; [intros _|congruence]. destruct (widths_bad H (S g0) (fun groupI => steps groupI (fiLen items) (Z.of_nat (S g0))) b) as (p & K & HQ); try assumption; [lia|intros; rewrite HN; reflexivity|].
    unfold mergedRowsWidthH. rewrite K. eauto.
  - unfold mergedRowsWidthV. rewrite HN, lineCountOf_nat by lia. set (L := lineCount (length rows) (S g0)).
    assert (HL : (1 <= L)%nat) by (apply lineCount_pos; lia). destruct (Z.eqb_spec (Z.of_nat L) 0) as [|_]; [lia|].
    assert (HW : (Z.of_nat (S g0) >? Z.quot (Z.of_nat (length rows) - 1) (Z.of_nat L) + 1) = negb ((S g0 - 1) * L <? length rows)%nat).
    { rewrite Z.quot_div_nonneg by lia.
      pose proof (Z.mul_div_le (Z.of_nat (length rows) - 1) (Z.of_nat L) ltac:(lia)) as K1.
      pose proof (Z.mul_succ_div_gt (Z.of_nat (length rows) - 1) (Z.of_nat L) ltac:(lia)) as K2.
      set (q := (Z.of_nat (length rows) - 1) / Z.of_nat L) in *. destruct (Nat.ltb_spec ((S g0 - 1) * L) (length rows)); cbn [negb].
      + apply not_true_iff_false. intros K. apply Z.gtb_lt in K. nia.
      + apply Z.gtb_lt. nia. }
    rewrite HW. split; intros Hw.
    + rewrite Hw. cbn [negb]. destruct (widths_bad V (S g0) (fun groupI => let endItemIdx := (groupI + 1) * Z.of_nat L in
        let endItemIdx := if endItemIdx >? Z.of_nat (length rows) then Z.of_nat (length rows) else endItemIdx in
        steps (groupI * Z.of_nat L) endItemIdx 1) b) as (p & K & HQ); try assumption; [lia|intros; reflexivity|].
      cbv zeta in K. rewrite K. cbn [obind]. eauto.
    + apply not_true_is_false in Hw. rewrite Hw. cbn [negb]. reflexivity.
Qed.
End Printing.
End Types.
