(** * CrossProofs: the tables of runewidth against those of uniseg. *)
From Verif Require Import GoBase Utf8 IntervalSpec Pointwise StepFun TableProofs PropConst GraphemeData EastAsianData EmojiData
  GraphemeSpec RuneWidthData RunewidthSpec ConditionSpec Runewidth RunewidthProofs RuneTheory Uniseg UnisegProofs
  ClusterSpec ClusterProofs SegmentSpec SegmentTheory StringWidthSpec StringWidthProofs CrossSpec.
From Coq Require Import ZifyBool.
Local Open Scope Z_scope.

Lemma list_sorted t : compactb t = true -> Sorted t.
Proof. intros H. apply Compact_Sorted, compactb_ok, H. Qed.

Lemma table_at t r : In t rw_tables -> at_ (of_table t) r = memb r t.
Proof. intros Hin. apply of_table_at, Compact_Sorted, rw_tables_compact, Hin. Qed.

Lemma small_at t r : compactb t = true -> at_ (of_table t) r = memb r t.
Proof. intros H. apply of_table_at, list_sorted, H. Qed.

Lemma newWide_ok : compactb newWide = true. Proof. vm_compute. reflexivity. Qed.
Lemma newNeutral_ok : compactb newNeutral = true. Proof. vm_compute. reflexivity. Qed.
Lemma textPictographs_ok : compactb textPictographs = true. Proof. vm_compute. reflexivity. Qed.
Lemma onlyHidden_ok : compactb onlyHidden = true. Proof. vm_compute. reflexivity. Qed.

Lemma ea_at r : at_ (of_dict eastAsianWidth) r = lookup eastAsianWidth r.
Proof. apply of_dict_at, eastAsian_sorted. Qed.
Lemma gr_at r : at_ (of_dict graphemeCodePoints) r = lookup graphemeCodePoints r.
Proof. apply of_dict_at, grapheme_sorted. Qed.
Lemma em_at r : at_ (of_dict emojiPresentation) r = lookup emojiPresentation r.
Proof. apply of_dict_at, emoji_sorted. Qed.

Lemma has d r p : Sorted (spans d) -> (HasProperty d r p <-> lookup d r = p).
Proof. intros Hs. rewrite <- (property_lookup d r Hs). symmetry. apply property_spec, Hs. Qed.
Lemma has_ea r p : HasProperty eastAsianWidth r p <-> lookup eastAsianWidth r = p.
Proof. apply has, eastAsian_sorted. Qed.
Lemma has_gr r p : HasProperty graphemeCodePoints r p <-> lookup graphemeCodePoints r = p.
Proof. apply has, grapheme_sorted. Qed.
Lemma has_em r p : HasProperty emojiPresentation r p <-> lookup emojiPresentation r = p.
Proof. apply has, emoji_sorted. Qed.

Lemma eqb_iff a b : Bool.eqb a b = true -> (a = true <-> b = true).
Proof. destruct a, b; simpl; intuition congruence. Qed.

(** Same set. *)
Lemma narrow_same r : Member r tbl_narrow <-> HasProperty eastAsianWidth r prNa.
Proof.
  rewrite <- memb_Member, has_ea.
  assert (H : always (both (fun e t => Bool.eqb t (e =? prNa)) (of_dict eastAsianWidth) (of_table tbl_narrow)) = true)
    by (vm_compute; reflexivity).
  apply (always_at _ r) in H. rewrite both_at, ea_at, (table_at tbl_narrow) in H by in_rw.
  apply eqb_iff in H. rewrite H. apply Z.eqb_eq.
Qed.

Lemma ambiguous_same r : Member r tbl_ambiguous <-> HasProperty eastAsianWidth r prA.
Proof.
  rewrite <- memb_Member, has_ea.
  assert (H : always (both (fun e t => Bool.eqb t (e =? prA)) (of_dict eastAsianWidth) (of_table tbl_ambiguous)) = true)
    by (vm_compute; reflexivity).
  apply (always_at _ r) in H. rewrite both_at, ea_at, (table_at tbl_ambiguous) in H by in_rw.
  apply eqb_iff in H. rewrite H. apply Z.eqb_eq.
Qed.

(** Same set but for the new characters. *)
Lemma wide_new r : memb r tbl_doublewidth = ((lookup eastAsianWidth r =? prW) || (lookup eastAsianWidth r =? prF)) && negb (memb r newWide)
  /\ (memb r newWide = true -> lookup eastAsianWidth r = prW).
Proof.
  assert (H : always (both (fun e tn => Bool.eqb (fst tn) (((e =? prW) || (e =? prF)) && negb (snd tn)) && implb (snd tn) (e =? prW))
    (of_dict eastAsianWidth) (both pair (of_table tbl_doublewidth) (of_table newWide))) = true)
    by (vm_compute; reflexivity).
  apply (always_at _ r) in H.
  rewrite !both_at, ea_at, (table_at tbl_doublewidth), (small_at newWide) in H by (in_rw || exact newWide_ok).
  cbn [fst snd] in H. apply andb_prop in H as [H1 H2]. apply Bool.eqb_prop in H1. split; [exact H1|].
  intros E. rewrite E in H2. apply Z.eqb_eq, H2.
Qed.

Lemma wide_same r : Member r tbl_doublewidth <->
  (HasProperty eastAsianWidth r prW \/ HasProperty eastAsianWidth r prF) /\ ~ Member r newWide.
Proof.
  rewrite <- !memb_Member, !has_ea. destruct (wide_new r) as [H _]. rewrite H.
  generalize (lookup eastAsianWidth r) (memb r newWide). intros e []; destruct (Z.eqb_spec e prW), (Z.eqb_spec e prF); cbn [orb andb negb]; intuition congruence.
Qed.

Lemma newWide_wide r : Member r newWide -> HasProperty eastAsianWidth r prW.
Proof. rewrite <- memb_Member, has_ea. apply wide_new. Qed.

Lemma neutral_new r : memb r tbl_neutral = (lookup eastAsianWidth r =? prN) && negb (memb r newNeutral)
  /\ (memb r newNeutral = true -> lookup eastAsianWidth r = prN).
Proof.
  assert (H : always (both (fun e tn => Bool.eqb (fst tn) ((e =? prN) && negb (snd tn)) && implb (snd tn) (e =? prN))
    (of_dict eastAsianWidth) (both pair (of_table tbl_neutral) (of_table newNeutral))) = true)
    by (vm_compute; reflexivity).
  apply (always_at _ r) in H.
  rewrite !both_at, ea_at, (table_at tbl_neutral), (small_at newNeutral) in H by (in_rw || exact newNeutral_ok).
  cbn [fst snd] in H. apply andb_prop in H as [H1 H2]. apply Bool.eqb_prop in H1. split; [exact H1|].
  intros E. rewrite E in H2. apply Z.eqb_eq, H2.
Qed.

Lemma neutral_same r : Member r tbl_neutral <-> HasProperty eastAsianWidth r prN /\ ~ Member r newNeutral.
Proof.
  rewrite <- !memb_Member, !has_ea. destruct (neutral_new r) as [H _]. rewrite H.
  generalize (lookup eastAsianWidth r) (memb r newNeutral). intros e []; destruct (Z.eqb_spec e prN); cbn [orb andb negb]; intuition congruence.
Qed.

Lemma newNeutral_neutral r : Member r newNeutral -> HasProperty eastAsianWidth r prN.
Proof. rewrite <- memb_Member, has_ea. apply neutral_new. Qed.

Lemma emoji_same r : Member r tbl_emoji <->
  HasProperty graphemeCodePoints r prExtendedPictographic /\ r <> 0xA9 /\ r <> 0xAE.
Proof.
  rewrite <- memb_Member, has_gr.
  assert (H : always (both (fun e tn => Bool.eqb (fst tn) ((e =? prExtendedPictographic) && negb (snd tn)))
    (of_dict graphemeCodePoints) (both pair (of_table tbl_emoji) (of_table [(0xA9, 0xA9); (0xAE, 0xAE)]))) = true)
    by (vm_compute; reflexivity).
  apply (always_at _ r) in H.
  rewrite !both_at, gr_at, (table_at tbl_emoji), (small_at [(0xA9, 0xA9); (0xAE, 0xAE)]) in H by (in_rw || reflexivity).
  cbn [fst snd] in H. apply Bool.eqb_prop in H. rewrite H. unfold memb. cbn [existsb fst snd]. lia.
Qed.

Lemma combining_marks r : Member r tbl_combining ->
  HasProperty graphemeCodePoints r prExtend \/ r = 0x1D166 \/ r = 0x1D16D.
Proof.
  rewrite <- memb_Member, has_gr.
  assert (H : always (both (fun e tn => implb (fst tn) ((e =? prExtend) || snd tn))
    (of_dict graphemeCodePoints) (both pair (of_table tbl_combining) (of_table [(0x1D166, 0x1D166); (0x1D16D, 0x1D16D)]))) = true)
    by (vm_compute; reflexivity).
  apply (always_at _ r) in H.
  rewrite !both_at, gr_at, (table_at tbl_combining), (small_at [(0x1D166, 0x1D166); (0x1D16D, 0x1D16D)]) in H by (in_rw || reflexivity).
  cbn [fst snd] in H. intros E. rewrite E in H. unfold memb in H. cbn [existsb fst snd implb] in H. lia.
Qed.

Lemma private_ambiguous r : Member r tbl_private -> Member r tbl_ambiguous.
Proof.
  rewrite <- !memb_Member.
  assert (H : always (both implb (of_table tbl_private) (of_table tbl_ambiguous)) = true) by (vm_compute; reflexivity).
  apply (always_at _ r) in H. rewrite both_at, !table_at in H by in_rw.
  intros E. rewrite E in H. exact H.
Qed.

Lemma presentation_class r : HasProperty emojiPresentation r prEmojiPresentation ->
  HasProperty graphemeCodePoints r prExtendedPictographic \/ HasProperty graphemeCodePoints r prRegionalIndicator
  \/ 0x1F3FB <= r <= 0x1F3FF.
Proof.
  rewrite has_em, !has_gr.
  assert (H : always (both (fun e tn => implb (fst tn =? prEmojiPresentation) ((e =? prExtendedPictographic) || (e =? prRegionalIndicator) || snd tn))
    (of_dict graphemeCodePoints) (both pair (of_dict emojiPresentation) (of_table [(0x1F3FB, 0x1F3FF)]))) = true)
    by (vm_compute; reflexivity).
  apply (always_at _ r) in H.
  rewrite !both_at, gr_at, em_at, (small_at [(0x1F3FB, 0x1F3FF)]) in H by reflexivity.
  cbn [fst snd] in H. intros E. rewrite E, Z.eqb_refl in H. unfold memb in H. cbn [existsb fst snd implb] in H. lia.
Qed.

(** No character in two of the width classes. *)
Lemma classes_disjoint r :
  ~ (Member r tbl_narrow /\ Member r tbl_ambiguous) /\ ~ (Member r tbl_narrow /\ Member r tbl_doublewidth)
  /\ ~ (Member r tbl_narrow /\ Member r tbl_neutral) /\ ~ (Member r tbl_ambiguous /\ Member r tbl_doublewidth)
  /\ ~ (Member r tbl_ambiguous /\ Member r tbl_neutral) /\ ~ (Member r tbl_doublewidth /\ Member r tbl_neutral).
Proof.
  rewrite narrow_same, ambiguous_same, wide_same, neutral_same, !has_ea.
  assert (prNa <> prA /\ prNa <> prW /\ prNa <> prF /\ prNa <> prN /\ prA <> prW /\ prA <> prF /\ prA <> prN
    /\ prW <> prN /\ prF <> prN) by (repeat split; discriminate).
  intuition congruence.
Qed.

(** ** Widths *)

Definition uni_value (g m e d : Z) : Z :=
  if (g =? prControl) || (g =? prCR) || (g =? prLF) || (g =? prExtend) || (g =? prZWJ) then 0
  else if g =? prRegionalIndicator then 2
  else if g =? prExtendedPictographic then (if m =? prEmojiPresentation then 2 else 1)
  else if negb (d =? 0) then d
  else if (e =? prW) || (e =? prF) then 2 else 1.
Definition rw_value (np co dw : bool) : Z := if np || co then 0 else if dw then 2 else 1.
Definition zero_value (g : Z) : bool :=
  (g =? prControl) || (g =? prCR) || (g =? prLF) || (g =? prExtend) || (g =? prZWJ).
Definition differ_value (g d : Z) (np co hi nw tp : bool) : bool :=
  zero_value g && negb (np || co) || hi || (g =? prRegionalIndicator) || negb (d =? 0) || nw || tp.
Definition dashes : list (Z * Z * Z) := [(0x2E3A, 0x2E3A, 3); (0x2E3B, 0x2E3B, 4)].

Definition width_check : steps bool :=
  both (fun f tp => f tp)
  (both (fun f nw => f nw)
  (both (fun f hi => f hi)
  (both (fun f dw => f dw)
  (both (fun f co => f co)
  (both (fun f np => f np)
  (both (fun f d => f d)
  (both (fun f e => f e)
  (both (fun g m e d np co dw hi nw tp =>
          Bool.eqb (uni_value g m e d =? rw_value np co dw) (negb (differ_value g d np co hi nw tp)))
    (of_dict graphemeCodePoints) (of_dict emojiPresentation))
    (of_dict eastAsianWidth)) (of_dict dashes)) (of_table tbl_nonprint)) (of_table tbl_combining))
    (of_table tbl_doublewidth)) (of_table onlyHidden)) (of_table newWide)) (of_table textPictographs).

Lemma width_check_ok : always width_check = true.
Proof. vm_compute. reflexivity. Qed.

Lemma dashes_at r : at_ (of_dict dashes) r = lookup dashes r.
Proof. apply of_dict_at. simpl. lia. Qed.

Lemma class_code r : lookup graphemeCodePoints r = code (class r).
Proof. rewrite <- gprop_class. symmetry. apply property_lookup, grapheme_sorted. Qed.

Lemma zero_class r : zero_value (lookup graphemeCodePoints r) = true <-> ZeroClass r.
Proof. rewrite class_code. unfold ZeroClass. destruct (class r); split; intros H; vm_compute in *; intuition congruence. Qed.

Lemma invisible_memb r : memb r tbl_nonprint || memb r tbl_combining = true <-> Invisible r.
Proof. unfold Invisible. rewrite orb_true_iff, !memb_Member. tauto. Qed.

Lemma dash_value r : lookup dashes r = if r =? 0x2E3A then 3 else if r =? 0x2E3B then 4 else 0.
Proof.
  unfold dashes, lookup. destruct (Z.eqb_spec r 0x2E3A).
  - subst. reflexivity.
  - replace ((0x2E3A <=? r) && (r <=? 0x2E3A)) with false by lia. destruct (Z.eqb_spec r 0x2E3B).
    + subst. reflexivity.
    + replace ((0x2E3B <=? r) && (r <=? 0x2E3B)) with false by lia. reflexivity.
Qed.

Lemma uni_value_ok r : uniRuneWidth r (property graphemeCodePoints r) =
  uni_value (lookup graphemeCodePoints r) (lookup emojiPresentation r) (lookup eastAsianWidth r) (lookup dashes r).
Proof.
  rewrite !property_lookup by exact grapheme_sorted. unfold uniRuneWidth, uni_value.
  rewrite (property_lookup emojiPresentation r emoji_sorted), (property_lookup eastAsianWidth r eastAsian_sorted), dash_value.
  destruct (r =? 0x2E3A), (r =? 0x2E3B); reflexivity.
Qed.

Lemma rw_value_ok st r : 0 <= r <= 0x10FFFF -> RuneWidth (plainCondition false st) r =
  rw_value (memb r tbl_nonprint) (memb r tbl_combining) (memb r tbl_doublewidth).
Proof.
  intros Hr. apply (proj1 (RuneWidth_by_tables st r Hr)). unfold rw_value.
  pose proof (invisible_memb r) as Hi. pose proof (memb_Member r tbl_doublewidth) as Hw.
  destruct (memb r tbl_nonprint || memb r tbl_combining).
  - apply wp_invisible. tauto.
  - destruct (memb r tbl_doublewidth); [apply wp_wide|apply wp_other]; try (unfold Wide); intuition congruence.
Qed.

Lemma differ_ok r : differ_value (lookup graphemeCodePoints r) (lookup dashes r) (memb r tbl_nonprint) (memb r tbl_combining)
   (memb r onlyHidden) (memb r newWide) (memb r textPictographs) = true <-> Differ r.
Proof.
  unfold differ_value. pose proof (zero_class r) as Hz. pose proof (invisible_memb r) as Hi.
  pose proof (memb_Member r onlyHidden) as H1. pose proof (memb_Member r newWide) as H2.
  pose proof (memb_Member r textPictographs) as H3.
  assert (H4 : (lookup graphemeCodePoints r =? prRegionalIndicator) = true <-> class r = RI).
  { rewrite class_code. clear. destruct (class r); split; intros H; vm_compute in *; intuition congruence. }
  assert (H5 : negb (lookup dashes r =? 0) = true <-> (r = 0x2E3A \/ r = 0x2E3B)).
  { rewrite dash_value. clear. destruct (Z.eqb_spec r 0x2E3A), (Z.eqb_spec r 0x2E3B); simpl; intuition congruence. }
  rewrite !orb_true_iff, andb_true_iff, negb_true_iff.
  split.
  - intros [[[[[[A B]|A]|A]|A]|A]|A].
    + apply d_marks; [tauto|]. rewrite <- Hi. intros D. rewrite D in B. discriminate B.
    + apply d_hidden. tauto.
    + apply d_flags. tauto.
    + apply d_dashes. tauto.
    + apply d_new. tauto.
    + apply d_text. tauto.
  - intros [A B|A|A|A|A|A]; try tauto.
    do 5 left. split; [tauto|]. rewrite <- Hi in B. apply not_true_is_false, B.
Qed.

Lemma widths_differ st r : 0 <= r <= 0x10FFFF ->
  (uniRuneWidth r (property graphemeCodePoints r) = RuneWidth (plainCondition false st) r <-> ~ Differ r).
Proof.
  intros Hr. rewrite uni_value_ok, (rw_value_ok st r Hr), <- differ_ok.
  pose proof (always_at _ r width_check_ok) as H. unfold width_check in H.
  rewrite !both_at, gr_at, em_at, ea_at, dashes_at, (table_at tbl_nonprint), (table_at tbl_combining), (table_at tbl_doublewidth),
    (small_at onlyHidden _ onlyHidden_ok), (small_at newWide _ newWide_ok), (small_at textPictographs _ textPictographs_ok) in H by in_rw.
  apply Bool.eqb_prop in H. rewrite <- Z.eqb_eq, H, negb_true_iff, not_true_iff_false. reflexivity.
Qed.

(** ** Texts *)

Lemma visited_cells g gs : Visits g gs -> StateFor (g_remaining g) (g_state g) ->
  Forall (fun h => 0 <= g_state h -> exists w, Cells (Runes h) w /\ g_boundaries h = 16 * w) gs.
Proof.
  induction 1 as [g g' E|g g' gs E HV IH]; intros HS; [constructor|].
  unfold Next in E. destruct (g_remaining g) as [|b bs] eqn:Er; [discriminate|].
  destruct (StepString (b :: bs) (g_state g)) as [[[[cl rest] bo] ns]|] eqn:Es; [|discriminate].
  injection E as <-. constructor.
  - cbn [g_state g_boundaries]. intros Hn. unfold Runes. cbn [g_state g_cluster].
    replace (ns <? 0) with false by lia. eapply StepString_cells; [exact HS|discriminate|exact Es].
  - apply IH. cbn [g_remaining g_state]. eapply sf_next; eauto.
Qed.

Lemma zero_cells r : ZeroClass r -> cells_of r = 0.
Proof. unfold ZeroClass, cells_of. intros [H|[H|[H|[H|H]]]]; rewrite H; reflexivity. Qed.

Lemma visible_cells r : ~ ZeroClass r -> 0 < cells_of r.
Proof.
  unfold ZeroClass, cells_of. intros H. destruct (class r); try tauto; repeat match goal with |- context [if ?b then _ else _] => destruct b end; lia.
Qed.

Lemma cells_rw st r : 0 <= r <= 0x10FFFF -> ~ Differ r -> RuneWidth (plainCondition false st) r = cells_of r.
Proof. intros Hr Hd. symmetry. rewrite <- uniRuneWidth_cells. apply (widths_differ st r Hr), Hd. Qed.

Lemma ordinary_same st rs w w' : OrdinaryCluster rs -> Cells rs w ->
  ClusterWidth (RuneWidth (plainCondition false st)) rs w' -> w = w'.
Proof.
  intros Ho Hc Hw. destruct Ho as [r Hr Hd|r marks Hr Hd Hz Hs Hm Hv].
  - rewrite (Cells_unique _ _ _ Hc (c_single r)). pose proof (cells_rw st r Hr Hd) as E. pose proof (cells_nonneg r).
    apply (ClusterWidth_fun _ _ _ _ ) with (2 := Hw). rewrite <- E. destruct (Z.eq_dec (RuneWidth (plainCondition false st) r) 0) as [E0|E0].
    + rewrite E0. apply cw_invisible. constructor; auto.
    + apply (cw_visible _ [] r []); [constructor|lia].
  - rewrite (Cells_unique _ _ _ Hc (c_sum r marks Hs Hv)). pose proof (cells_rw st r Hr Hd) as E. pose proof (visible_cells r Hz).
    apply (ClusterWidth_fun _ _ _ _ ) with (2 := Hw). cbn [map]. rewrite zsum_cons.
    replace (zsum (map cells_of marks)) with 0.
    + rewrite Z.add_0_r, <- E. apply (cw_visible _ [] r marks); [constructor|lia].
    + symmetry. clear - Hm. induction Hm as [|x l Hx Hm IH]; [reflexivity|]. cbn [map]. rewrite zsum_cons, IH, (zero_cells x Hx). reflexivity.
Qed.

Lemma text_agrees st s gs : Visits (NewGraphemes s) gs -> Forall (fun h => OrdinaryCluster (Runes h)) gs ->
  16 * StringWidth (plainCondition false st) s = zsum (map g_boundaries gs).
Proof.
  intros HV Ho. assert (Hc : Forall (fun h => exists w, Cells (Runes h) w /\ g_boundaries h = 16 * w) gs).
  { pose proof (visited_cells _ _ HV (sf_start _ _ (eq_refl : (-1) ?= 0 = Lt))) as K. rewrite Forall_forall in K, Ho |- *.
    intros h Hin. apply K; auto. specialize (Ho h Hin). unfold Runes in Ho. destruct (Z.ltb_spec (g_state h) 0); [inversion Ho|lia]. }
  assert (K : StringWidth (plainCondition false st) s = zsum (map (fun h => g_boundaries h / 16) gs)).
  { apply StringWidth_TextWidth; [apply r_fresh|]. exists (map Runes gs), (map (fun h => g_boundaries h / 16) gs).
    split; [apply iteration_uax29, HV|]. split; [|reflexivity].
    clear HV. induction Ho as [|h gs Hh Ho IH]; [constructor|]. inversion Hc as [|? ? (w & Hw & Hb) Hc']; subst.
    cbn [map]. constructor; [|apply IH; auto]. rewrite Hb, Z.mul_comm, Z.div_mul by lia.
    pose proof (cluster_width_spec (plainCondition false st) (Runes h) (Reachable_OK _ (r_fresh _ _))) as Hs.
    rewrite (ordinary_same st _ _ _ Hh Hw Hs). exact Hs. }
  rewrite K. clear - Hc. induction Hc as [|h gs (w & _ & Hb) Hc IH]; [reflexivity|]. cbn [map]. rewrite !zsum_cons, Hb, <- IH.
  replace (16 * w / 16) with w; [lia|]. rewrite Z.mul_comm, Z.div_mul by lia. reflexivity.
Qed.

(** ** East Asian mode, and blocks *)

Lemma blocks_check r : Member r wideBlocks -> Member r tbl_doublewidth /\ ~ Invisible r /\ ~ Member r tbl_narrow.
Proof.
  rewrite <- invisible_memb, <- !memb_Member.
  assert (H : always (both (fun f n => f n) (both (fun b w n => implb b (fst (fst w) && negb (snd (fst w) || snd w) && negb n)) (of_table wideBlocks)
     (both pair (both pair (of_table tbl_doublewidth) (of_table tbl_nonprint)) (of_table tbl_combining))) (of_table tbl_narrow)) = true)
    by (vm_compute; reflexivity).
  apply (always_at _ r) in H. rewrite !both_at, (small_at wideBlocks r eq_refl), !(table_at _ r) in H by in_rw.
  intros E. rewrite E in H. cbn [fst snd implb] in H.
  generalize dependent (memb r tbl_doublewidth). generalize (memb r tbl_nonprint), (memb r tbl_combining), (memb r tbl_narrow).
  intros [] [] [] [] H; cbn in *; intuition congruence.
Qed.

Lemma blocks_wide ea st r : Member r wideBlocks -> RuneWidth (plainCondition ea st) r = 2.
Proof.
  intros Hb. assert (Hr : 0 <= r <= 0x10FFFF).
  { destruct Hb as (a & b & Hin & Hab). unfold wideBlocks in Hin. cbn [In] in Hin.
    repeat (destruct Hin as [Hin|Hin]; [injection Hin as <- <-; lia|]). destruct Hin. }
  destruct (blocks_check r Hb) as (Hw & Hi & Hn). destruct (RuneWidth_by_tables st r Hr) as [P E].
  destruct ea; [apply E, we_wide|apply P, wp_wide]; auto.
Qed.

Lemma eastasian_class st r : 0 <= r <= 0x10FFFF -> ~ Invisible r ->
  (RuneWidth (plainCondition true st) r = 2 <->
   HasProperty eastAsianWidth r prA
   \/ (HasProperty eastAsianWidth r prW \/ HasProperty eastAsianWidth r prF) /\ ~ Member r newWide
   \/ st = false /\ HasProperty graphemeCodePoints r prExtendedPictographic /\ r <> 0xA9 /\ r <> 0xAE).
Proof.
  intros Hr Hi. rewrite <- ambiguous_same, <- wide_same, <- emoji_same.
  assert (Hn : Member r tbl_narrow -> ~ Member r tbl_emoji).
  { rewrite <- !memb_Member.
    assert (H : always (both (fun a b => negb (a && b)) (of_table tbl_narrow) (of_table tbl_emoji)) = true) by (vm_compute; reflexivity).
    apply (always_at _ r) in H. rewrite both_at, !(table_at _ r) in H by in_rw. intros E. rewrite E in H. intros E'. rewrite E' in H. discriminate. }
  pose proof (classes_disjoint r) as (D1 & D2 & _).
  destruct (RuneWidth_by_tables st r Hr) as [_ E]. rewrite (E 2). split.
  - intros H. inversion H; subst; unfold Ambiguous, Wide, Emoji in *; tauto.
  - intros H. destruct (memb_reflect r tbl_narrow) as [N|N]; [tauto|]. destruct (memb_reflect r tbl_ambiguous) as [A|A]; [apply we_wide; unfold Ambiguous; tauto|].
    destruct (memb_reflect r tbl_doublewidth) as [W|W]; [apply we_wide; unfold Wide; tauto|]. apply we_emoji; unfold Narrow, Ambiguous, Wide, Emoji; tauto.
Qed.

(** ** Examples *)

Definition differb (r : Z) : bool := differ_value (lookup graphemeCodePoints r) (lookup dashes r) (memb r tbl_nonprint) (memb r tbl_combining)
   (memb r onlyHidden) (memb r newWide) (memb r textPictographs).
Lemma differ_yes r : differb r = true -> Differ r.
Proof. exact (proj1 (differ_ok r)). Qed.
Lemma differ_no r : differb r = false -> ~ Differ r.
Proof. intros H K. apply differ_ok in K. unfold differb in H. rewrite K in H. discriminate. Qed.
Lemma member_yes r t : memb r t = true -> Member r t.
Proof. apply memb_Member. Qed.
Lemma member_no r t : memb r t = false -> ~ Member r t.
Proof. rewrite <- memb_Member. congruence. Qed.

Lemma cross_example :
  HasProperty eastAsianWidth 0x4E00 prW /\ ~ Member 0x4E00 newWide /\ ~ Differ 0x4E00 /\ ~ Differ 0x41
  /\ Member 0x1FAE0 newWide /\ Differ 0x1F1E6 /\ Differ 0x591 /\ ~ Invisible 0xA1
  /\ uniRuneWidth 0x591 (property graphemeCodePoints 0x591) = 0 /\ RuneWidth (plainCondition false true) 0x591 = 1.
Proof.
  split; [apply has_ea; vm_compute; reflexivity|]. split; [apply member_no; vm_compute; reflexivity|].
  split; [apply differ_no; vm_compute; reflexivity|]. split; [apply differ_no; vm_compute; reflexivity|].
  split; [apply member_yes; vm_compute; reflexivity|]. split; [apply differ_yes; vm_compute; reflexivity|].
  split; [apply differ_yes; vm_compute; reflexivity|]. split; [|split; vm_compute; reflexivity].
  rewrite <- invisible_memb. apply not_true_iff_false. vm_compute. reflexivity.
Qed.

Lemma cross_text_example : exists gs, Visits (NewGraphemes [x61; xcc; x81; xe6; xbc; xa2; xf0; x9f; x98; x80]) gs
  /\ Forall (fun h => OrdinaryCluster (Runes h)) gs /\ zsum (map g_boundaries gs) = 16 * 5.
Proof.
  destruct (iterate 12 (NewGraphemes [x61; xcc; x81; xe6; xbc; xa2; xf0; x9f; x98; x80])) as [gs|] eqn:E; [|vm_compute in E; discriminate].
  exists gs. split; [eapply iterate_Visits; exact E|].
  vm_compute in E. injection E as <-. split; [|vm_compute; reflexivity].
  apply Forall_cons; [|apply Forall_cons; [|apply Forall_cons; [|apply Forall_nil]]].
  - change (OrdinaryCluster [0x61; 0x301]). apply oc_marks; [lia|apply differ_no; vm_compute; reflexivity| | | |].
    + rewrite <- zero_class. apply not_true_iff_false. vm_compute. reflexivity.
    + vm_compute. reflexivity.
    + apply Forall_cons; [|apply Forall_nil]. apply zero_class. vm_compute. reflexivity.
    + unfold VS16. cbn [In]. lia.
  - change (OrdinaryCluster [0x6F22]). apply oc_one; [lia|]. apply differ_no. vm_compute. reflexivity.
  - change (OrdinaryCluster [0x1F600]). apply oc_one; [lia|]. apply differ_no. vm_compute. reflexivity.
Qed.
