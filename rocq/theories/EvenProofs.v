(** * EvenProofs: what compaction gains on rows of equal widths. *)
From Verif Require Import GoBase Utf8Proofs Runewidth ConditionSpec Width TextSpec AlignSpec WidthTheory Table TableOpsProofs Merge TableContract
  MergeSpec MergeLayout MergeRender MergeSearch MergeTheory MergeWidths MergePlan EvenSpec.
From Coq Require Import ZifyBool ZifyNat.
Local Open Scope Z_scope.

Section Types.
Context {Item Val E : Type}.
Notation Table := (Table Item Val E). Notation Col := (Column Item Val E).

Lemma full_line (rows : list (list str)) m g lines : (1 <= g)%nat -> Layout m g rows lines ->
  (m = H /\ (g <= length rows)%nat) \/ (m = V /\ Worth V rows g) -> exists line, In line lines /\ length line = g.
Proof.
  intros Hg HL [[-> Hn]|[-> HW]]; [|exact (HW lines HL)].
  destruct HL as [[Hne [HC [HF HR]]]|[-> _]]; [|cbn in Hn; lia].
  destruct lines as [|r [|r' lines]].
  - cbn in HC. subst rows. cbn in Hn. lia.
  - exists r. split; [left; reflexivity|]. inversion HF as [|? ? [_ Hr] _]; subst. cbn in Hn. rewrite app_nil_r in Hn. lia.
  - exists r. split; [left; reflexivity|]. exact (HR [] r r' lines eq_refl).
Qed.

Lemma zsum_same (l : list nat) (x : Z) : zsum (map (fun _ => x) l) = slen l * x.
Proof.
  unfold slen. induction l as [|a l IH]; [reflexivity|]. change (x + zsum (map (fun _ => x) l) = Z.of_nat (S (length l)) * x). lia.
Qed.

Lemma total_same sep (cols : list Col) ws g : total sep cols (fun _ => ws) g = Z.of_nat g * room cols ws sep - slen sep.
Proof. unfold total, room. rewrite zsum_same. unfold slen. rewrite seq_length. lia. Qed.

Section Rows.
Context {c : Condition} {t : Table} {cols : list Col} {items : FormattedItemList E} {rows : list (list str)} {ws : list Z}.
Hypothesis HP : Printable t cols items rows.
Hypothesis HE : Even c cols ws rows.

Lemma even_widths m g lines : (1 <= g)%nat -> Layout m g rows lines -> (exists line, In line lines /\ length line = g) ->
  GroupWidths c cols lines g (fun _ => ws).
Proof.
  intros Hg HL (line & Hin & Hlen) k Hk. destruct HE as [EL EW]. split; [exact EL|]. intros i w Hw.
  assert (Hi : (i < length cols)%nat) by (rewrite <- EL; apply nth_error_Some; congruence).
  assert (Hrows : forall l r, In l lines -> In r l -> In r rows) by (intros l r H1 H2; eapply (line_rows m g); eauto).
  split.
  - right. destruct (nth_error line k) as [row|] eqn:Er; [|apply nth_error_None in Er; lia].
    assert (Hrow : In row rows) by (eapply Hrows; eauto; eapply nth_error_In; eauto).
    pose proof (proj1 (Forall_forall _ _) (pr_long _ _ _ _ HP) row Hrow) as Hl. cbn beta in Hl.
    destruct (nth_error row i) as [s|] eqn:Es; [|apply nth_error_None in Es; lia].
    exists line, row, s. repeat split; auto. pose proof (EW row i s Hrow Es Hi). congruence.
  - intros x [->|(l & r & s & H1 & H2 & H3 & ->)].
    + destruct (nth_error line k) as [row|] eqn:Er; [|apply nth_error_None in Er; lia].
      assert (Hrow : In row rows) by (eapply Hrows; eauto; eapply nth_error_In; eauto).
      pose proof (proj1 (Forall_forall _ _) (pr_long _ _ _ _ HP) row Hrow) as Hl. cbn beta in Hl.
      destruct (nth_error row i) as [s|] eqn:Es; [|apply nth_error_None in Es; lia].
      pose proof (EW row i s Hrow Es Hi). pose proof (vwidth_range c s). assert (w = vwidth c s) by congruence. lia.
    + assert (Hrow : In r rows) by (eapply Hrows; eauto; eapply nth_error_In; eauto).
      pose proof (EW r i s Hrow H3 Hi). assert (w = vwidth c s) by congruence. lia.
Qed.

Lemma even_total m sep g w : (1 <= g)%nat -> (m = H /\ (g <= length rows)%nat) \/ (m = V /\ Worth V rows g) ->
  (CompactTotal c cols sep m rows g w <-> w = Z.of_nat g * room cols ws sep - slen sep).
Proof.
  intros Hg Hm. pose proof (layout_ok m g rows ltac:(lia)) as HL.
  pose proof (even_widths m g _ Hg HL (full_line rows m g _ Hg HL Hm)) as HW. rewrite <- total_same. split.
  - intros HT. rewrite CompactTotal_is in HT by lia. subst w. apply total_ext. eapply GroupWidths_unique; [apply gwidths_ok; lia|exact HW].
  - intros ->. eexists _, _. split; [exact HL|]. split; [exact HW|reflexivity].
Qed.

Lemma effective_small w : 0 <= w < 65536 -> effective w = w.
Proof. intros Hw. unfold effective. destruct (Z.gtb_spec w 65535); [lia|]. apply Z.mod_small. lia. Qed.

Lemma even_nonneg : rows <> [] -> 0 <= zsum ws.
Proof.
  intros Hne. destruct HE as [EL EW]. destruct rows as [|row rest] eqn:ER; [congruence|].
  assert (Hl : (length cols <= length row)%nat) by (pose proof (pr_long _ _ _ _ HP) as HF; inversion HF; auto).
  assert (K : Forall (fun w => 0 <= w) ws).
  { apply Forall_forall. intros w Hw. apply In_nth_error in Hw. destruct Hw as (i & Hi).
    assert (Hi' : (i < length cols)%nat) by (rewrite <- EL; apply nth_error_Some; congruence).
    destruct (nth_error row i) as [x|] eqn:Ex; [|apply nth_error_None in Ex; lia].
    specialize (EW row i x (or_introl eq_refl) Ex Hi'). pose proof (vwidth_range c x). assert (w = vwidth c x) by congruence. lia. }
  clear - K. induction K as [|w l Hw K IH]; [cbn; lia|]. change (0 <= w + zsum l). lia.
Qed.

Lemma even_fit m sep maxWidth g : cols <> [] -> 0 <= maxWidth < 65536 -> Z.of_nat g * room cols ws sep - slen sep < 65536 -> 0 < room cols ws sep ->
  (1 <= g)%nat -> (m = H /\ (g <= length rows)%nat) \/ (m = V /\ Worth V rows g) ->
  (Acceptable c cols sep maxWidth m rows g <-> Z.of_nat g <= fitting cols ws sep maxWidth).
Proof.
  intros Hc Hw Hb Hd Hg Hm.
  assert (Hne : rows <> []).
  { intros ->. destruct Hm as [[_ Hn]|[_ HW]]; [cbn in Hn; lia|].
    destruct (HW (layout_lines V g []) (layout_ok V g [] ltac:(lia))) as (line & H1 & H2).
    destruct line as [|r line]; [cbn in H2; lia|].
    exact (line_rows (rows := []) V g _ _ r ltac:(lia) (layout_ok V g [] ltac:(lia)) H1 (or_introl eq_refl)). }
  pose proof (even_nonneg Hne) as Hu.
  assert (Hn : 1 <= slen cols) by (unfold slen; destruct cols; [congruence|cbn [length]; lia]).
  assert (Hds : slen sep <= room cols ws sep) by (unfold room; lia).
  assert (Hs : 0 <= slen sep) by (unfold slen; lia).
  assert (HQ : room cols ws sep * fitting cols ws sep maxWidth <= maxWidth + slen sep < room cols ws sep * fitting cols ws sep maxWidth + room cols ws sep).
  { unfold fitting. pose proof (Z.div_mod (maxWidth + slen sep) (room cols ws sep) ltac:(lia)).
    pose proof (Z.mod_pos_bound (maxWidth + slen sep) (room cols ws sep) Hd). lia. }
  set (d := room cols ws sep) in *. set (q := fitting cols ws sep maxWidth) in *. set (s := slen sep) in *.
  assert (Hlo : 1 * d <= Z.of_nat g * d) by (apply Z.mul_le_mono_nonneg_r; lia).
  assert (HW : Worth m rows g) by (destruct Hm as [[-> _]|[-> HW]]; [exact Logic.I|exact HW]).
  unfold Acceptable. rewrite effective_small by lia. split.
  - intros [_ (w & HT & Hx)]. apply (even_total m sep g w Hg Hm) in HT. fold d s in HT. subst w.
    rewrite Z.mod_small in Hx by lia. assert (Hlt : Z.of_nat g * d < (q + 1) * d) by lia.
    apply Z.mul_lt_mono_pos_r in Hlt; lia.
  - intros Hgq. split; [exact HW|]. exists (Z.of_nat g * d - s). split; [apply (even_total m sep g _ Hg Hm); reflexivity|].
    assert (Z.of_nat g * d <= q * d) by (apply Z.mul_le_mono_nonneg_r; lia). rewrite Z.mod_small by lia. lia.
Qed.

Lemma reckoned_cols sep : reckoned t cols sep mod 65536 <> 0 -> cols <> [].
Proof. intros Hr ->. apply Hr. reflexivity. Qed.

Lemma even_search_bounds maxWidth sep x : 0 <= maxWidth -> 0 < room cols ws sep -> fitting cols ws sep maxWidth <= x ->
  (x + 1) * room cols ws sep - slen sep < 65536 ->
  0 <= maxWidth < 65536 /\ forall g, Z.of_nat g <= x + 1 -> Z.of_nat g * room cols ws sep - slen sep < 65536.
Proof.
  intros Hw Hd Hx Hb.
  assert (HQ : maxWidth + slen sep < room cols ws sep * fitting cols ws sep maxWidth + room cols ws sep).
  { unfold fitting. pose proof (Z.div_mod (maxWidth + slen sep) (room cols ws sep) ltac:(lia)).
    pose proof (Z.mod_pos_bound (maxWidth + slen sep) (room cols ws sep) Hd). lia. }
  set (d := room cols ws sep) in *. set (q := fitting cols ws sep maxWidth) in *.
  assert ((q + 1) * d <= (x + 1) * d) by (apply Z.mul_le_mono_nonneg_r; lia). split; [lia|]. intros g Hg.
  assert (Z.of_nat g * d <= (x + 1) * d) by (apply Z.mul_le_mono_nonneg_r; lia). lia.
Qed.

(** Horizontally: as many items to a line as fit. *)
Theorem even_horizontal maxWidth sep fuel : reckoned t cols sep mod 65536 <> 0 -> 0 <= maxWidth -> 0 < room cols ws sep ->
  let g0 := estimate t cols sep maxWidth in let g1 := fitting cols ws sep maxWidth in
  (Z.max g0 g1 + 1) * room cols ws sep - slen sep < 65536 -> Z.max g0 g1 < slen rows -> Z.max g0 g1 - g0 < Z.of_nat fuel ->
  exists lines, Layout H (Z.to_nat (Z.max g0 g1)) rows lines
    /\ merge H fuel c t (fun _ => true) items maxWidth sep true
       = {| written := printed c cols sep (fun _ => if g0 <? g1 then ws else recorded t cols) (Z.to_nat (Z.max g0 g1)) lines; stop := Finished |}.
Proof.
  intros Hr Hw Hd g0 g1 Hb Hn Hf. pose proof (estimate_pos t cols sep maxWidth) as Hp. fold g0 in Hp.
  pose proof (reckoned_cols sep Hr) as Hc. set (g := Z.to_nat (Z.max g0 g1)). unfold slen in Hn.
  exists (layout_lines H g rows). pose proof (layout_ok H g rows ltac:(lia)) as HL. split; [exact HL|].
  apply (compact_ok HP H fuel maxWidth sep (Z.to_nat g0) g); auto; [lia| |lia|].
  - destruct (even_search_bounds maxWidth sep (Z.max g0 g1) Hw Hd ltac:(fold g1; lia) Hb) as [Hw' Hb'].
    split; [lia|]. split.
    + intros g' Hg'. apply even_fit; [assumption|assumption|apply Hb'; lia|assumption|lia|left; split; [reflexivity|lia]|fold g1; lia].
    + intros HA. apply even_fit in HA; [fold g1 in HA; lia|assumption|assumption|apply Hb'; lia|assumption|lia|left; split; [reflexivity|lia]].
  - destruct (Z.ltb_spec g0 g1) as [Hlt|Hge]; [right|left; split; [lia|reflexivity]]. split; [lia|].
    apply (even_widths H g); auto; [lia|]. apply (full_line rows H g); auto; [lia|left; split; [reflexivity|lia]].
Qed.

Lemma chosen_text sep g0 g lines W : (1 <= g0)%nat -> Layout V g rows lines -> Chosen c t cols g0 g lines W ->
  ((g0 < g)%nat -> Worth V rows g) ->
  printed c cols sep W g lines = printed c cols sep (fun _ => if (g0 <? g)%nat then ws else recorded t cols) g lines.
Proof.
  intros Hg0 HL HC HW. unfold printed. apply map_ext_in. intros line Hin. f_equal.
  destruct HC as [[-> ->]|[Hlt HG]].
  - rewrite Nat.ltb_irrefl. reflexivity.
  - destruct (Nat.ltb_spec g0 g); [|lia]. apply line_text_ext; [|].
    { pose proof HL as HL'. apply layout_is in HL'; [|lia]. subst lines. eapply layout_line_len; eauto. }
    intros j Hj. rewrite (GroupWidths_unique c cols lines g W (fun _ => ws) HG); [reflexivity| |exact Hj]. apply (even_widths V g); auto; [lia|].
    apply (full_line rows V g); [lia|exact HL|right; auto].
Qed.

(** Vertically: as many as fit, but no further than each group saves a line. *)
Theorem even_vertical maxWidth sep fuel : reckoned t cols sep mod 65536 <> 0 -> 0 <= maxWidth -> 0 < room cols ws sep ->
  let g0 := estimate t cols sep maxWidth in let g1 := fitting cols ws sep maxWidth in
  (Z.max g0 g1 + 1) * room cols ws sep - slen sep < 65536 -> (1 <= fuel)%nat -> (length rows <= fuel)%nat ->
  exists g lines, g0 <= Z.of_nat g <= Z.max g0 g1 /\ (forall g', g0 < Z.of_nat g' <= Z.of_nat g -> Worth V rows g')
    /\ (Z.of_nat g = Z.max g0 g1 \/ ~ Worth V rows (S g)) /\ Layout V g rows lines
    /\ merge V fuel c t (fun _ => true) items maxWidth sep true
       = {| written := printed c cols sep (fun _ => if g0 <? Z.of_nat g then ws else recorded t cols) g lines; stop := Finished |}.
Proof.
  intros Hr Hw Hd g0 g1 Hb Hf1 Hf2. pose proof (estimate_pos t cols sep maxWidth) as Hp. fold g0 in Hp.
  pose proof (reckoned_cols sep Hr) as Hc.
  destruct (even_search_bounds maxWidth sep (Z.max g0 g1) Hw Hd ltac:(fold g1; lia) Hb) as [Hw' Hb'].
  destruct (plan_output (c := c) HP V fuel maxWidth sep true Hr (vertical_terminates (c := c) HP fuel maxWidth sep Hr Hf1 Hf2)) as (g & lines & W & (k0 & Hk & HS & HL & HC) & HM).
  fold g0 in Hk. destruct HS as (S1 & S2 & S3).
  assert (HW : forall g', (k0 < g' <= g)%nat -> Worth V rows g') by (intros g' Hg'; exact (proj1 (S2 g' Hg'))).
  assert (Hle : Z.of_nat g <= Z.max g0 g1).
  { destruct (Z_le_gt_dec (Z.of_nat g) (Z.max g0 g1)) as [|Hgt]; [assumption|exfalso].
    set (h := Z.to_nat (Z.max g0 g1 + 1)). assert (HA : Acceptable c cols sep maxWidth V rows h) by (apply S2; lia).
    apply even_fit in HA; [fold g1 in HA; lia|assumption|assumption|apply Hb'; lia|assumption|lia|right; split; [reflexivity|apply HW; lia]]. }
  exists g, lines. split; [lia|]. split; [intros g' Hg'; apply HW; lia|]. split.
  { destruct (Z.eq_dec (Z.of_nat g) (Z.max g0 g1)) as [He|Hne]; [left; exact He|right]. intros HX. apply S3.
    apply even_fit; [assumption|assumption|apply Hb'; lia|assumption|lia|right; split; [reflexivity|assumption]|fold g1; lia]. }
  split; [exact HL|]. rewrite HM. f_equal. rewrite (chosen_text sep k0 g lines W); [|lia|exact HL|exact HC|intros; apply HW; lia].
  replace (g0 <? Z.of_nat g) with (k0 <? g)%nat by lia. reflexivity.
Qed.
End Rows.

(** ** Nothing gained *)

(** With a separator of one byte, or one column, and cells of the recorded widths. *)
Theorem even_same c (t : Table) cols items rows m fuel maxWidth sep : Printable t cols items rows ->
  Even c cols (recorded t cols) rows -> slen sep = 1 \/ slen cols = 1 -> 0 <= maxWidth -> maxWidth + slen sep < 65536 ->
  0 < reckoned t cols sep < 65536 -> (estimate t cols sep maxWidth + 1) * reckoned t cols sep - slen sep < 65536 ->
  (m = H -> estimate t cols sep maxWidth < slen rows) -> (1 <= fuel)%nat ->
  merge m fuel c t (fun _ => true) items maxWidth sep true = merge m fuel c t (fun _ => true) items maxWidth sep false.
Proof.
  intros HP HE Hsep Hw Hws Hr Hb Hn Hf. pose proof (estimate_pos t cols sep maxWidth) as Hp.
  assert (Hroom : room cols (recorded t cols) sep = reckoned t cols sep).
  { unfold room, reckoned. destruct Hsep as [Es|Ec]; [rewrite Es|rewrite Ec]; lia. }
  assert (Hs : 0 <= slen sep) by (unfold slen; lia).
  assert (Hfit : fitting cols (recorded t cols) sep maxWidth <= estimate t cols sep maxWidth).
  { unfold fitting, estimate. rewrite Hroom, effective_small, !Z.mod_small by lia. lia. }
  assert (Hr0 : reckoned t cols sep mod 65536 <> 0) by (rewrite Z.mod_small; lia).
  assert (Hc : cols <> []) by (intros ->; apply Hr0; reflexivity).
  set (g0 := Z.to_nat (estimate t cols sep maxWidth)). assert (Hg0 : Z.of_nat g0 = estimate t cols sep maxWidth) by lia.
  pose proof (layout_ok m g0 rows ltac:(lia)) as HL.
  rewrite (plain_ok HP m fuel maxWidth sep g0 _ Hr0 Hg0 HL).
  apply (compact_ok HP m fuel maxWidth sep g0 g0); auto; [|lia|left; split; reflexivity].
  split; [lia|]. split; [intros; lia|]. intros HA.
  assert (Hm : (m = H /\ (S g0 <= length rows)%nat) \/ (m = V /\ Worth V rows (S g0))).
  { destruct m; [left|right; split; [reflexivity|exact (proj1 HA)]]. split; [reflexivity|]. specialize (Hn eq_refl). unfold slen in Hn. lia. }
  apply (even_fit HP HE) in HA; [lia|exact Hc|lia| |lia|lia|exact Hm].
  rewrite Hroom. replace (Z.of_nat (S g0)) with (estimate t cols sep maxWidth + 1) by lia. exact Hb.
Qed.

(** The number of lines. *)
Lemma layout_count m g (rows : list (list str)) lines : (1 <= g)%nat -> rows <> [] -> Layout m g rows lines ->
  slen lines = (slen rows + Z.of_nat g - 1) / Z.of_nat g.
Proof.
  intros Hg Hne HL. apply layout_is in HL; [|lia]. subst lines. unfold slen. rewrite layout_len.
  assert (Hn : (1 <= length rows)%nat) by (destruct rows; [congruence|cbn [length]; lia]).
  pose proof (lineCount_spec (length rows) g Hg Hn) as [H1 H2]. pose proof (lineCount_pos (length rows) g Hn) as H3.
  set (L := lineCount (length rows) g) in *. apply Z.div_unique with (Z.of_nat (length rows) - 1 - (Z.of_nat L - 1) * Z.of_nat g); [left|lia]. nia.
Qed.

Theorem even_lines c (t : Table) cols items rows ws : Printable t cols items rows -> Even c cols ws rows ->
  forall maxWidth sep fuel, reckoned t cols sep mod 65536 <> 0 -> 0 <= maxWidth -> 0 < room cols ws sep ->
  let g := Z.max (estimate t cols sep maxWidth) (fitting cols ws sep maxWidth) in
  (g + 1) * room cols ws sep - slen sep < 65536 -> g < slen rows -> g - estimate t cols sep maxWidth < Z.of_nat fuel ->
  slen (written (merge H fuel c t (fun _ => true) items maxWidth sep true)) = (slen rows + g - 1) / g.
Proof.
  intros HP HE maxWidth sep fuel Hr Hw Hd g Hb Hn Hf.
  destruct (even_horizontal HP HE maxWidth sep fuel Hr Hw Hd Hb Hn Hf) as (lines & HL & HM). cbv zeta in HL, HM. fold g in HL, HM.
  pose proof (estimate_pos t cols sep maxWidth) as Hp. rewrite HM. cbn [written].
  assert (Hne : rows <> []) by (intros ->; unfold slen in Hn; cbn in Hn; lia).
  pose proof (layout_count H (Z.to_nat g) rows lines ltac:(lia) Hne HL) as HC. rewrite Z2Nat.id in HC by lia.
  unfold printed, slen in *. rewrite map_length. exact HC.
Qed.
End Types.
