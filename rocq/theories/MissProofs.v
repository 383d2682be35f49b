(** * MissProofs: by how much the alignments miss the width asked for. *)
From Verif Require Import GoBase Utf8 Utf8Proofs GraphemeSpec Runewidth ConditionSpec StringWidthSpec
  UnisegProofs StringWidthProofs Regex Width EscapeSpec TextSpec AlignSpec RegexProofs ScanProofs WidthProofs
  WidthTheory Table AlignProofs AlignTheory MissSpec.
From Coq Require Import ZifyBool ZifyNat.
Local Open Scope Z_scope.

(** ** The left edge *)
Lemma pict_extend_other b : pict_extend (b ++ [Other]) = pict_extend b.
Proof. induction b as [|g b IH]; [reflexivity|]. destruct g; cbn [app pict_extend]; auto. Qed.
Lemma ri_count_other b : ri_count (b ++ [Other]) = ri_count b.
Proof. induction b as [|g b IH]; [reflexivity|]. destruct g; cbn [app ri_count]; auto. Qed.

Lemma breaks_other b g : b <> [] -> breaks (b ++ [Other]) g = breaks b g.
Proof.
  intros Hb. destruct b as [|a b]; [congruence|]. cbn [app]. unfold breaks.
  change (a :: b ++ [Other]) with ((a :: b) ++ [Other]). rewrite ri_count_other, pict_extend_other. reflexivity.
Qed.

Lemma seg_other l : forall b cur, b <> [] -> seg (b ++ [Other]) cur l = seg b cur l.
Proof.
  induction l as [|r l IH]; intros b cur Hb; [reflexivity|]. cbn [seg]. rewrite breaks_other by auto.
  change (class r :: b ++ [Other]) with ((class r :: b) ++ [Other]). rewrite !IH by discriminate. reflexivity.
Qed.

Lemma seg_prefixed x l : forall b cur, b <> [] ->
  exists h t, seg b cur l = h :: t /\ seg b (x :: cur) l = (x :: h) :: t.
Proof.
  induction l as [|r l IH]; intros b cur Hb; cbn [seg]; [eauto|].
  destruct (breaks b (class r)); [eauto|]. apply (IH (class r :: b) (cur ++ [r])). discriminate.
Qed.

Lemma breaks_attach r b : Attaches r -> breaks (Other :: b) (class r) = false.
Proof. intros [->|[->| ->]]; reflexivity. Qed.

Lemma segments_attached r l : Attaches r ->
  exists h t, segments (r :: l) = h :: t /\ segments (0x20 :: r :: l) = (0x20 :: h) :: t.
Proof.
  intros Hr. cbn [segments]. rewrite class_space. cbn [seg]. rewrite breaks_attach by auto. cbn [app].
  change [class r; Other] with ([class r] ++ [Other]). rewrite seg_other by discriminate.
  apply (seg_prefixed 0x20 l [class r] [r]). discriminate.
Qed.

Lemma cluster_visible c r rs : 0 < RuneWidth c r -> cluster_width c (r :: rs) = RuneWidth c r.
Proof. intros H. unfold cluster_width. cbn [cluster_width_from]. destruct (Z.gtb_spec (RuneWidth c r) 0); lia. Qed.

Lemma space_width c : Reachable c -> RuneWidth c 0x20 = 1.
Proof. intros. apply width_printable; auto; lia. Qed.

Lemma swidth_attached c r l d first rest : Reachable c -> Attaches r ->
  IsSegmentation (r :: l) (first :: rest) -> ClusterWidth (RuneWidth c) first d ->
  swidth c (0x20 :: r :: l) = 1 + swidth c (r :: l) - d.
Proof.
  intros Hc Hr HS HW. destruct (segments_attached r l Hr) as (h & t & E1 & E2).
  pose proof (IsSegmentation_unique _ _ _ HS (segments_IsSegmentation (r :: l))) as U. rewrite E1 in U.
  injection U as -> ->. unfold swidth. rewrite E1, E2. cbn [map]. rewrite !zsum_cons.
  rewrite cluster_visible by (rewrite space_width by auto; lia). rewrite space_width by auto.
  rewrite (ClusterWidth_fun _ _ _ _ HW (cluster_width_spec c h (Reachable_OK c Hc))). lia.
Qed.

Lemma swidth_spaces_before c k l : Reachable c -> swidth c (repeat 0x20 k ++ 0x20 :: l) = Z.of_nat k + swidth c (0x20 :: l).
Proof.
  intros Hc. rewrite swidth_app.
  - rewrite swidth_spaces by auto. reflexivity.
  - rewrite class_space. apply breaks_before_other. intros prev E. apply rev_map_last in E.
    destruct E as (pre & x & E & Ex). assert (In x (repeat 0x20 k)) as K by (rewrite E; apply in_or_app; right; left; auto).
    apply repeat_spec in K. subst. rewrite class_space in Ex. discriminate.
Qed.

Lemma repeat_snoc {A} (x : A) k : repeat x (S k) = repeat x k ++ [x].
Proof. induction k as [|k IH]; [reflexivity|]. cbn [repeat app] in *. rewrite <- IH. reflexivity. Qed.

Lemma raw_before c s n d : Reachable c -> 0 < n -> LostBefore (RuneWidth c) (runes s) d ->
  rawWidth c (spaces n ++ s) = n + rawWidth c s - d.
Proof.
  intros Hc Hn HL. destruct HL as [r more first rest d E Hr HS HW|HN].
  - unfold rawWidth. rewrite count_spaces_app, !StringWidth_swidth, runes_spaces_app.
    destruct (Z.to_nat n) as [|k] eqn:En; [lia|]. rewrite repeat_snoc, <- app_assoc. cbn [app].
    rewrite swidth_spaces_before by auto. rewrite E in *. rewrite (swidth_attached c r more d first rest) by auto. lia.
  - rewrite rawWidth_pad_left; [lia|auto|lia|]. intros (r & post & E & K). exact (HN r post E K).
Qed.

(** ** The right edge *)
Lemma seg_prepends p : forall b cur r, Forall (fun x => class x = Prepend) p -> is_control (class r) = false ->
  seg (Prepend :: b) cur (p ++ [r]) = [cur ++ p ++ [r]].
Proof.
  induction p as [|x p IH]; intros b cur r Hp Hr; cbn [app seg].
  - assert (breaks (Prepend :: b) (class r) = false) as -> by (destruct (class r); try discriminate; reflexivity).
    reflexivity.
  - inversion Hp as [|? ? Hx Hp']; subst. rewrite Hx.
    assert (breaks (Prepend :: b) Prepend = false) as -> by reflexivity.
    rewrite IH by auto. rewrite <- app_assoc. reflexivity.
Qed.

Lemma segments_prepends p r : Forall (fun x => class x = Prepend) p -> is_control (class r) = false ->
  segments (p ++ [r]) = [p ++ [r]].
Proof.
  intros Hp Hr. destruct p as [|x p]; [reflexivity|]. cbn [app segments].
  inversion Hp as [|? ? Hx Hp']; subst. rewrite Hx. apply seg_prepends; auto.
Qed.

Lemma cluster_invisible c p q : Forall (fun r => RuneWidth c r = 0) p -> cluster_width c (p ++ q) = cluster_width c q.
Proof.
  intros H. unfold cluster_width. induction p as [|r p IH]; [reflexivity|]. cbn [app cluster_width_from].
  inversion H as [|? ? Hr Hp]; subst. rewrite Hr. change (0 >? 0) with false. cbn iota. apply IH; auto.
Qed.

Lemma cluster_from_visible c p q : WidthOK c -> Exists (fun r => 0 < RuneWidth c r) p -> forall w,
  cluster_width_from c w (p ++ q) = cluster_width_from c w p.
Proof.
  intros HO. induction 1 as [r p Hr|r p Hp IH]; intros w; cbn [app cluster_width_from].
  - destruct (Z.gtb_spec (RuneWidth c r) 0); [reflexivity|lia].
  - rewrite IH. reflexivity.
Qed.

(** Every text ends in a greatest run of Prepend runes. *)
Lemma prepend_tail rs : exists a p, rs = a ++ p /\ Forall (fun r => class r = Prepend) p
  /\ forall prev, rev (map class a) <> Prepend :: prev.
Proof.
  induction rs as [|r rs IH] using rev_ind.
  - exists [], []. split; [reflexivity|]. split; [constructor|]. discriminate.
  - destruct (class r) eqn:Er.
    8: { destruct IH as (a & p & -> & Hp & Ha). exists a, (p ++ [r]). rewrite app_assoc. split; [reflexivity|].
         split; [|exact Ha]. apply Forall_app. split; [exact Hp|]. constructor; auto. }
    all: exists (rs ++ [r]), []; rewrite app_nil_r; split; [reflexivity|]; split; [constructor|];
      intros prev; rewrite map_app, rev_app_distr; cbn [map rev app]; rewrite Er; discriminate.
Qed.

Lemma Absorbs_tail width a p : Forall (fun r => class r = Prepend) p ->
  (forall prev, rev (map class a) <> Prepend :: prev) ->
  (Absorbs width (a ++ p) <-> Exists (fun r => 0 < width r) p).
Proof.
  intros Hp Ha. split.
  - intros (b & t & E & Ht & He).
    assert (exists q, p = q ++ t) as (q & ->).
    { clear He. revert b t E Ht. induction p as [|x p IH] using rev_ind; intros b t E Ht.
      - rewrite app_nil_r in E. destruct t as [|y t _] using rev_ind; [exists []; reflexivity|].
        exfalso. rewrite app_assoc in E. subst a. apply (Ha (rev (map class (b ++ t)))).
        rewrite map_app, rev_app_distr. cbn [map rev app]. apply Forall_app in Ht. destruct Ht as [_ Ht].
        inversion Ht; subst. congruence.
      - destruct t as [|y t _] using rev_ind; [exists (p ++ [x]); rewrite app_nil_r; reflexivity|].
        rewrite !app_assoc in E. apply app_inj_tail in E. destruct E as [E ->].
        apply Forall_app in Hp. apply Forall_app in Ht.
        destruct (IH (proj1 Hp) b t E (proj1 Ht)) as (q & ->). exists q. rewrite app_assoc. reflexivity. }
    apply Exists_app. auto.
  - intros He. exists a, p. auto.
Qed.

Lemma swidth_split c a p q : (forall prev, rev (map class a) <> Prepend :: prev) ->
  Forall (fun r => class r = Prepend) p -> p <> [] ->
  swidth c (a ++ p ++ q) = swidth c a + swidth c (p ++ q).
Proof.
  intros Ha Hp Hne. destruct p as [|x p]; [congruence|]. cbn [app]. apply swidth_app.
  inversion Hp as [|? ? Hx _]; subst. rewrite Hx. destruct (rev (map class a)) as [|g l]; [reflexivity|].
  destruct g; try reflexivity. exfalso. eapply Ha; eauto.
Qed.

Lemma swidth_prepends_space c p k : Reachable c -> Forall (fun r => class r = Prepend) p ->
  swidth c (p ++ repeat 0x20 (S k)) = cluster_width c (p ++ [0x20]) + Z.of_nat k.
Proof.
  intros Hc Hp. change (repeat 0x20 (S k)) with ([0x20] ++ repeat 0x20 k). rewrite app_assoc.
  destruct k as [|k].
  - cbn [repeat]. rewrite app_nil_r. unfold swidth. rewrite segments_prepends; [|auto|rewrite class_space; reflexivity].
    cbn [map]. rewrite zsum_cons. change (zsum []) with 0. lia.
  - cbn [repeat]. rewrite swidth_app.
    + change (0x20 :: repeat 0x20 k) with (repeat 0x20 (S k)). rewrite swidth_spaces by auto.
      unfold swidth. rewrite segments_prepends; [|auto|rewrite class_space; reflexivity].
      cbn [map]. rewrite zsum_cons. change (zsum []) with 0. lia.
    + rewrite map_app, rev_app_distr. cbn [map rev app]. rewrite class_space. reflexivity.
Qed.

Lemma swidth_prepends c p : Forall (fun r => class r = Prepend) p -> swidth c p = cluster_width c p.
Proof.
  intros Hp. destruct p as [|x p _] using rev_ind; [reflexivity|]. apply Forall_app in Hp. destruct Hp as [Hp Hx].
  inversion Hx as [|? ? E _]; subst. unfold swidth. rewrite segments_prepends; [|auto|rewrite E; reflexivity].
  cbn [map]. rewrite zsum_cons. change (zsum []) with 0. lia.
Qed.

Lemma cluster_space c p : Reachable c ->
  (Exists (fun r => 0 < RuneWidth c r) p -> cluster_width c (p ++ [0x20]) = cluster_width c p)
  /\ (~ Exists (fun r => 0 < RuneWidth c r) p -> cluster_width c (p ++ [0x20]) = cluster_width c p + 1).
Proof.
  intros Hc. pose proof (Reachable_OK c Hc) as HO. split; intros He.
  - unfold cluster_width. apply cluster_from_visible; auto.
  - assert (F : Forall (fun r => RuneWidth c r = 0) p).
    { apply Forall_Exists_neg in He. eapply Forall_impl; [|exact He]. cbn beta. intros r Hr. destruct (HO r) as [K|[K|K]]; lia. }
    rewrite cluster_invisible by auto. rewrite cluster_visible by (rewrite space_width by auto; lia).
    rewrite space_width by auto. rewrite <- (app_nil_r p), cluster_invisible by auto. reflexivity.
Qed.

Lemma swidth_after c rs k e : Reachable c -> LostAfter (RuneWidth c) rs e ->
  swidth c (rs ++ repeat 0x20 (S k)) = swidth c rs + Z.of_nat (S k) - e.
Proof.
  intros Hc HL. destruct (prepend_tail rs) as (a & p & -> & Hp & Ha).
  assert (K : cluster_width c (p ++ [0x20]) = cluster_width c p + 1 - e).
  { destruct (cluster_space c p Hc) as [K1 K2]. destruct HL as [HL|HL]; rewrite (Absorbs_tail _ a p Hp Ha) in HL.
    - rewrite K1 by auto. lia.
    - rewrite K2 by auto. lia. }
  destruct p as [|x p].
  - rewrite app_nil_r in *. cbn [app] in K. cbn [repeat]. rewrite swidth_app.
    + change (0x20 :: repeat 0x20 k) with (repeat 0x20 (S k)). rewrite swidth_spaces by auto.
      rewrite cluster_visible, space_width in K by (auto; rewrite space_width by auto; lia).
      change (cluster_width c []) with 0 in K. lia.
    + rewrite class_space. apply breaks_before_other. exact Ha.
  - rewrite <- app_assoc, swidth_split, swidth_prepends_space by (auto; discriminate).
    pose proof (swidth_split c a (x :: p) [] Ha Hp ltac:(discriminate)) as E. rewrite app_nil_r in E. rewrite E.
    rewrite (swidth_prepends c (x :: p)) by auto. lia.
Qed.

Lemma raw_after c s n e : Reachable c -> 0 < n -> LostAfter (RuneWidth c) (runes s) e ->
  rawWidth c (s ++ spaces n) = rawWidth c s + n - e.
Proof.
  intros Hc Hn HL. unfold rawWidth.
  assert (Hd : decode (s ++ spaces n) = decode s ++ decode (spaces n)).
  { apply decode_app. apply noncont_ascii_str. apply spaces_ascii. }
  rewrite count_app; auto.
  - rewrite count_spaces, !StringWidth_swidth, runes_app_spaces.
    destruct (Z.to_nat n) as [|k] eqn:En; [lia|]. rewrite (swidth_after c _ k e) by auto. lia.
  - rewrite decode_spaces. intros x l E. destruct (Z.to_nat n); [discriminate|].
    cbn [repeat] in E. injection E as <- _. apply space_not_tail.
Qed.

(** ** The alignments *)
Lemma Lost_exists c rs : Reachable c -> exists d e,
  LostBefore (RuneWidth c) rs d /\ LostAfter (RuneWidth c) rs e /\ 0 <= d <= 2 /\ 0 <= e <= 1.
Proof.
  intros Hc. pose proof (Reachable_OK c Hc) as HO.
  assert (exists e, LostAfter (RuneWidth c) rs e /\ 0 <= e <= 1) as (e & He & Be).
  { destruct (prepend_tail rs) as (a & p & -> & Hp & Ha).
    destruct (Exists_dec (fun r => 0 < RuneWidth c r) p) as [X|X]; [intros r; destruct (Z_lt_dec 0 (RuneWidth c r)); auto| |].
    - exists 1. split; [|lia]. apply after_one. apply Absorbs_tail; auto.
    - exists 0. split; [|lia]. apply after_none. rewrite Absorbs_tail; auto. }
  assert (exists d, LostBefore (RuneWidth c) rs d /\ 0 <= d <= 2) as (d & Hd & Bd).
  { destruct rs as [|r l]; [exists 0; split; [apply before_none; discriminate|lia]|].
    destruct (segments (r :: l)) as [|h t] eqn:Es.
    { pose proof (segments_concat (r :: l)) as K. rewrite Es in K. discriminate. }
    pose proof (segments_IsSegmentation (r :: l)) as HS. rewrite Es in HS.
    assert (D : Attaches r \/ ~ Attaches r).
    { unfold Attaches. destruct (class r); auto; right; intros [K|[K|K]]; discriminate. }
    destruct D as [D|D].
    - exists (cluster_width c h). split; [apply (before_first _ _ r l h t); auto; apply cluster_width_spec; auto|].
      destruct (cluster_width_bounds c h HO) as [B1 B2]. split; [exact B1|]. destruct h as [|x h]; [cbn; lia|].
      destruct (B2 ltac:(discriminate)) as (y & _ & ->). destruct (HO y) as [K|[K|K]]; lia.
    - exists 0. split; [|lia]. apply before_none. intros r' more E. injection E as <- _. exact D. }
  exists d, e. auto.
Qed.

Lemma Attaches_first r more rs x l : rs = r :: more -> rs = x :: l -> Attaches r -> Attaches x.
Proof. intros -> E. injection E as -> _. auto. Qed.

Lemma LostBefore_fun width rs a b : LostBefore width rs a -> LostBefore width rs b -> a = b.
Proof.
  intros [r m f t d E Hr HS HW|HN] Hb; destruct Hb as [r' m' f' t' d' E' Hr' HS' HW'|HN']; auto.
  - pose proof (IsSegmentation_unique _ _ _ HS HS') as U. injection U as -> _. eapply ClusterWidth_fun; eauto.
  - exfalso. exact (HN' r m E Hr).
  - exfalso. exact (HN r' m' E' Hr').
Qed.
Lemma LostAfter_fun width rs a b : LostAfter width rs a -> LostAfter width rs b -> a = b.
Proof. intros [Ha|Ha] [Hb|Hb]; auto; contradiction. Qed.

Lemma LostAfter_front c k rs e : LostAfter (RuneWidth c) rs e -> LostAfter (RuneWidth c) (repeat 0x20 k ++ rs) e.
Proof.
  intros H. destruct (prepend_tail rs) as (a & p & -> & Hp & Ha).
  assert (Hb : forall prev, rev (map class (repeat 0x20 k ++ a)) <> Prepend :: prev).
  { intros prev E. destruct a as [|x a _] using rev_ind.
    - rewrite app_nil_r in E. apply rev_map_last in E.
      destruct E as (pre & x & E & Ex). assert (In x (repeat 0x20 k)) as K by (rewrite E; apply in_or_app; right; left; auto).
      apply repeat_spec in K. subst. rewrite class_space in Ex. discriminate.
    - rewrite app_assoc, map_app, rev_app_distr in E. cbn [map rev app] in E. injection E as E _.
      apply (Ha (rev (map class a))). rewrite map_app, rev_app_distr. cbn [map rev app]. rewrite E. reflexivity. }
  destruct H as [H|H]; rewrite Absorbs_tail in H by auto.
  - apply after_one. rewrite app_assoc. apply Absorbs_tail; auto.
  - apply after_none. rewrite app_assoc. rewrite Absorbs_tail; auto.
Qed.

Lemma raw_around c s l r d e : Reachable c -> 0 < l -> 0 <= r ->
  LostBefore (RuneWidth c) (runes s) d -> LostAfter (RuneWidth c) (runes s) e ->
  rawWidth c (spaces l ++ s ++ spaces r) = l + rawWidth c s + r - d - (if r =? 0 then 0 else e).
Proof.
  intros Hc Hl Hr Hd He. destruct (Z.eqb_spec r 0) as [->|N].
  - change (spaces 0) with (@nil byte). rewrite app_nil_r. rewrite (raw_before c s l d) by auto. lia.
  - rewrite app_assoc. rewrite (raw_after c _ r e); [|auto|lia|].
    + rewrite (raw_before c s l d) by auto. lia.
    + rewrite runes_spaces_app. apply LostAfter_front. exact He.
Qed.

Lemma vwidth_shift c s t k : rawWidth c t = rawWidth c s + k -> vwidth c t = (vwidth c s + k) mod 65536.
Proof. intros H. unfold vwidth, u16. rewrite H. rewrite Zplus_mod_idemp_l. reflexivity. Qed.

Lemma vwidth_bounds c s : 0 <= vwidth c s < 65536.
Proof. apply (u16_range (rawWidth c s)). Qed.

Lemma left_miss c s w e : Reachable c -> 0 <= w < 65536 -> vwidth c s < w ->
  LostAfter (RuneWidth c) (runes s) e -> vwidth c (AlignmentLeft c s w) = w - e.
Proof.
  intros Hc Hw Hv He. pose proof (vwidth_bounds c s). rewrite left_spaces by auto. rewrite Z.max_r by lia.
  rewrite (vwidth_shift c s _ (w - vwidth c s - e)).
  - replace (vwidth c s + (w - vwidth c s - e)) with (w - e) by lia. apply Z.mod_small. destruct He; lia.
  - rewrite (raw_after c s _ e) by (auto; lia). lia.
Qed.

Lemma right_miss c s w d : Reachable c -> 0 <= w < 65536 -> vwidth c s < w ->
  LostBefore (RuneWidth c) (runes s) d -> vwidth c (AlignmentRight c s w) = (w - d) mod 65536.
Proof.
  intros Hc Hw Hv He. pose proof (vwidth_bounds c s). rewrite right_spaces by auto. rewrite Z.max_r by lia.
  rewrite (vwidth_shift c s _ (w - vwidth c s - d)).
  - f_equal. lia.
  - rewrite (raw_before c s _ d) by (auto; lia). lia.
Qed.

Lemma center_parts c s w : 0 <= w < 65536 -> vwidth c s < w -> exists l r,
  AlignmentCenter c s w = spaces l ++ s ++ spaces r /\ 0 < l /\ 0 <= r /\ l + r = w - vwidth c s
  /\ (r = 0 <-> w = vwidth c s + 1).
Proof.
  intros Hw Hv. destruct (center_spaces c s w Hw) as (l & r & E & Hl & Hr & Ht & HP). exists l, r.
  rewrite Z.max_r in Ht by lia. repeat split; auto; lia.
Qed.

Lemma center_miss c s w d e : Reachable c -> 0 <= w < 65536 -> vwidth c s < w ->
  LostBefore (RuneWidth c) (runes s) d -> LostAfter (RuneWidth c) (runes s) e ->
  vwidth c (AlignmentCenter c s w) = (w - d - (if w =? vwidth c s + 1 then 0 else e)) mod 65536.
Proof.
  intros Hc Hw Hv Hd He. destruct (center_parts c s w Hw Hv) as (l & r & -> & Hl & Hr & Ht & Hz).
  rewrite (vwidth_shift c s _ (w - vwidth c s - d - (if r =? 0 then 0 else e))).
  - f_equal. destruct (Z.eqb_spec r 0), (Z.eqb_spec w (vwidth c s + 1)); lia.
  - rewrite (raw_around c s l r d e) by auto. lia.
Qed.

(** Texts that begin or end with a space lose nothing there. *)
Lemma runes_space_front n s : 0 < n -> exists more, runes (spaces n ++ s) = 0x20 :: more.
Proof.
  intros Hn. rewrite runes_spaces_app. destruct (Z.to_nat n) as [|k] eqn:E; [lia|]. cbn [repeat app]. eauto.
Qed.
Lemma front_none c n s d : 0 < n -> LostBefore (RuneWidth c) (runes (spaces n ++ s)) d -> d = 0.
Proof.
  intros Hn H. destruct (runes_space_front n s Hn) as (more & E).
  destruct H as [r m f t d E' Hr _ _|_]; [|reflexivity]. rewrite E in E'. injection E' as <- _.
  unfold Attaches in Hr. rewrite class_space in Hr. destruct Hr as [K|[K|K]]; discriminate.
Qed.
Lemma back_none c n s e : 0 < n -> LostAfter (RuneWidth c) (runes (s ++ spaces n)) e -> e = 0.
Proof.
  intros Hn H. destruct H as [(b & t & E & Ht & He)|_]; [|reflexivity]. exfalso.
  rewrite runes_app_spaces in E. destruct (Z.to_nat n) as [|k] eqn:En; [lia|].
  rewrite repeat_snoc, app_assoc in E. destruct t as [|y t _] using rev_ind; [inversion He|].
  rewrite app_assoc in E. apply app_inj_tail in E. destruct E as [_ <-]. apply Forall_app in Ht. destruct Ht as [_ Ht].
  inversion Ht as [|? ? K _]; subst. rewrite class_space in K. discriminate.
Qed.

Lemma left_twice c s w : Reachable c -> 0 <= w < 65536 -> vwidth c s < w ->
  vwidth c (AlignmentLeft c (AlignmentLeft c s w) w) = w.
Proof.
  intros Hc Hw Hv. destruct (Lost_exists c (runes s) Hc) as (_ & e & _ & He & _ & Be).
  pose proof (left_miss c s w e Hc Hw Hv He) as E1.
  destruct (Z.eq_dec e 0) as [->|N].
  - pose proof (wide_unchanged c (AlignmentLeft c s w) w ltac:(lia)) as (-> & _ & _). lia.
  - destruct (Lost_exists c (runes (AlignmentLeft c s w)) Hc) as (_ & e' & _ & He' & _ & _).
    rewrite (left_miss c (AlignmentLeft c s w) w e' Hc Hw ltac:(lia) He').
    rewrite left_spaces in He' by lia. apply back_none in He'; lia.
Qed.

Lemma right_twice c s w : Reachable c -> 2 <= w < 65536 -> vwidth c s < w ->
  vwidth c (AlignmentRight c (AlignmentRight c s w) w) = w.
Proof.
  intros Hc Hw Hv. destruct (Lost_exists c (runes s) Hc) as (d & _ & Hd & _ & Bd & _).
  pose proof (right_miss c s w d Hc ltac:(lia) Hv Hd) as E1. rewrite Z.mod_small in E1 by lia.
  destruct (Z.eq_dec d 0) as [->|N].
  - pose proof (wide_unchanged c (AlignmentRight c s w) w ltac:(lia)) as (_ & -> & _). lia.
  - destruct (Lost_exists c (runes (AlignmentRight c s w)) Hc) as (d' & _ & Hd' & _ & _).
    rewrite (right_miss c (AlignmentRight c s w) w d' Hc ltac:(lia) ltac:(lia) Hd').
    rewrite right_spaces in Hd' by lia. apply front_none in Hd'; [|lia]. subst d'.
    rewrite Z.mod_small; lia.
Qed.

(** One step of centring a text that already begins with a space. *)
Lemma center_again c n s w e : Reachable c -> 3 <= w < 65536 -> 0 < n -> vwidth c (spaces n ++ s) < w ->
  LostAfter (RuneWidth c) (runes (spaces n ++ s)) e ->
  vwidth c (AlignmentCenter c (spaces n ++ s) w) = w - (if w =? vwidth c (spaces n ++ s) + 1 then 0 else e).
Proof.
  intros Hc Hw Hn Hv He. destruct (Lost_exists c (runes (spaces n ++ s)) Hc) as (d & e' & Hd & He' & Bd & Be).
  rewrite (LostAfter_fun _ _ _ _ He' He) in *. rewrite (center_miss c _ w d e) by (auto; lia).
  apply front_none in Hd; auto. subst d. rewrite Z.mod_small; destruct (w =? _); lia.
Qed.

Lemma center_thrice c s w : Reachable c -> 3 <= w < 65536 -> vwidth c s < w ->
  vwidth c (AlignmentCenter c (AlignmentCenter c (AlignmentCenter c s w) w) w) = w.
Proof.
  intros Hc Hw Hv. destruct (Lost_exists c (runes s) Hc) as (d & e & Hd & He & Bd & Be).
  pose proof (center_miss c s w d e Hc ltac:(lia) Hv Hd He) as E1.
  rewrite Z.mod_small in E1 by (destruct (w =? _); lia).
  destruct (center_parts c s w ltac:(lia) Hv) as (l & r & Ec & Hl & Hr & Ht & Hz).
  rewrite Ec in *. clear Ec.
  set (s1 := spaces l ++ s ++ spaces r) in *.
  destruct (Z.eq_dec (vwidth c s1) w) as [W|W].
  { destruct (wide_unchanged c s1 w ltac:(lia)) as (_ & _ & ->). destruct (wide_unchanged c s1 w ltac:(lia)) as (_ & _ & ->). lia. }
  destruct (Lost_exists c (runes s1) Hc) as (_ & e1 & _ & He1 & _ & Be1).
  pose proof (center_again c l (s ++ spaces r) w e1 Hc Hw Hl) as E2. fold s1 in E2.
  assert (V1 : vwidth c s1 < w) by (destruct (w =? vwidth c s + 1); lia). specialize (E2 V1 He1).
  destruct (center_parts c s1 w ltac:(lia) V1) as (l2 & r2 & Ec2 & Hl2 & Hr2 & Ht2 & Hz2). rewrite Ec2 in *. clear Ec2.
  set (s2 := spaces l2 ++ s1 ++ spaces r2) in *.
  destruct (Z.eq_dec (vwidth c s2) w) as [W2|W2].
  { destruct (wide_unchanged c s2 w ltac:(lia)) as (_ & _ & ->). lia. }
  destruct (Z.eqb_spec w (vwidth c s1 + 1)) as [|N2]; [lia|].
  destruct (Lost_exists c (runes s2) Hc) as (_ & e2 & _ & He2 & _ & Be2).
  pose proof (center_again c l2 (s1 ++ spaces r2) w e2 Hc Hw Hl2) as E3. fold s2 in E3.
  rewrite E3 by (auto; lia). assert (0 < r2) by lia.
  unfold s2 in He2. rewrite app_assoc in He2. apply back_none in He2; [|auto]. rewrite He2. clear. destruct (w =? _); lia.
Qed.

Lemma align_bounds a c s w : Reachable c -> 3 <= w < 65536 -> vwidth c s <= w ->
  w - 3 <= vwidth c (align a c s w) <= w.
Proof.
  intros Hc Hw Hv. destruct (Z.eq_dec (vwidth c s) w) as [E|N]; [rewrite align_wide by lia; lia|].
  destruct (Lost_exists c (runes s) Hc) as (d & e & Hd & He & Bd & Be). destruct a; cbn [align].
  - rewrite (left_miss c s w e) by (auto; lia). lia.
  - rewrite (right_miss c s w d) by (auto; lia). rewrite Z.mod_small; lia.
  - rewrite (center_miss c s w d e) by (auto; lia). rewrite Z.mod_small; destruct (w =? _); lia.
Qed.

(** An alignment leaves exactly the texts alone that are wide enough. *)
Lemma align_fixed a c t w : 0 <= w < 65536 -> (align a c t w = t <-> w <= vwidth c t).
Proof.
  intros Hw. split; [|apply align_wide]. intros E.
  destruct (align_spaces a c t w Hw) as (l & r & E' & Hl & Hr & Ht & _). rewrite E in E'.
  apply (f_equal (@length byte)) in E'. rewrite !app_length in E'. unfold spaces in E'. rewrite !repeat_length in E'. lia.
Qed.

Lemma left_stable c s w e : Reachable c -> 0 <= w < 65536 -> vwidth c s < w -> LostAfter (RuneWidth c) (runes s) e ->
  (AlignmentLeft c (AlignmentLeft c s w) w = AlignmentLeft c s w <-> e = 0).
Proof.
  intros Hc Hw Hv He. pose proof (left_miss c s w e Hc Hw Hv He) as E.
  rewrite (align_fixed ALeft c (AlignmentLeft c s w) w Hw), E. destruct He; lia.
Qed.

Lemma right_stable c s w d : Reachable c -> 2 <= w < 65536 -> vwidth c s < w -> LostBefore (RuneWidth c) (runes s) d ->
  (AlignmentRight c (AlignmentRight c s w) w = AlignmentRight c s w <-> d = 0).
Proof.
  intros Hc Hw Hv Hd. destruct (Lost_exists c (runes s) Hc) as (d' & _ & Hd' & _ & Bd & _).
  rewrite (LostBefore_fun _ _ _ _ Hd' Hd) in Bd. pose proof (right_miss c s w d Hc ltac:(lia) Hv Hd) as E.
  rewrite Z.mod_small in E by lia.
  rewrite (align_fixed ARight c (AlignmentRight c s w) w ltac:(lia)), E. lia.
Qed.

Lemma center_stable c s w d e : Reachable c -> 3 <= w < 65536 -> vwidth c s < w ->
  LostBefore (RuneWidth c) (runes s) d -> LostAfter (RuneWidth c) (runes s) e ->
  (AlignmentCenter c (AlignmentCenter c s w) w = AlignmentCenter c s w <-> d = 0 /\ (e = 0 \/ w = vwidth c s + 1)).
Proof.
  intros Hc Hw Hv Hd He. destruct (Lost_exists c (runes s) Hc) as (d' & e' & Hd' & He' & Bd & Be).
  rewrite (LostBefore_fun _ _ _ _ Hd' Hd) in Bd. rewrite (LostAfter_fun _ _ _ _ He' He) in Be.
  pose proof (center_miss c s w d e Hc ltac:(lia) Hv Hd He) as M.
  rewrite Z.mod_small in M by (destruct (w =? _); lia).
  rewrite (align_fixed ACenter c (AlignmentCenter c s w) w ltac:(lia)), M.
  destruct (Z.eqb_spec w (vwidth c s + 1)); lia.
Qed.
