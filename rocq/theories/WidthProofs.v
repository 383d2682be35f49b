(** * WidthProofs: measuring concatenations. *)
From Verif Require Import GoBase Utf8 Utf8Proofs IntervalSpec PropConst
  GraphemeData Uniseg GraphemeSpec UnisegProofs Runewidth ConditionSpec RunewidthProofs
  RuneTheory StringWidthSpec StringWidthProofs Regex Width EscapeSpec RegexProofs ScanProofs TextSpec.
From Coq Require Import ZifyBool ZifyNat.
Local Open Scope Z_scope.

(** ** ASCII runes *)
Lemma zrange_in n r : 0 <= r < n -> In r (zrange n).
Proof.
  intros H. unfold zrange. apply in_map_iff. exists (Z.to_nat r). split; [lia|].
  apply in_seq. lia.
Qed.

Lemma class_printable r : 0x20 <= r <= 0x7E -> class r = Other.
Proof.
  intros H.
  assert (A : forallb (fun r => (r <? 0x20) || match class r with Other => true | _ => false end)
                (zrange 0x7F) = true) by (vm_compute; reflexivity).
  rewrite forallb_forall in A. specialize (A r (zrange_in 0x7F r ltac:(lia))).
  apply orb_true_iff in A. destruct A as [A|A]; [lia|]. destruct (class r); congruence.
Qed.

Lemma class_esc : class 0x1B = Control.
Proof. vm_compute. reflexivity. Qed.
Lemma class_c1 : class 0x9B = Control.
Proof. vm_compute. reflexivity. Qed.

Lemma class_intro r : Introducer r -> class r = Control.
Proof. intros [->| ->]; [apply class_esc|apply class_c1]. Qed.

Lemma width_printable c r : Reachable c -> 0x20 <= r <= 0x7E -> RuneWidth c r = 1.
Proof.
  intros H Hr. destruct (Reachable_width c H) as (ea & st & E). rewrite E. clear E H.
  assert (A : forallb (fun r => (r <? 0x20) ||
     (RuneWidth {| combinedLut := []; EastAsianWidth := ea; StrictEmojiNeutral := st |} r =? 1))
                (zrange 0x7F) = true) by (destruct ea, st; vm_compute; reflexivity).
  rewrite forallb_forall in A. specialize (A r (zrange_in 0x7F r ltac:(lia))). lia.
Qed.

Lemma width_intro c r : Reachable c -> Introducer r -> RuneWidth c r = 0.
Proof.
  intros H Hr. destruct (Reachable_width c H) as (ea & st & E). rewrite E. clear E H.
  destruct Hr as [->| ->]; destruct ea, st; vm_compute; reflexivity.
Qed.

(** ** Boundaries *)
Lemma breaks_control before g : is_control g = true -> g <> LF -> breaks before g = true.
Proof.
  intros H HL. destruct before as [|a prev]; [reflexivity|].
  destruct g; try discriminate; try congruence; destruct a; reflexivity.
Qed.

Lemma breaks_after_other prev g : g <> Extend -> g <> ZWJ -> g <> SpacingMark ->
  breaks (Other :: prev) g = true.
Proof. intros. destruct g; try congruence; reflexivity. Qed.

Lemma breaks_after_control a prev g : is_control a = true -> (a <> CR \/ g <> LF) ->
  breaks (a :: prev) g = true.
Proof. intros H K. destruct a; try discriminate; destruct g; try reflexivity; tauto. Qed.

Lemma breaks_before_other before : (forall prev, before <> Prepend :: prev) ->
  breaks before Other = true.
Proof. intros H. destruct before as [|a prev]; [reflexivity|]. destruct a; try reflexivity.
  exfalso. eapply H; eauto. Qed.

Lemma rev_map_last {A B} (f : A -> B) l b prev : rev (map f l) = b :: prev ->
  exists pre x, l = pre ++ [x] /\ f x = b.
Proof.
  intros H. destruct l as [|x l] using rev_ind; [discriminate|].
  rewrite map_app, rev_app_distr in H. cbn in H. injection H as H _. exists l, x. auto.
Qed.

(** ** Decoding at a seam *)
Lemma DecodeRune_valid_app (a b : str) : a <> [] -> DecodeRune a <> (RuneError, 1) ->
  DecodeRune (a ++ b) = DecodeRune a.
Proof.
  intros Ha Hv. destruct a as [|c0 a]; [congruence|]. revert Hv. unfold DecodeRune. cbn [app].
  destruct (bv c0 <? 128); auto.
  destruct (inb 194 223 (bv c0)). { destruct a; cbn [app]; [congruence|auto]. }
  destruct (inb 224 239 (bv c0)).
  { destruct a as [|c1 a]; cbn [app]; [congruence|]. destruct a; cbn [app]; [congruence|auto]. }
  destruct (inb 240 244 (bv c0)); [|congruence].
  destruct a as [|c1 a]; cbn [app]; [congruence|]. destruct a as [|c2 a]; cbn [app]; [congruence|].
  destruct a; cbn [app]; [congruence|auto].
Qed.

Lemma decode_valid_app (a b : str) : ValidUTF8 a -> decode (a ++ b) = decode a ++ decode b.
Proof.
  unfold ValidUTF8. induction a as [|a Ha IH] using decode_ind; [reflexivity|]. intros Hv.
  rewrite (decode_cons a) in * by auto. cbn [app]. inversion Hv as [|x l Hx Hl]; subst.
  rewrite decode_cons by (intros K; apply app_eq_nil in K; tauto).
  rewrite DecodeRune_valid_app by auto. f_equal. rewrite <- (IH Hl). f_equal.
  pose proof (DecodeRune_size a Ha) as [H1 H2].
  set (n := snd (DecodeRune a)) in *. unfold drop. rewrite skipn_app.
  replace (Z.to_nat n - length a)%nat with 0%nat by (unfold slen in H2; lia).
  reflexivity.
Qed.

(** A text that starts with a valid rune does not start with a continuation byte. *)
Lemma valid_noncont s x l : decode s = x :: l -> x <> (RuneError, 1) -> noncont s.
Proof.
  intros E Hx. destruct s as [|c s]; [exact I|]. cbn [noncont].
  rewrite decode_cons in E by congruence. injection E as E _.
  destruct (Z_lt_dec (bv c) 0x80); [auto|]. destruct (Z_le_dec 0xC0 (bv c)); [auto|]. exfalso.
  apply Hx. rewrite <- E. unfold DecodeRune, inb.
  destruct (Z.ltb_spec (bv c) 128); [lia|].
  destruct (Z.leb_spec 194 (bv c)); [lia|]. destruct (Z.leb_spec 224 (bv c)); [lia|].
  destruct (Z.leb_spec 240 (bv c)); [lia|]. reflexivity.
Qed.

Lemma valid_text_noncont s : ValidUTF8 s -> noncont s.
Proof.
  unfold ValidUTF8. intros H. destruct (decode s) as [|x l] eqn:E.
  - apply decode_nil_inv in E. subst. exact I.
  - inversion H; subst. eapply valid_noncont; eauto.
Qed.

(** ** Additivity of the two measures *)
Lemma runes_decode s : runes s = map fst (decode s).
Proof. reflexivity. Qed.

Lemma StringWidth_app c (a b : str) : decode (a ++ b) = decode a ++ decode b ->
  (forall r l, runes b = r :: l -> breaks (rev (map class (runes a))) (class r) = true) ->
  StringWidth c (a ++ b) = StringWidth c a + StringWidth c b.
Proof.
  intros Hd Hb. rewrite !StringWidth_swidth.
  assert (E : runes (a ++ b) = runes a ++ runes b) by (unfold runes; rewrite Hd, map_app; auto).
  rewrite E. destruct (runes b) as [|r l].
  - rewrite app_nil_r, swidth_nil. lia.
  - apply swidth_app. eauto.
Qed.

Lemma count_app (a b : str) : decode (a ++ b) = decode a ++ decode b ->
  (forall x l, decode b = x :: l -> ~ TailChar (fst x)) ->
  countMatchesLength ansiEscapeRE (a ++ b) =
  countMatchesLength ansiEscapeRE a + countMatchesLength ansiEscapeRE b.
Proof.
  intros Hd Hx. destruct (Scan_exists_decode a) as (ma & Ha). destruct (Scan_exists_decode b) as (mb & Hb).
  rewrite (count_eq a ma Ha), (count_eq b mb Hb), <- escape_cells_app.
  apply count_eq. rewrite Hd. destruct (decode b) as [|x l].
  - rewrite app_nil_r. rewrite (Scan_unique _ _ Hb _ Scan_nil), app_nil_r. exact Ha.
  - apply Scan_app; auto. eapply Hx; eauto.
Qed.

Lemma escape_cells_nonneg s ms : Scan (decode s) ms -> 0 <= escape_cells ms.
Proof.
  intros H. remember (decode s) as l eqn:E. revert s E.
  induction H as [l Hno|pre m rest ms HF HS IH]; intros s E.
  - unfold escape_cells, zsum. simpl. lia.
  - unfold escape_cells. cbn [map]. rewrite zsum_cons. fold (escape_cells ms).
    assert (E' : decode s = (pre ++ m) ++ rest) by (rewrite <- E, app_assoc; reflexivity).
    destruct (decode_split _ _ _ E') as (p & q & _ & _ & Hq & _).
    specialize (IH q (eq_sym Hq)). symmetry in E. pose proof (nb_decode_ge m s pre rest E).
    destruct HF as [HF _]. apply Escape_length2 in HF. unfold text_runes in HF. rewrite map_length in HF.
    change (text_bytes m) with (nb m). lia.
Qed.

Lemma count_nonneg s : 0 <= countMatchesLength ansiEscapeRE s.
Proof.
  destruct (Scan_exists_decode s) as (ms & H). rewrite (count_eq s ms H).
  eapply escape_cells_nonneg; eauto.
Qed.

(** ** Spaces *)
Lemma decode_spaces n : decode (spaces n) = repeat (0x20, 1) (Z.to_nat n).
Proof.
  rewrite decode_ascii_str by apply spaces_ascii. unfold spaces.
  induction (Z.to_nat n) as [|k IH]; cbn [repeat map]; [reflexivity|]. rewrite IH. reflexivity.
Qed.

Lemma runes_spaces n : runes (spaces n) = repeat 0x20 (Z.to_nat n).
Proof. rewrite runes_decode, decode_spaces. induction (Z.to_nat n) as [|k IH]; cbn [repeat map fst]; [reflexivity|rewrite IH; reflexivity]. Qed.

Lemma class_space : class 0x20 = Other.
Proof. apply class_printable. lia. Qed.

Lemma space_not_tail : ~ TailChar 0x20.
Proof. intros H. apply TailChar_range in H. lia. Qed.

Lemma swidth_spaces c n : Reachable c -> swidth c (repeat 0x20 n) = Z.of_nat n.
Proof.
  intros Hc. induction n as [|n IH]; [reflexivity|].
  change (repeat 0x20 (S n)) with ([0x20] ++ repeat 0x20 n).
  destruct n as [|n].
  - cbn [repeat app]. rewrite swidth_single by (apply Reachable_OK; auto).
    rewrite width_printable; auto; lia.
  - cbn [repeat] in *. rewrite swidth_app.
    + rewrite IH. rewrite swidth_single by (apply Reachable_OK; auto).
      rewrite width_printable by (auto; lia). lia.
    + cbn [map rev app]. rewrite class_space. reflexivity.
Qed.

Lemma StringWidth_spaces c n : Reachable c -> 0 <= n -> StringWidth c (spaces n) = n.
Proof. intros Hc Hn. rewrite StringWidth_swidth, runes_spaces, swidth_spaces by auto. lia. Qed.

Lemma count_no_intro s : Forall (fun r => ~ Introducer r) (runes s) ->
  countMatchesLength ansiEscapeRE s = 0.
Proof.
  intros H. rewrite (count_eq s []); [reflexivity|]. apply Scan_no_intro.
  unfold runes in H. rewrite Forall_map in H. eapply Forall_impl; [|exact H].
  unfold Introducer. intros; lia.
Qed.

Lemma count_spaces n : countMatchesLength ansiEscapeRE (spaces n) = 0.
Proof.
  apply count_no_intro. rewrite runes_spaces. apply Forall_forall. intros x Hx.
  apply repeat_spec in Hx. subst. unfold Introducer. lia.
Qed.

Lemma rawWidth_spaces c n : Reachable c -> 0 <= n -> rawWidth c (spaces n) = n.
Proof. intros. unfold rawWidth. rewrite StringWidth_spaces, count_spaces by auto. lia. Qed.

Lemma rawWidth_pad_right c s n : Reachable c -> 0 <= n -> ~ JoinsNext s ->
  rawWidth c (s ++ spaces n) = rawWidth c s + n.
Proof.
  intros Hc Hn Hs. unfold rawWidth.
  assert (Hd : decode (s ++ spaces n) = decode s ++ decode (spaces n)).
  { apply decode_app. apply noncont_ascii_str. apply spaces_ascii. }
  rewrite StringWidth_app, count_app; auto.
  - rewrite StringWidth_spaces, count_spaces by auto. lia.
  - rewrite decode_spaces. intros x l E. destruct (Z.to_nat n); [discriminate|].
    cbn [repeat] in E. injection E as <- _. apply space_not_tail.
  - rewrite runes_spaces. intros r l E. destruct (Z.to_nat n); [discriminate|].
    cbn [repeat] in E. injection E as <- _. rewrite class_space. apply breaks_before_other.
    intros prev E. apply rev_map_last in E. destruct E as (pre & x & E & Ex). apply Hs.
    exists pre, x. auto.
Qed.

Lemma not_joins_prev s r l : ~ JoinsPrevious s -> runes s = r :: l ->
  class r <> Extend /\ class r <> ZWJ /\ class r <> SpacingMark.
Proof.
  intros H E. repeat split; intros K; apply H; exists r, l; auto.
Qed.

(** After any text of printable ASCII. *)
Lemma rev_printable_head l : Forall (fun r => 0x20 <= r <= 0x7E) l -> l <> [] ->
  exists prev, rev (map class l) = Other :: prev.
Proof.
  intros H Hne. destruct l as [|x l _] using rev_ind; [congruence|].
  rewrite map_app, rev_app_distr. cbn. apply Forall_app in H. destruct H as [_ H].
  inversion H; subst. rewrite class_printable by auto. eauto.
Qed.

Lemma count_spaces_app n s :
  countMatchesLength ansiEscapeRE (spaces n ++ s) = countMatchesLength ansiEscapeRE s.
Proof.
  destruct (Scan_exists_decode s) as (ms & H). rewrite (count_eq s ms H). apply count_eq.
  rewrite decode_ascii_app by apply spaces_ascii. rewrite decode_spaces.
  induction (Z.to_nat n) as [|k IH]; [exact H|]. cbn [repeat app]. apply Scan_skip; auto.
  - apply space_not_tail.
  - cbn [fst]. lia.
  - cbn [fst]. lia.
Qed.

Lemma rawWidth_pad_left c s n : Reachable c -> 0 <= n -> ~ JoinsPrevious s ->
  rawWidth c (spaces n ++ s) = n + rawWidth c s.
Proof.
  intros Hc Hn Hs. unfold rawWidth. rewrite count_spaces_app.
  rewrite StringWidth_app.
  - rewrite StringWidth_spaces by auto. lia.
  - apply decode_ascii_app. apply spaces_ascii.
  - intros r l E. destruct (not_joins_prev s r l Hs E) as (H1 & H2 & H3).
    rewrite runes_spaces. destruct (Z.to_nat n) as [|k]; [reflexivity|].
    destruct (rev_printable_head (repeat 0x20 (S k))) as (prev & ->).
    { apply Forall_forall. intros x Hx. apply repeat_spec in Hx. lia. }
    { cbn [repeat]. congruence. }
    apply breaks_after_other; auto.
Qed.

(** ** Printable text *)
Lemma printable_runes s : Forall (fun b => 0x20 <= bv b <= 0x7E) s -> runes s = map bv s.
Proof.
  intros H. rewrite runes_decode, decode_ascii_str.
  - rewrite map_map. reflexivity.
  - eapply Forall_impl; [|exact H]. simpl. intros. lia.
Qed.

Lemma swidth_printable c l : Reachable c -> Forall (fun r => 0x20 <= r <= 0x7E) l ->
  swidth c l = slen l.
Proof.
  intros Hc. induction l as [|r l IH]; intros H; [reflexivity|].
  inversion H as [|? ? Hr Hl]; subst. destruct l as [|r' l].
  - rewrite swidth_single by (apply Reachable_OK; auto). rewrite width_printable; auto.
  - change (r :: r' :: l) with ([r] ++ r' :: l). rewrite swidth_app.
    + rewrite IH by auto. rewrite swidth_single by (apply Reachable_OK; auto).
      rewrite width_printable by auto. rewrite slen_app. reflexivity.
    + cbn [map rev app]. inversion Hl; subst. rewrite !class_printable by auto. reflexivity.
Qed.

Lemma rawWidth_printable c s : Reachable c -> Forall (fun b => 0x20 <= bv b <= 0x7E) s ->
  rawWidth c s = slen s.
Proof.
  intros Hc H. unfold rawWidth. rewrite StringWidth_swidth, printable_runes by auto.
  rewrite swidth_printable; auto.
  - rewrite count_no_intro.
    + unfold slen. rewrite map_length. lia.
    + rewrite printable_runes by auto. rewrite Forall_map. eapply Forall_impl; [|exact H].
      unfold Introducer. simpl. intros; lia.
  - rewrite Forall_map. exact H.
Qed.

(** ** Escape sequences *)

(** Runes of a sequence, each its own cluster of width 1. *)
Lemma swidth_tail c t l : Reachable c -> Forall TailChar t -> t <> [] ->
  exists x, TailChar x /\ swidth c (t ++ l) = (slen t - 1) + swidth c (x :: l)
            /\ exists t', t = t' ++ [x].
Proof.
  intros Hc Ht Hne. induction Ht as [|y t Hy Ht IH]; [congruence|].
  destruct t as [|z t].
  - exists y. split; auto. split; [unfold slen; simpl; lia|]. exists []. reflexivity.
  - destruct (IH ltac:(congruence)) as (x & Hx & E & t' & Et). exists x. split; auto. split.
    + change ((y :: z :: t) ++ l) with ([y] ++ z :: t ++ l). rewrite swidth_app.
      * change (z :: t ++ l) with ((z :: t) ++ l). rewrite E.
        rewrite swidth_single by (apply Reachable_OK; auto).
        apply TailChar_range in Hy. rewrite width_printable by (auto; lia).
        rewrite !slen_cons. lia.
      * inversion Ht; subst. apply TailChar_range in Hy. apply TailChar_range in H1.
        cbn [map rev app]. rewrite !class_printable by lia. reflexivity.
    + exists (y :: t'). rewrite Et. reflexivity.
Qed.

Lemma swidth_intro c pre i l : Reachable c -> Introducer i ->
  swidth c (pre ++ i :: l) = swidth c pre + swidth c (i :: l).
Proof.
  intros Hc Hi. apply swidth_app. rewrite (class_intro i Hi). apply breaks_control; [reflexivity|congruence].
Qed.

Lemma swidth_after_intro c i x l : Reachable c -> Introducer i -> class x <> LF ->
  swidth c (i :: x :: l) = swidth c (x :: l).
Proof.
  intros Hc Hi Hx. change (i :: x :: l) with ([i] ++ x :: l). rewrite swidth_app.
  - rewrite swidth_single by (apply Reachable_OK; auto). rewrite width_intro by auto. lia.
  - cbn [map rev app]. rewrite (class_intro i Hi). apply breaks_after_control; auto.
Qed.

(** One whole sequence: every rune but the introducer takes a cell. *)
Lemma swidth_escape c pre m rest : Reachable c -> Escape m ->
  exists x, TailChar x /\
  swidth c (pre ++ m ++ rest) = swidth c pre + (slen m - 2) + swidth c (x :: rest)
  /\ exists m', m = m' ++ [x].
Proof.
  intros Hc Hm. destruct (Escape_shape m Hm) as (i & t & -> & Hi & Ht & Hne).
  destruct (swidth_tail c t rest Hc Ht Hne) as (x & Hx & E & t' & Et).
  exists x. split; auto. split.
  - cbn [app]. rewrite swidth_intro by auto. destruct t as [|y t]; [congruence|].
    cbn [app]. rewrite swidth_after_intro; auto.
    + change (y :: t ++ rest) with ((y :: t) ++ rest). rewrite E. rewrite !slen_cons. lia.
    + inversion Ht; subst. apply TailChar_range in H1. rewrite class_printable by lia. congruence.
  - exists (i :: t'). rewrite Et. reflexivity.
Qed.

Lemma swidth_visible_first c x l : Reachable c -> TailChar x ->
  1 <= swidth c (x :: l).
Proof.
  intros Hc Hx. apply TailChar_range in Hx. unfold swidth. cbn [segments].
  assert (Hfirst : forall l b cur, exists tl q, seg b (x :: cur) l = (x :: cur ++ q) :: tl).
  { clear. induction l as [|z l IHl]; intros b cur; cbn [seg].
    - exists [], []. rewrite app_nil_r. reflexivity.
    - destruct (breaks b (class z)).
      + eexists _, []. rewrite app_nil_r. reflexivity.
      + destruct (IHl (class z :: b) (cur ++ [z])) as (tl & q & E).
        exists tl, (z :: q). change ((x :: cur) ++ [z]) with (x :: cur ++ [z]).
        rewrite E, <- app_assoc. reflexivity. }
  destruct (Hfirst l [class x] []) as (tl & q & E). rewrite E. cbn [map app]. rewrite zsum_cons.
  assert (1 <= cluster_width c (x :: q)).
  { unfold cluster_width. cbn [cluster_width_from]. rewrite width_printable by (auto; lia).
    cbn. lia. }
  assert (0 <= zsum (map (cluster_width c) tl)).
  { clear -Hc. induction tl as [|y tl IH]; [unfold zsum; simpl; lia|]. cbn [map]. rewrite zsum_cons.
    pose proof (cluster_width_bounds c y (Reachable_OK c Hc)). lia. }
  lia.
Qed.

(** Number of U+009B in a text. *)
Definition c1_count (l : list Z) : Z := slen (filter (fun r => r =? 0x9B) l).

Lemma c1_count_app a b : c1_count (a ++ b) = c1_count a + c1_count b.
Proof. unfold c1_count. rewrite filter_app, slen_app. reflexivity. Qed.
Lemma c1_count_nonneg l : 0 <= c1_count l.
Proof. apply slen_nonneg. Qed.

Lemma tail_bytes t : Forall (fun x : Z * Z => TailChar (fst x)) t ->
  Forall (fun x => (snd x = 1 /\ (0 <= fst x < 0x80 \/ fst x = 0xFFFD))
    \/ (snd x = 2 /\ 0x80 <= fst x < 0x800) \/ (snd x = 3 /\ 0x800 <= fst x < 0x10000)
    \/ (snd x = 4 /\ 0x10000 <= fst x <= 0x10FFFF)) t -> nb t = slen t.
Proof.
  induction 1 as [|x t Hx Ht IH]; intros H; [reflexivity|]. inversion H; subst.
  rewrite nb_cons, slen_cons, IH by auto. apply TailChar_range in Hx. lia.
Qed.

(** Bytes of a decoded escape sequence: one per rune, one more for U+009B. *)
Lemma escape_bytes s a m b : decode s = a ++ m ++ b -> Escape (map fst m) ->
  nb m = slen m + c1_count (map fst m).
Proof.
  intros E Hm. pose proof (decode_class s) as HC. rewrite E in HC.
  apply Forall_app in HC. destruct HC as [_ HC]. apply Forall_app in HC. destruct HC as [HC _].
  destruct (Escape_shape _ Hm) as (i & t & Em & Hi & Ht & _).
  destruct m as [|x m]; [discriminate|]. cbn [map] in Em. injection Em as <- <-.
  inversion HC as [|? ? Hx Hm']; subst. rewrite Forall_map in Ht.
  rewrite nb_cons, slen_cons, (tail_bytes m Ht Hm').
  assert (Z0 : c1_count (map fst m) = 0).
  { clear -Ht. unfold c1_count. induction Ht as [|y m Hy Ht IH]; [reflexivity|]. cbn [map filter].
    apply TailChar_range in Hy. destruct (Z.eqb_spec (fst y) 0x9B); [lia|]. exact IH. }
  change (map fst (x :: m)) with ([fst x] ++ map fst m). rewrite c1_count_app, Z0.
  unfold c1_count. cbn [filter]. destruct Hi as [Hi|Hi]; rewrite Hi in *; cbn [Z.eqb Pos.eqb slen length]; 
    unfold slen; cbn [length]; lia.
Qed.

(** The cells subtracted never exceed the cells counted, but for one cell
    per U+009B. *)
Lemma scan_cells c : Reachable c -> forall l ms, Scan l ms -> forall s, decode s = l ->
  escape_cells ms <= swidth c (map fst l) + c1_count (map fst l)
  /\ forall x, TailChar x -> 1 + escape_cells ms <= swidth c (x :: map fst l) + c1_count (map fst l).
Proof.
  intros Hc l ms H. induction H as [l Hno|pre m rest ms HF HS IH]; intros s Es.
  - unfold escape_cells. cbn [map]. change (zsum []) with 0.
    pose proof (c1_count_nonneg (map fst l)).
    pose proof (swidth_nonneg c (map fst l) (Reachable_OK c Hc)). split; [lia|].
    intros x Hx. pose proof (swidth_visible_first c x (map fst l) Hc Hx). lia.
  - destruct HF as [Hm _]. unfold text_runes in Hm.
    pose proof (escape_bytes s pre m rest Es Hm) as Hb.
    assert (E' : decode s = (pre ++ m) ++ rest) by (rewrite Es, app_assoc; reflexivity).
    destruct (decode_split _ _ _ E') as (p & q & _ & _ & Hq & _).
    destruct (IH q Hq) as [_ IH2].
    unfold escape_cells. cbn [map]. rewrite zsum_cons. fold (escape_cells ms).
    change (text_bytes m) with (nb m). rewrite !map_app, !c1_count_app.
    destruct (swidth_escape c (map fst pre) (map fst m) (map fst rest) Hc Hm) as (x & Hx & E & _).
    specialize (IH2 x Hx). pose proof (c1_count_nonneg (map fst pre)).
    assert (Hlen : slen (map fst m) = slen m) by (unfold slen; rewrite map_length; reflexivity).
    split.
    + rewrite E. pose proof (swidth_nonneg c (map fst pre) (Reachable_OK c Hc)). lia.
    + intros y Hy. change (y :: map fst pre ++ map fst m ++ map fst rest) with
        ((y :: map fst pre) ++ map fst m ++ map fst rest).
      destruct (swidth_escape c (y :: map fst pre) (map fst m) (map fst rest) Hc Hm) as (x' & Hx' & E2 & m' & Em').
      rewrite E2. pose proof (swidth_visible_first c y (map fst pre) Hc Hy).
      destruct (IH q Hq) as [_ IH3]. specialize (IH3 x' Hx'). lia.
Qed.

Lemma rawWidth_lower c s : Reachable c -> - c1_count (runes s) <= rawWidth c s.
Proof.
  intros Hc. unfold rawWidth. destruct (Scan_exists_decode s) as (ms & H).
  rewrite (count_eq s ms H), StringWidth_swidth.
  destruct (scan_cells c Hc _ _ H s eq_refl) as [K _]. rewrite runes_decode. lia.
Qed.

Lemma filter_none {A} (f : A -> bool) l : (forall x, In x l -> f x = false) -> filter f l = [].
Proof.
  induction l as [|x l IH]; intros H; [reflexivity|]. cbn [filter].
  rewrite (H x) by (left; auto). apply IH. intros y Hy. apply H. right; auto.
Qed.

Lemma rawWidth_nonneg c s : Reachable c -> ~ In 0x9B (runes s) -> 0 <= rawWidth c s.
Proof.
  intros Hc H. pose proof (rawWidth_lower c s Hc) as K.
  assert (E : c1_count (runes s) = 0); [|lia].
  unfold c1_count. rewrite filter_none; [reflexivity|].
  intros x Hx. destruct (Z.eqb_spec x 0x9B); [subst; contradiction|auto].
Qed.

Lemma rawWidth_le_StringWidth c s : rawWidth c s <= StringWidth c s.
Proof. unfold rawWidth. pose proof (count_nonneg s). lia. Qed.

(** ** Sequences between texts *)
Lemma SequenceRune_TailChar r : SequenceRune r <-> TailChar r.
Proof. reflexivity. Qed.

Lemma EscSequence_ascii e : EscSequence e -> ascii_str e.
Proof.
  intros (body & fin & -> & HE & _). destruct (Escape_shape _ HE) as (i & t & E & Hi & Ht & _).
  cbn [map] in E. injection E as _ E. rewrite <- E in Ht. rewrite Forall_map in Ht.
  unfold ascii_str. constructor; [reflexivity|]. eapply Forall_impl; [|exact Ht].
  simpl. intros b Hb. apply TailChar_range in Hb. lia.
Qed.

Lemma oneof_disjoint r : oneof finals r -> ~ oneof punctuation r.
Proof.
  rewrite <- is_final_spec, <- is_punct_spec. unfold is_final, is_punct, inb. lia.
Qed.

Lemma Escape_last w : Escape w -> exists w' f, w = w' ++ [f] /\ oneof finals f.
Proof.
  intros []. exists (intro :: ps ++ params), fin. split; auto. cbn [app]. rewrite <- app_assoc. reflexivity.
Qed.

Lemma EscSequence_count e b : EscSequence e ->
  countMatchesLength ansiEscapeRE (e ++ b) = (slen e - 1) + countMatchesLength ansiEscapeRE b.
Proof.
  intros He. pose proof (EscSequence_ascii e He) as Ha.
  destruct (Scan_exists_decode b) as (ms & Hb). rewrite (count_eq b ms Hb).
  rewrite (count_eq (e ++ b) (decode e :: ms)).
  - unfold escape_cells. cbn [map]. rewrite zsum_cons. change (text_bytes (decode e)) with (nb (decode e)).
    rewrite decode_bytes. reflexivity.
  - rewrite decode_ascii_app by auto. destruct He as (body & fin & E & HE & Hd).
    change (x1b :: body ++ [fin]) with ((x1b :: body) ++ [fin]) in E.
    assert (Ed : decode e = decode (x1b :: body) ++ [(bv fin, 1)]).
    { rewrite !decode_ascii_str; auto; [|]; rewrite E in *.
      - rewrite map_app. reflexivity.
      - unfold ascii_str in *. apply Forall_app in Ha. tauto. }
    rewrite Ed. apply Scan_hit; auto.
    + rewrite <- Ed. unfold text_runes. rewrite decode_ascii_str, map_map by auto. exact HE.
    + cbn [fst]. apply oneof_disjoint. destruct (Escape_last _ HE) as (w' & f & Ew & Hf).
      rewrite E, map_app in Ew. cbn [map] in Ew. apply app_inj_tail in Ew. destruct Ew as [_ <-]. exact Hf.
Qed.

Lemma EscSequence_runes e : EscSequence e -> runes e = map bv e.
Proof.
  intros He. rewrite runes_decode, decode_ascii_str, map_map by (apply EscSequence_ascii; auto). reflexivity.
Qed.

Lemma EscSequence_width c e : Reachable c -> EscSequence e -> StringWidth c e = slen e - 1.
Proof.
  intros Hc He. rewrite StringWidth_swidth, EscSequence_runes by auto.
  destruct He as (body & fin & E & HE & Hd).
  destruct (swidth_escape c [] (map bv e) [] Hc HE) as (x & Hx & Ew & _).
  rewrite app_nil_r in Ew. cbn [app] in Ew. rewrite Ew, swidth_nil.
  rewrite swidth_single by (apply Reachable_OK; auto). apply TailChar_range in Hx.
  rewrite width_printable by (auto; lia). unfold slen. rewrite map_length. lia.
Qed.

Lemma EscSequence_rev e : EscSequence e -> exists prev, rev (map class (runes e)) = Other :: prev.
Proof.
  intros He. rewrite EscSequence_runes by auto. destruct He as (body & fin & E & HE & Hd).
  destruct (Escape_last _ HE) as (w' & f & -> & Hf).
  rewrite map_app, rev_app_distr. cbn.
  assert (TailChar f) as Ht by (right; right; auto). apply TailChar_range in Ht.
  rewrite class_printable by lia. eauto.
Qed.

Lemma EscSequence_first e : EscSequence e -> exists l, decode e = (0x1B, 1) :: l.
Proof.
  intros He. rewrite decode_ascii_str by (apply EscSequence_ascii; auto).
  destruct He as (body & fin & -> & _). cbn [map]. eexists. reflexivity.
Qed.

Lemma esc_not_tail : ~ TailChar 0x1B.
Proof. intros H. apply TailChar_range in H. lia. Qed.

Lemma rawWidth_sequence c a e b : Reachable c -> EscSequence e -> ~ JoinsPrevious b ->
  rawWidth c (a ++ e ++ b) = rawWidth c a + rawWidth c b.
Proof.
  intros Hc He Hb. unfold rawWidth. pose proof (EscSequence_ascii e He) as Ha.
  destruct (EscSequence_first e He) as (l & El).
  assert (Eeb : decode (e ++ b) = decode e ++ decode b) by (apply decode_ascii_app; auto).
  assert (Hd : decode (a ++ e ++ b) = decode a ++ decode (e ++ b)).
  { apply decode_app. eapply valid_noncont.
    - rewrite Eeb, El. reflexivity.
    - unfold RuneError. congruence. }
  rewrite (StringWidth_app c a (e ++ b)), (count_app a (e ++ b)); auto.
  - rewrite (StringWidth_app c e b), (EscSequence_width c e), (EscSequence_count e b); auto; [lia|].
    intros r l' Er. destruct (EscSequence_rev e He) as (prev & ->).
    destruct (not_joins_prev b r l' Hb Er) as (?&?&?). apply breaks_after_other; auto.
  - rewrite Eeb, El. cbn [app]. intros x l' Ex. injection Ex as <- _. apply esc_not_tail.
  - unfold runes at 1. rewrite Eeb, El. cbn [app map]. intros r l' Ex. injection Ex as <- _.
    cbn [fst]. rewrite class_esc. apply breaks_control; [reflexivity|congruence].
Qed.

Lemma SGR_sequence e : SGR e -> EscSequence e.
Proof.
  intros [params Hp]. exists (x5b :: params), x6d. split; [reflexivity|]. split.
  - cbn [map app]. rewrite map_app. cbn [map].
    apply (escape (bv x1b) [bv x5b] (map bv params) (bv x6d)); auto.
    + constructor; [|constructor]. left. reflexivity.
    + apply is_final_spec. reflexivity.
  - rewrite <- is_digit_spec. discriminate.
Qed.

(** ** Separators *)
Lemma Scan_skip_any x l ms : fst x <> 0x1B -> fst x <> 0x9B -> Scan l ms -> Scan (x :: l) ms.
Proof.
  intros H1 H2 H. destruct H as [l Hno|pre m rest ms HF HS].
  - apply scan_none. intros pre m rest E Hm. destruct pre as [|y pre].
    + destruct (Escape_shape _ Hm) as (i & t & Em & Hi & _). destruct m as [|z m]; [discriminate|].
      cbn [app] in E. injection E as <- _. cbn in Em. injection Em as Em _. lia.
    + cbn [app] in E. injection E as <- E. eapply Hno; eauto.
  - change (x :: pre ++ m ++ rest) with ((x :: pre) ++ m ++ rest). apply scan_next; auto.
    destruct HF as (Hm & Hl & Hlong). split; auto. split; auto.
    intros pre' m' rest' E Hm'. destruct pre' as [|y pre'].
    + exfalso. destruct (Escape_shape _ Hm') as (i & t & Em & Hi & _). destruct m' as [|z m']; [discriminate|].
      cbn [app] in E. injection E as <- _. cbn in Em. injection Em as Em _. lia.
    + cbn [app] in E. injection E as <- E. specialize (Hl _ _ _ E Hm'). simpl. lia.
Qed.

Lemma count_skip a b : decode (a ++ b) = decode a ++ decode b ->
  Forall (fun r => ~ Introducer r) (runes a) ->
  countMatchesLength ansiEscapeRE (a ++ b) = countMatchesLength ansiEscapeRE b.
Proof.
  intros Hd Ha. destruct (Scan_exists_decode b) as (ms & Hb). rewrite (count_eq b ms Hb).
  apply count_eq. rewrite Hd. clear Hd. unfold runes in Ha. rewrite Forall_map in Ha.
  induction Ha as [|x l Hx Hl IH]; [exact Hb|]. cbn [app]. unfold Introducer in Hx.
  apply Scan_skip_any; [tauto|tauto|exact IH].
Qed.

Lemma breaks_before_inert before r : Inert r -> (forall prev, before <> Prepend :: prev) ->
  breaks before (class r) = true.
Proof.
  intros [->| ->] H.
  - apply breaks_before_other; auto.
  - apply breaks_control; [reflexivity|congruence].
Qed.

Lemma breaks_after_inert r prev g : Inert r -> g <> Extend -> g <> ZWJ -> g <> SpacingMark ->
  breaks (class r :: prev) g = true.
Proof.
  intros [->| ->] ? ? ?; [apply breaks_after_other; auto|].
  apply breaks_after_control; [reflexivity|left; congruence].
Qed.

Lemma not_joins_next_rev s : ~ JoinsNext s -> forall prev, rev (map class (runes s)) <> Prepend :: prev.
Proof.
  intros H prev E. apply rev_map_last in E. destruct E as (pre & x & E & Ex). apply H. exists pre, x. auto.
Qed.

Lemma rawWidth_separates c a sep b : Reachable c -> Separates sep -> ~ JoinsNext a -> ~ JoinsPrevious b ->
  rawWidth c (a ++ sep ++ b) = rawWidth c a + StringWidth c sep + rawWidth c b.
Proof.
  intros Hc (Hv & Hi & (r & post & Er & Ht & Hr) & (pre & r' & Er' & Hr')) Ha Hb. unfold rawWidth.
  pose proof (decode_valid_app sep b Hv) as E1.
  assert (Enz : exists x l, decode sep = x :: l /\ fst x = r /\ x <> (RuneError, 1)).
  { unfold runes in Er. destruct (decode sep) as [|x l] eqn:E; [discriminate|].
    exists x, l. cbn [map] in Er. injection Er as <- _. split; auto. split; auto.
    unfold ValidUTF8 in Hv. rewrite E in Hv. inversion Hv; auto. }
  destruct Enz as (x & l & Ex & Efst & Hx).
  assert (E2 : decode (a ++ sep ++ b) = decode a ++ decode (sep ++ b)).
  { apply decode_app. eapply valid_noncont; [|exact Hx]. rewrite E1, Ex. reflexivity. }
  rewrite (StringWidth_app c a (sep ++ b)), (count_app a (sep ++ b)); auto.
  - rewrite (StringWidth_app c sep b), (count_skip sep b); auto; [lia|].
    intros g l' Eg. rewrite Er', map_app, rev_app_distr. cbn [map rev app].
    destruct (not_joins_prev b g l' Hb Eg) as (?&?&?). apply breaks_after_inert; auto.
  - rewrite E1, Ex. cbn [app]. intros y l' Ey. injection Ey as <- _. rewrite Efst. exact Ht.
  - unfold runes at 1. rewrite E1, Ex. cbn [app map]. rewrite Efst. intros y l' Ey. injection Ey as <- _.
    apply breaks_before_inert; auto. apply not_joins_next_rev; auto.
Qed.

Lemma rawWidth_separates_end c a sep : Reachable c -> Separates sep -> ~ JoinsNext a ->
  rawWidth c (a ++ sep) = rawWidth c a + StringWidth c sep.
Proof.
  intros Hc Hs Ha. pose proof (rawWidth_separates c a sep [] Hc Hs Ha) as H.
  rewrite app_nil_r in H. rewrite H.
  - change (rawWidth c []) with 0. lia.
  - intros (r & post & E & _). discriminate.
Qed.

Lemma Separates_spaces n : 0 < n -> Separates (spaces n).
Proof.
  intros Hn. assert (E : exists k, Z.to_nat n = S k) by (exists (Z.to_nat (n - 1)); lia).
  destruct E as (k & Ek). unfold Separates, ValidUTF8. rewrite runes_spaces, decode_spaces, Ek.
  repeat split.
  - apply Forall_forall. intros x Hx. apply repeat_spec in Hx. subst. unfold RuneError. congruence.
  - apply Forall_forall. intros x Hx. apply repeat_spec in Hx. subst. unfold Introducer. lia.
  - exists 0x20, (repeat 0x20 k). split; [reflexivity|]. split; [apply space_not_tail|left; apply class_space].
  - exists (repeat 0x20 k), 0x20. split; [|left; apply class_space].
    change (repeat 0x20 (S k)) with (0x20 :: repeat 0x20 k). rewrite repeat_cons. reflexivity.
Qed.

(** ** Width and bytes *)
Lemma width_valid_bytes c x : Reachable c -> x <> (RuneError, 1) ->
  ((snd x = 1 /\ (0 <= fst x < 0x80 \/ fst x = 0xFFFD))
    \/ (snd x = 2 /\ 0x80 <= fst x < 0x800) \/ (snd x = 3 /\ 0x800 <= fst x < 0x10000)
    \/ (snd x = 4 /\ 0x10000 <= fst x <= 0x10FFFF)) -> RuneWidth c (fst x) <= snd x.
Proof.
  intros Hc Hx H. pose proof (Reachable_OK c Hc (fst x)).
  destruct H as [[Hs [Hr|Hr]]|[[Hs _]|[[Hs _]|[Hs _]]]]; try lia.
  - destruct (Z_le_dec 0x20 (fst x)).
    + destruct (Z.eq_dec (fst x) 0x7F) as [E|].
      * rewrite E, Hs. clear -Hc. destruct (Reachable_width c Hc) as (ea & st & Ew). rewrite Ew.
        destruct ea, st; vm_compute; discriminate.
      * rewrite width_printable by (auto; lia). lia.
    + assert (RuneWidth c (fst x) = 0); [|lia]. clear -Hc Hr n.
      destruct (Reachable_width c Hc) as (ea & st & Ew). rewrite Ew. clear Ew Hc.
      assert (A : forallb (fun r => 
        (RuneWidth {| combinedLut := []; EastAsianWidth := ea; StrictEmojiNeutral := st |} r =? 0))
                (zrange 0x20) = true) by (destruct ea, st; vm_compute; reflexivity).
      rewrite forallb_forall in A. specialize (A (fst x) (zrange_in 0x20 (fst x) ltac:(lia))). lia.
  - exfalso. apply Hx. destruct x. cbn in *. unfold RuneError. congruence.
Qed.

Lemma StringWidth_valid_bytes c s : Reachable c -> ValidUTF8 s -> StringWidth c s <= slen s.
Proof.
  intros Hc Hv. rewrite StringWidth_swidth.
  eapply Z.le_trans; [apply swidth_le_runes; apply Reachable_OK; auto|].
  rewrite <- (decode_bytes s). pose proof (decode_class s) as HC. unfold runes. unfold ValidUTF8 in Hv.
  induction (decode s) as [|x l IH]; [apply Z.le_refl|].
  inversion Hv; inversion HC; subst. cbn [map]. rewrite zsum_cons, nb_cons.
  specialize (IH ltac:(auto) ltac:(auto)).
  pose proof (width_valid_bytes c x Hc ltac:(auto) ltac:(auto)). lia.
Qed.

(** Outside East Asian mode even invalid bytes are no wider than one cell. *)
Lemma StringWidth_plain_bytes c st s : Behaves c false st -> StringWidth c s <= slen s.
Proof.
  intros H. rewrite (StringWidth_ext c (plainCondition false st)) by exact H. apply plain_swidth_bytes.
Qed.
