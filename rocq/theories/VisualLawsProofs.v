(** * VisualLawsProofs: texts one after another under the visual width, and
    merged lines of any cells. *)
From Verif Require Import GoBase Utf8 Utf8Spec Utf8Proofs GraphemeSpec Runewidth ConditionSpec Regex EscapeSpec RegexProofs Width TextSpec AlignSpec
  ScanProofs WidthProofs WidthTheory LawsProofs LawsTheory AlignProofs Table Merge TableContract TableOpsProofs
  MergeSpec MergeLayout MergeRender MergeSearch MergeTheory MergeWidths StringWidthProofs VisualLawsSpec.
From Coq Require Import ZifyBool ZifyNat.
Local Open Scope Z_scope.

(** ** Sequences of texts one after another *)
Lemma text_bytes_app a b : text_bytes (a ++ b) = text_bytes a + text_bytes b.
Proof. unfold text_bytes. rewrite map_app, zsum_app. reflexivity. Qed.

Lemma text_bytes_nonneg l : Forall (fun x : Z * Z => 0 <= snd x) l -> 0 <= text_bytes l.
Proof.
  unfold text_bytes. induction 1 as [|x l Hx _ IH]; [cbn; lia|]. cbn [map]. rewrite zsum_cons. lia.
Qed.

Lemma tail_not_intro r : TailChar r -> r <> 0x1B /\ r <> 0x9B.
Proof. intros Hr. apply TailChar_range in Hr. lia. Qed.

Lemma Scan_skip_tail t l ms : Forall (fun x : Z * Z => TailChar (fst x)) t -> Scan l ms -> Scan (t ++ l) ms.
Proof.
  intros Ht HS. induction Ht as [|x t Hx _ IH]; [exact HS|]. cbn [app]. apply tail_not_intro in Hx.
  apply Scan_skip_any; tauto.
Qed.

(** What follows a first rune in a sequence. *)
Lemma escape_rest m1 m2 : m1 <> [] -> Escape (text_runes (m1 ++ m2)) -> Forall (fun x : Z * Z => TailChar (fst x)) m2.
Proof.
  intros Hm1 HE. destruct (Escape_shape _ HE) as (i & t & Et & _ & Ht & _). destruct m1 as [|x m1]; [congruence|].
  unfold text_runes in Et. cbn [app map] in Et. injection Et as _ <-. rewrite map_app in Ht. apply Forall_app in Ht.
  destruct Ht as [_ Ht]. rewrite Forall_map in Ht. exact Ht.
Qed.

Lemma escape_first m : Escape (text_runes m) -> exists x m', m = x :: m' /\ (fst x = 0x1B \/ fst x = 0x9B).
Proof.
  intros HE. destruct (Escape_shape _ HE) as (i & t & Et & Hi & _). destruct m as [|x m]; [discriminate|].
  injection Et as <- _. eauto.
Qed.

(** Sequences found in two texts are found in the texts one after another, perhaps longer. *)
Lemma scan_super la ma : Scan la ma -> forall lb mb mab, Scan lb mb -> Scan (la ++ lb) mab ->
  Forall (fun x : Z * Z => 0 <= snd x) (la ++ lb) -> (forall m, In m mab -> 1 <= text_bytes m) ->
  escape_cells ma + escape_cells mb <= escape_cells mab.
Proof.
  induction 1 as [la Hno|pre m rest ms HF HS IH]; intros lb mb mab Hb Hab Hnn Hpos.
  - change (escape_cells []) with 0. remember (la ++ lb) as l eqn:El. destruct Hab as [l Hno'|pre m rest ms HF HS].
    + assert (HN : Scan lb []).
      { apply scan_none. intros p m r E. apply (Hno' (la ++ p) m r). rewrite El, E, <- app_assoc. reflexivity. }
      rewrite (Scan_unique _ _ Hb _ HN). change (escape_cells []) with 0. lia.
    + destruct (app_split _ _ _ _ El) as [(k & -> & Ek)|(k & -> & Ek)].
      * (* in the second text *)
        assert (HN : Scan lb (m :: ms)).
        { rewrite Ek. apply scan_next; auto. destruct HF as (A & B & C). split; auto. split; auto.
          intros p m' r E Hm'. specialize (B (la ++ p) m' r). rewrite <- !app_assoc, E, !app_length in B.
          specialize (B eq_refl Hm'). lia. }
        rewrite (Scan_unique _ _ Hb _ HN). lia.
      * (* begun in the first *)
        destruct (app_split _ _ _ _ Ek) as [(j & -> & Ej)|(j & -> & Ej)].
        { destruct k as [|x k].
          - (* at the cut *)
            cbn [app] in *. subst lb. rewrite app_nil_r in *.
            assert (HN : Scan (j ++ rest) (j :: ms)).
            { change (j ++ rest) with ([] ++ j ++ rest). apply scan_next; auto. destruct HF as (A & B & C). split; auto. split; auto.
              intros. cbn [length]. lia. }
            rewrite (Scan_unique _ _ Hb _ HN). apply Z.le_refl.
          - subst lb. destruct HF as (A & _). pose proof (escape_rest (x :: k) j ltac:(discriminate) A) as Hj.
            pose proof (Scan_skip_tail _ _ _ Hj HS) as HN. rewrite (Scan_unique _ _ Hb _ HN).
            unfold escape_cells. cbn [map]. rewrite zsum_cons. specialize (Hpos _ (or_introl eq_refl)). lia. }
        exfalso. destruct HF as (A & _). eapply (Hno pre m j); eauto.
  - (* the first sequence of the first text *)
    assert (HX : exists x rest', rest ++ lb = x ++ rest' /\ FirstEscape pre (m ++ x) rest' /\ Forall (fun y : Z * Z => TailChar (fst y)) x
      /\ exists ms', mab = (m ++ x) :: ms' /\ Scan rest' ms').
    { remember ((pre ++ m ++ rest) ++ lb) as l eqn:El. rewrite <- !app_assoc in El. destruct HF as (A & B & C).
      destruct Hab as [l Hno'|pre' m' rest' ms' HF' HS'].
      { exfalso. eapply Hno'; eauto. }
      destruct HF' as (A' & B' & C'). pose proof (B' pre m (rest ++ lb) El A) as L1.
      assert (L2 : (length pre <= length pre')%nat).
      { destruct (escape_first m A) as (x0 & m0 & -> & Hx0).
        assert (Hnt : ~ TailChar (fst x0)) by (intros K; apply tail_not_intro in K; tauto).
        cbn [app] in El. symmetry in El.
        destruct (no_cross pre x0 _ _ _ _ Hnt A' El) as [(r0 & E1 & _)|(p0 & -> & _)].
        - exfalso. assert (K : (length pre <= length pre')%nat).
          { apply (B pre' m' (r0 ++ (x0 :: m0) ++ rest)); [|exact A']. rewrite E1, <- !app_assoc. reflexivity. }
          rewrite E1, !app_length in K. apply Escape_length2 in A'. unfold text_runes in A'. rewrite map_length in A'. lia.
        - rewrite app_length. lia. }
      destruct (app_length_inv _ _ _ _ El ltac:(lia)) as [-> E2].
      pose proof (C' m (rest ++ lb) E2 A) as L3.
      destruct (app_split _ _ _ _ E2) as [(x & -> & Ex)|(x & -> & Ex)].
      - exists x, rest'. split; [auto|]. split; [repeat split; auto|]. split.
        + apply (escape_rest m x); auto. intros ->. apply Escape_nonempty in A. apply A. reflexivity.
        + exists ms'. auto.
      - rewrite app_length in L3. destruct x as [|y x]; [|cbn [length] in L3; lia].
        rewrite app_nil_r in *. cbn [app] in Ex. subst rest'. exists [], (rest ++ lb). rewrite app_nil_r.
        split; [reflexivity|]. split; [repeat split; auto|]. split; [constructor|]. exists ms'. auto. }
    destruct HX as (x & rest' & Er & _ & Hx & ms' & -> & HS').
    pose proof (Scan_skip_tail _ _ _ Hx HS') as HN. rewrite <- Er in HN.
    rewrite <- !app_assoc in Hnn. apply Forall_app in Hnn. destruct Hnn as [_ Hnn]. apply Forall_app in Hnn. destruct Hnn as [_ Hnn].
    specialize (IH lb mb ms' Hb HN Hnn ltac:(intros; apply Hpos; right; auto)).
    unfold escape_cells in *. cbn [map]. rewrite !zsum_cons, text_bytes_app.
    rewrite Er in Hnn. apply Forall_app in Hnn. destruct Hnn as [Hnn _]. apply text_bytes_nonneg in Hnn. lia.
Qed.

Lemma decode_sizes s : Forall (fun x : Z * Z => 0 <= snd x) (decode s).
Proof.
  induction s as [|s Hs IH] using decode_ind; [constructor|]. rewrite decode_cons by auto. constructor; auto.
  destruct (DecodeRune_size s Hs). lia.
Qed.

Lemma scan_lengths l ms : Scan l ms -> forall s, decode s = l -> forall m, In m ms -> 1 <= text_bytes m.
Proof.
  intros HS s Es.
  assert (HP : Forall (fun x : Z * Z => 1 <= snd x) l).
  { subst l. clear. induction s as [|s Hs IH] using decode_ind; [constructor|]. rewrite decode_cons by auto. constructor; auto.
    destruct (DecodeRune_size s Hs). lia. }
  clear s Es. induction HS as [|pre m rest ms HF HS IH]; intros m' Hm'; [destruct Hm'|].
  apply Forall_app in HP. destruct HP as [_ HP]. apply Forall_app in HP. destruct HP as [HP1 HP2].
  destruct Hm' as [<-|Hm']; [|auto]. destruct HF as (A & _). destruct (escape_first m A) as (x & m1 & -> & _).
  inversion HP1; subst. unfold text_bytes. cbn [map]. rewrite zsum_cons. fold (text_bytes m1).
  assert (0 <= text_bytes m1) by (apply text_bytes_nonneg; eapply Forall_impl; [|eassumption]; cbn; lia). lia.
Qed.

Lemma count_super a b : decode (a ++ b) = decode a ++ decode b ->
  countMatchesLength ansiEscapeRE a + countMatchesLength ansiEscapeRE b <= countMatchesLength ansiEscapeRE (a ++ b).
Proof.
  intros Hd. destruct (Scan_exists_decode a) as (ma & Ha). destruct (Scan_exists_decode b) as (mb & Hb).
  destruct (Scan_exists_decode (a ++ b)) as (mab & Hab). rewrite (count_eq _ _ Ha), (count_eq _ _ Hb), (count_eq _ _ Hab).
  apply (scan_super _ _ Ha _ _ _ Hb).
  - rewrite <- Hd. exact Hab.
  - rewrite <- Hd. apply decode_sizes.
  - eapply scan_lengths; eauto.
Qed.

Lemma raw_subadd c a b : Reachable c -> decode (a ++ b) = decode a ++ decode b ->
  rawWidth c (a ++ b) <= rawWidth c a + rawWidth c b.
Proof.
  intros Hc Hd. unfold rawWidth. pose proof (count_super a b Hd) as K. rewrite !StringWidth_swidth.
  unfold runes. rewrite Hd, map_app. pose proof (swidth_subadd c (map fst (decode a)) (map fst (decode b)) Hc) as L.
  lia.
Qed.

Lemma starts_noncont t : StartsRune t -> noncont t.
Proof. exact (fun H => H). Qed.

Lemma valid_starts s : ValidUTF8 s -> StartsRune s.
Proof.
  intros Hv. destruct s as [|b s']; [exact Logic.I|]. unfold ValidUTF8 in Hv.
  destruct (decode (b :: s')) as [|x l] eqn:Ed.
  - rewrite decode_cons in Ed by discriminate. discriminate.
  - inversion Hv; subst. exact (valid_noncont (b :: s') x l Ed H1).
Qed.

Lemma visual_subadd c s t : Reachable c -> StartsRune t -> rawWidth c (s ++ t) <= rawWidth c s + rawWidth c t.
Proof. intros Hc Ht. apply raw_subadd; auto. apply decode_app, Ht. Qed.

(** A text between others, any of which may hold anything. *)
Lemma visual_three c a sep b : Reachable c -> ValidUTF8 sep -> sep <> [] ->
  rawWidth c (a ++ sep ++ b) <= rawWidth c a + rawWidth c sep + rawWidth c b.
Proof.
  intros Hc Hv Hne. pose proof (raw_subadd c sep b Hc (decode_valid_app sep b Hv)) as K1.
  assert (Hs : StartsRune (sep ++ b)).
  { apply valid_starts in Hv. destruct sep; [congruence|exact Hv]. }
  pose proof (visual_subadd c a (sep ++ b) Hc Hs) as K2. lia.
Qed.

(** ** A text begun, and gone on with *)

Lemma tail_dec r : TailChar r \/ ~ TailChar r.
Proof.
  rewrite TailChar_b. match goal with |- ?b = true \/ _ => destruct b end; [left; reflexivity|right; discriminate].
Qed.

Lemma last_intro (l : text) : Forall (fun x => fst x <> 0x1B /\ fst x <> 0x9B) l
  \/ exists pre x post, l = pre ++ x :: post /\ Introducer (fst x) /\ Forall (fun x => fst x <> 0x1B /\ fst x <> 0x9B) post.
Proof.
  induction l as [|x l [IH|(pre & y & post & -> & Hy & Hp)]].
  - left. constructor.
  - destruct (Z.eq_dec (fst x) 0x1B) as [E|E]; [right; exists [], x, l; repeat split; auto; left; auto|].
    destruct (Z.eq_dec (fst x) 0x9B) as [E'|E']; [right; exists [], x, l; repeat split; auto; right; auto|].
    left. constructor; auto.
  - right. exists (x :: pre), y, post. auto.
Qed.

Lemma first_other (l : text) : Forall (fun x => TailChar (fst x)) l
  \/ exists pre x post, l = pre ++ x :: post /\ ~ TailChar (fst x).
Proof.
  induction l as [|x l [IH|(pre & y & post & -> & Hy)]].
  - left. constructor.
  - destruct (tail_dec (fst x)); [left; constructor; auto|right; exists [], x, l; auto].
  - right. exists (x :: pre), y, post. auto.
Qed.

Lemma Scan_skip_all t l ms : Forall (fun x : Z * Z => fst x <> 0x1B /\ fst x <> 0x9B) t -> Scan l ms -> Scan (t ++ l) ms.
Proof.
  intros Ht HS. induction Ht as [|x t Hx _ IH]; [exact HS|]. cbn [app]. apply Scan_skip_any; tauto.
Qed.

Lemma scan_finished s lt ms mt : ~ Unfinished s -> Scan (decode s) ms -> Scan lt mt -> Scan (decode s ++ lt) (ms ++ mt).
Proof.
  intros Hu Hs Ht. destruct (last_intro (decode s)) as [Hno|(pre & x & post & Ed & Hx & Hpost)].
  - rewrite (Scan_unique _ _ Hs _ (Scan_no_intro _ Hno)). apply Scan_skip_all; auto.
  - destruct (first_other post) as [HT|(p1 & y & p2 & -> & Hy)].
    + exfalso. apply Hu. exists (map fst pre), (fst x), (map fst post). split; [|split; auto].
      * unfold runes. rewrite Ed, map_app. reflexivity.
      * rewrite Forall_map. eapply Forall_impl; [|exact HT]. cbn. intros a. apply SequenceRune_TailChar.
    + assert (E' : decode s = (pre ++ x :: p1) ++ y :: p2) by (rewrite Ed, <- app_assoc; reflexivity).
      apply Forall_app in Hpost. destruct Hpost as [_ Hpost].
      destruct (decode_split _ _ _ E') as (a & b & -> & Ea & Eb & _).
      destruct (Scan_exists_decode a) as (m1 & H1). rewrite Ea in H1.
      assert (H2 : Scan (y :: p2) []) by (apply Scan_no_intro; exact Hpost).
      pose proof (Scan_app _ y p2 m1 [] Hy H1 H2) as H3. rewrite app_nil_r in H3. rewrite E' in Hs.
      rewrite (Scan_unique _ _ Hs _ H3), E', <- app_assoc. cbn [app].
      apply Scan_app; auto. change (y :: p2 ++ lt) with ((y :: p2) ++ lt). apply Scan_skip_all; auto.
Qed.

Lemma count_finished s t : StartsRune t -> ~ Unfinished s ->
  countMatchesLength ansiEscapeRE (s ++ t) = countMatchesLength ansiEscapeRE s + countMatchesLength ansiEscapeRE t.
Proof.
  intros Ht Hu. destruct (Scan_exists_decode s) as (ms & Hs). destruct (Scan_exists_decode t) as (mt & Hmt).
  rewrite (count_eq s ms Hs), (count_eq t mt Hmt), <- escape_cells_app. apply count_eq.
  rewrite (decode_app s t Ht). apply scan_finished; auto.
Qed.

(** What follows is at least as wide as what its sequences hide. *)
Lemma rest_wide c s t : Reachable c -> StartsRune t -> ~ In 0x9B (runes t) ->
  StringWidth c s + countMatchesLength ansiEscapeRE t <= StringWidth c (s ++ t).
Proof.
  intros Hc Ht H9. destruct (Scan_exists_decode t) as (ms & Hm). rewrite (count_eq t ms Hm), !StringWidth_swidth, (runes_app s t Ht).
  remember (decode t) as l eqn:El. destruct Hm as [l Hno|pre m rest ms HF HS].
  - change (escape_cells []) with 0. pose proof (swidth_prefix c (runes s) (runes t) (Reachable_OK c Hc)). lia.
  - destruct HF as (A & B & C).
    assert (E' : decode t = pre ++ (m ++ rest)) by auto.
    destruct (decode_split _ _ _ E') as (p & q & _ & Ep & Eq & _).
    destruct (escape_first m A) as (x & m0 & Em & Hx).
    assert (ER : runes t = map fst pre ++ fst x :: map fst m0 ++ map fst rest).
    { unfold runes. rewrite <- El, Em, map_app. cbn [app map]. rewrite map_app. reflexivity. }
    assert (EQ : map fst (m ++ rest) = fst x :: map fst m0 ++ map fst rest).
    { rewrite Em. cbn [app map]. rewrite map_app. reflexivity. }
    assert (HQ : Scan (decode q) (m :: ms)).
    { rewrite Eq. change (m ++ rest) with ([] ++ m ++ rest). apply scan_next; auto. split; auto. split; [intros; cbn; lia|exact C]. }
    destruct (scan_cells c Hc _ _ HQ q eq_refl) as [K _]. rewrite Eq, EQ in K.
    rewrite ER, app_assoc, swidth_intro by auto.
    assert (E0 : c1_count (fst x :: map fst m0 ++ map fst rest) = 0).
    { unfold c1_count. rewrite filter_none; [reflexivity|]. intros r Hr. destruct (Z.eqb_spec r 0x9B); [|reflexivity].
      exfalso. apply H9. rewrite ER. subst r. apply in_or_app. right. exact Hr. }
    pose proof (swidth_prefix c (runes s) (map fst pre) (Reachable_OK c Hc)). lia.
Qed.

Lemma visual_prefix c s t : Reachable c -> StartsRune t -> ~ Unfinished s -> ~ In 0x9B (runes t) ->
  rawWidth c s <= rawWidth c (s ++ t).
Proof.
  intros Hc Ht Hu H9. unfold rawWidth. rewrite count_finished by auto. pose proof (rest_wide c s t Hc Ht H9). lia.
Qed.

(** Widths add up exactly where the texts' clusters do. *)
Lemma visual_exact c s t : StartsRune t -> ~ Unfinished s ->
  rawWidth c s + rawWidth c t - rawWidth c (s ++ t) = StringWidth c s + StringWidth c t - StringWidth c (s ++ t).
Proof. intros Ht Hu. unfold rawWidth. rewrite count_finished by auto. lia. Qed.

Lemma visual_join c sep parts : Reachable c -> ValidUTF8 sep -> sep <> [] -> parts <> [] ->
  rawWidth c (TableContract.join sep parts) <= zsum (map (rawWidth c) parts) + (slen parts - 1) * rawWidth c sep.
Proof.
  intros Hc Hs Hne. induction parts as [|p parts IH]; [congruence|]. intros _. destruct parts as [|q parts].
  - cbn [TableContract.join map]. change (zsum [rawWidth c p]) with (rawWidth c p + 0). change (slen [p]) with 1. lia.
  - specialize (IH ltac:(discriminate)).
    change (TableContract.join sep (p :: q :: parts)) with (p ++ sep ++ TableContract.join sep (q :: parts)).
    pose proof (visual_three c p sep (TableContract.join sep (q :: parts)) Hc Hs Hne) as K.
    change (map (rawWidth c) (p :: q :: parts)) with (rawWidth c p :: map (rawWidth c) (q :: parts)).
    rewrite zsum_cons, (slen_cons p). lia.
Qed.

(** ** Merged lines *)
Lemma raw_le_vwidth c s : rawWidth c s < 65536 -> rawWidth c s <= vwidth c s.
Proof.
  intros Hs. unfold vwidth, u16. destruct (Z_lt_dec (rawWidth c s) 0) as [L|L].
  - pose proof (Z.mod_pos_bound (rawWidth c s) 65536 ltac:(lia)). lia.
  - rewrite Z.mod_small; lia.
Qed.

Lemma raw_padded c l s r : Reachable c -> 0 <= l -> 0 <= r -> rawWidth c (spaces l ++ s ++ spaces r) <= l + rawWidth c s + r.
Proof.
  intros Hc Hl Hr.
  assert (K1 : rawWidth c (s ++ spaces r) <= rawWidth c s + r).
  { rewrite <- (rawWidth_spaces c r Hc Hr) at 2. apply visual_subadd; auto.
    unfold spaces. destruct (Z.to_nat r); cbn; [exact Logic.I|left; reflexivity]. }
  assert (HV' : ValidUTF8 (spaces l)).
  { unfold ValidUTF8. rewrite decode_spaces. apply Forall_forall. intros x Hx. apply repeat_spec in Hx. subst. discriminate. }
  pose proof (raw_subadd c (spaces l) (s ++ spaces r) Hc (decode_valid_app _ _ HV')) as K2.
  rewrite (rawWidth_spaces c l Hc Hl) in K2. lia.
Qed.

Section Types.
Context {Item Val E : Type}.

Definition CellsNarrow c (ws : list Z) (row : list str) : Prop :=
  forall i s w, nth_error row i = Some s -> nth_error ws i = Some w -> vwidth c s <= w /\ rawWidth c s < 65536.

Lemma narrow_cell c (col : Column Item Val E) s w : Reachable c -> BuiltIn c col -> 0 <= w < 65536 -> vwidth c s <= w -> rawWidth c s < 65536 ->
  rawWidth c (alignment_of c col s w) <= w.
Proof.
  intros Hc HB Hw Hs Hr.
  assert (Ea : exists a, alignment_of c col = align a c).
  { unfold alignment_of. destruct HB as [->|(a & ->)]; [exists ALeft; reflexivity|exists a; reflexivity]. }
  destruct Ea as (a & Ea). rewrite Ea. destruct (align_spaces a c s w Hw) as (l & r & -> & (P1 & P2 & P3 & _)).
  pose proof (raw_padded c l s r Hc P1 P2). pose proof (raw_le_vwidth c s Hr). lia.
Qed.

Lemma narrow_cells c (cols : list (Column Item Val E)) ws row : Reachable c -> Forall (BuiltIn c) cols ->
  length ws = length cols -> (length cols <= length row)%nat -> Forall (fun w => 0 <= w < 65536) ws -> CellsNarrow c ws row ->
  length (cells c cols ws row) = length cols /\ zsum (map (rawWidth c) (cells c cols ws row)) <= zsum ws.
Proof.
  intros Hc HB. revert ws row. induction HB as [|col cols Hb HB IH]; intros ws row Hl Hr Hw HF.
  - destruct ws; [|discriminate]. split; cbn; [reflexivity|lia].
  - destruct ws as [|w ws]; [discriminate|]. destruct row as [|s row]; [cbn in Hr; lia|]. cbn [cells].
    inversion Hw as [|? ? Hw0 Hw1]; subst. destruct (HF 0%nat s w eq_refl eq_refl) as [HF0 HI0].
    pose proof (narrow_cell c col s w Hc Hb Hw0 HF0 HI0) as K1.
    destruct (IH ws row) as (J2 & J3); [cbn in Hl; lia|cbn in Hr; lia|auto| |].
    { intros i s' w' Hs' Hw'. apply (HF (S i) s' w' Hs' Hw'). }
    split.
    + cbn. lia.
    + cbn [map]. rewrite !zsum_cons. lia.
Qed.

Lemma narrow_block c (cols : list (Column Item Val E)) ws row : Reachable c -> cols <> [] -> Forall (BuiltIn c) cols ->
  length ws = length cols -> (length cols <= length row)%nat -> Forall (fun w => 0 <= w < 65536) ws -> CellsNarrow c ws row ->
  rawWidth c (block c cols ws row) <= zsum ws + (slen cols - 1).
Proof.
  intros Hc Hne HB Hl Hr Hw HF. destruct (narrow_cells c cols ws row Hc HB Hl Hr Hw HF) as (J2 & J3).
  pose proof (visual_join c [space] (cells c cols ws row) Hc ltac:(apply space_separates) ltac:(discriminate)) as K1.
  assert (Hnn : cells c cols ws row <> []).
  { intros E0. rewrite E0 in J2. cbn in J2. destruct cols; [congruence|discriminate]. }
  specialize (K1 Hnn). unfold block.
  assert (Es : rawWidth c [space] = 1) by exact (rawWidth_spaces c 1 Hc ltac:(lia)). rewrite Es in K1.
  unfold slen in *. rewrite J2 in K1. lia.
Qed.

Record Narrow c (cols : list (Column Item Val E)) (W : nat -> list Z) (g : nat) (line : list (list str)) : Prop := {
  na_len : (length line <= g)%nat;
  na_long : Forall (fun row => (length cols <= length row)%nat) line;
  na_widths : forall k, (k < g)%nat -> length (W k) = length cols /\ Forall (fun w => 0 <= w < 65536) (W k);
  na_fit : forall k row, nth_error line k = Some row -> CellsNarrow c (W k) row
}.

Lemma narrow_blocks c (cols : list (Column Item Val E)) W : Reachable c -> cols <> [] -> Forall (BuiltIn c) cols ->
  forall line s g, (s + length line <= g)%nat -> Forall (fun row => (length cols <= length row)%nat) line ->
  (forall k, (k < g)%nat -> length (W k) = length cols /\ Forall (fun w => 0 <= w < 65536) (W k)) ->
  (forall k row, nth_error line k = Some row -> CellsNarrow c (W (s + k)%nat) row) ->
  length (blocks_from c cols W s line) = length line
  /\ zsum (map (rawWidth c) (blocks_from c cols W s line)) <= zsum (map (group_width cols W) (seq s (length line))).
Proof.
  intros Hc Hne HB. induction line as [|row line IH]; intros s g Hs Hlong HW HF.
  - split; cbn; [reflexivity|lia].
  - inversion Hlong as [|? ? Hl0 Hl1]; subst. cbn [length] in Hs.
    destruct (HW s ltac:(lia)) as [HW1 HW2].
    pose proof (HF 0%nat row eq_refl) as HF0. rewrite Nat.add_0_r in HF0.
    pose proof (narrow_block c cols (W s) row Hc Hne HB HW1 Hl0 HW2 HF0) as B1.
    destruct (IH (S s) g) as (J2 & J3); [lia|auto|auto| |].
    { intros k row' Hk. replace (S s + k)%nat with (s + S k)%nat by lia. apply HF. exact Hk. }
    cbn [blocks_from length seq map]. split; [lia|]. rewrite !zsum_cons. unfold group_width at 1. lia.
Qed.

Lemma raw_valid_bytes c sep : Reachable c -> ValidUTF8 sep -> rawWidth c sep <= slen sep.
Proof. intros Hc Hv. pose proof (rawWidth_le_StringWidth c sep). pose proof (StringWidth_valid_bytes c sep Hc Hv). lia. Qed.

Lemma narrow_line c (cols : list (Column Item Val E)) sep W g line mw : Reachable c -> cols <> [] -> Forall (BuiltIn c) cols ->
  ValidUTF8 sep -> sep <> [] -> (1 <= g)%nat -> Narrow c cols W g line -> total sep cols W g <= mw ->
  rawWidth c (line_text c cols sep W g line) <= mw.
Proof.
  intros Hc Hne HB Hs Hsne Hg HA HT.
  assert (Hcols : 1 <= slen cols) by (destruct cols; [congruence|unfold slen; cbn; lia]).
  assert (Hsum : forall n, (n <= g)%nat -> 0 <= zsum (map (fun k => zsum (W k)) (seq 0 n)) <= zsum (map (fun k => zsum (W k)) (seq 0 g))).
  { assert (Hk : forall k, In k (seq 0 g) -> 0 <= zsum (W k)).
    { intros k Hk. apply in_seq in Hk. destruct (na_widths _ _ _ _ _ HA k ltac:(lia)) as [_ HF].
      clear -HF. induction HF as [|w l Hw _ IH]; [cbn; lia|]. change (0 <= w + zsum l). lia. }
    assert (Hpos : forall l, (forall k, In k l -> 0 <= zsum (W k)) -> 0 <= zsum (map (fun k => zsum (W k)) l)).
    { clear. induction l as [|k l IH]; intros Hl; [cbn; lia|]. cbn [map]. change (0 <= zsum (W k) + zsum (map (fun k => zsum (W k)) l)).
      specialize (IH ltac:(intros; apply Hl; right; auto)). specialize (Hl k (or_introl eq_refl)). lia. }
    intros n Hn. replace g with (n + (g - n))%nat by lia. rewrite seq_app, map_app, zsum_app.
    assert (0 <= zsum (map (fun k => zsum (W k)) (seq 0 n))) by (apply Hpos; intros k Hkk; apply Hk; apply in_seq in Hkk; apply in_seq; lia).
    assert (0 <= zsum (map (fun k => zsum (W k)) (seq (0 + n) (g - n)))) by (apply Hpos; intros k Hkk; apply Hk; apply in_seq in Hkk; apply in_seq; lia).
    lia. }
  assert (Hgw : forall n, zsum (map (group_width cols W) (seq 0 n)) = zsum (map (fun k => zsum (W k)) (seq 0 n)) + Z.of_nat n * (slen cols - 1)).
  { intros n. unfold group_width. rewrite (zsum_map_add (fun k => zsum (W k)) (fun _ => slen cols - 1)). f_equal.
    generalize 0%nat. induction n as [|n IH]; intros s; [reflexivity|]. cbn [seq map].
    change (slen cols - 1 + zsum (map (fun _ : nat => slen cols - 1) (seq (S s) n)) = Z.of_nat (S n) * (slen cols - 1)). rewrite IH. lia. }
  pose proof (na_len _ _ _ _ _ HA) as Hlen. pose proof (raw_valid_bytes c sep Hc Hs) as HS1.
  unfold total in HT. specialize (Hsum (length line) Hlen).
  set (Sg := zsum (map (fun k => zsum (W k)) (seq 0 g))) in *.
  assert (Hsl : 0 <= slen sep) by apply slen_nonneg.
  assert (Hsep0 : 0 <= slen sep * (Z.of_nat g - 1)) by (apply Z.mul_nonneg_nonneg; lia).
  assert (Hcol0 : 0 <= (slen cols - 1) * Z.of_nat g) by (apply Z.mul_nonneg_nonneg; lia).
  destruct line as [|r0 line0] eqn:El.
  - assert (EE : rawWidth c (line_text c cols sep W g []) = 0).
    { unfold line_text, blocks. cbn [blocks_from app]. destruct (_ <? _)%nat; reflexivity. }
    rewrite EE. lia.
  - rewrite <- El in *. assert (Hpos : (1 <= length line)%nat) by (rewrite El; cbn; lia).
    destruct (narrow_blocks c cols W Hc Hne HB line 0 g) as (J2 & J3); [lia|apply HA|apply HA|apply HA|].
    rewrite Hgw in J3. unfold line_text, blocks. set (bs := blocks_from c cols W 0 line) in *.
    set (S1 := zsum (map (fun k => zsum (W k)) (seq 0 (length line)))) in *.
    assert (HM : exists n, 0 <= n <= Z.of_nat g - 1 /\ rawWidth c (TableContract.join sep (bs ++ (if (length line <? g)%nat then [[]] else [])))
      <= zsum (map (rawWidth c) bs) + n * rawWidth c sep).
    { destruct (Nat.ltb_spec (length line) g) as [L|L].
      - exists (slen line). unfold slen. split; [lia|].
        pose proof (visual_join c sep (bs ++ [[]]) Hc Hs Hsne ltac:(destruct bs; discriminate)) as K.
        rewrite map_app, zsum_app in K. cbn [map] in K. change (zsum [rawWidth c []]) with 0 in K.
        unfold slen in K. rewrite app_length, J2 in K. cbn [length] in K.
        replace (Z.of_nat (length line + 1) - 1) with (Z.of_nat (length line)) in K by lia. lia.
      - exists (slen line - 1). unfold slen. split; [lia|]. rewrite app_nil_r.
        assert (Hbs : bs <> []) by (intros E0; rewrite E0 in J2; cbn in J2; lia).
        pose proof (visual_join c sep bs Hc Hs Hsne Hbs) as K. unfold slen in K. rewrite J2 in K. lia. }
    destruct HM as (n & Hn & HM).
    assert (Z.of_nat (length line) * (slen cols - 1) <= (slen cols - 1) * Z.of_nat g).
    { rewrite Z.mul_comm. apply Z.mul_le_mono_nonneg_l; lia. }
    assert (n * rawWidth c sep <= slen sep * (Z.of_nat g - 1)).
    { apply Z.le_trans with (n * slen sep); [apply Z.mul_le_mono_nonneg_l; lia|].
      rewrite Z.mul_comm. apply Z.mul_le_mono_nonneg_l; lia. }
    lia.
Qed.

Lemma cols_ne {t : Table Item Val E} {cols : list (Column Item Val E)} sep : reckoned t cols sep mod 65536 <> 0 -> cols <> [].
Proof. intros Hr ->. apply Hr. reflexivity. Qed.

Section Printing.
Context {c : Condition} {t : Table Item Val E} {cols : list (Column Item Val E)} {items : FormattedItemList E}
  {rows : list (list str)}.
Hypothesis HP : Printable t cols items rows.
Hypothesis Hc : Reachable c.
Hypothesis HB : Forall (BuiltIn c) cols.
(** Cells whose width a uint16 can hold. *)
Hypothesis HN : forall row s, In row rows -> In s row -> rawWidth c s < 65536.
Hypothesis HU : forall name, 0 <= Width t name < 65536.

Lemma recorded_narrow m g lines line : (1 <= g)%nat -> Layout m g rows lines -> In line lines ->
  FitsRecorded c t cols rows -> Narrow c cols (fun _ => recorded t cols) g line.
Proof.
  intros Hg HL Hline HF. split.
  - apply layout_is in HL; auto. subst. eapply layout_line_len; eauto.
  - apply Forall_forall. intros row Hrow. pose proof (pr_long _ _ _ _ HP) as Hlong. rewrite Forall_forall in Hlong.
    apply Hlong. eapply line_rows; eauto.
  - intros k Hk. unfold recorded. rewrite map_length. split; auto. apply Forall_forall. intros w Hw.
    apply in_map_iff in Hw. destruct Hw as (col & <- & _). auto.
  - intros k row Hk i s w Hs Hw. unfold recorded in Hw. rewrite nth_map in Hw.
    destruct (nth_error cols i) as [col|] eqn:Ec; [|discriminate]. injection Hw as <-.
    assert (In row rows) by (eapply line_rows; eauto; eapply nth_error_In; eauto). split.
    + eapply HF; eauto.
    + eapply HN; eauto. eapply nth_error_In; eauto.
Qed.

Lemma group_narrow m g lines W line : (1 <= g)%nat -> Layout m g rows lines -> GroupWidths c cols lines g W -> In line lines ->
  Narrow c cols W g line.
Proof.
  clear HU. intros Hg HL HG Hline. assert (Hlen : (length line <= g)%nat).
  { apply layout_is in HL; auto. subst. eapply layout_line_len; eauto. }
  split; auto.
  - apply Forall_forall. intros row Hrow. pose proof (pr_long _ _ _ _ HP) as Hlong. rewrite Forall_forall in Hlong.
    apply Hlong. eapply line_rows; eauto.
  - intros k Hk. destruct (HG k Hk) as [HG1 HG2]. split; auto. apply Forall_forall. intros w Hw.
    apply In_nth_error in Hw. destruct Hw as (i & Hi). destruct (HG2 i w Hi) as [[->|(l0 & r0 & s0 & _ & _ & _ & ->)] _]; [lia|].
    apply u16_range.
  - intros k row Hk i s w Hs Hw. assert (Hkg : (k < g)%nat) by (apply nth_some_lt in Hk; lia).
    destruct (HG k Hkg) as [HG1 HG2]. destruct (HG2 i w Hw) as [_ HM]. split.
    + apply HM. right. exists line, row, s. auto.
    + eapply HN; [eapply line_rows; eauto; eapply nth_error_In; eauto|eapply nth_error_In; eauto].
Qed.

Lemma narrow_vwidth line mw : rawWidth c line <= mw -> mw < 65536 -> ~ In 0x9B (runes line) -> vwidth c line <= mw.
Proof.
  clear HU HN HB HP.  intros Hl Hm H9. pose proof (rawWidth_nonneg c line Hc H9). unfold vwidth, u16. rewrite Z.mod_small; lia.
Qed.

Lemma plain_total_any sep maxWidth g : sep <> [] -> 0 <= maxWidth -> Z.of_nat g = estimate t cols sep maxWidth ->
  reckoned t cols sep mod 65536 <> 0 -> maxWidth + slen sep < 65536 -> reckoned t cols sep < 65536 ->
  zsum (recorded t cols) + slen cols - 1 <= maxWidth ->
  total sep cols (fun _ => recorded t cols) g <= maxWidth.
Proof.
  intros Hs Hm0 Hg Hr Hm Hrk Hfit. unfold total.
  assert (Hsep : 1 <= slen sep).
  { destruct sep; [congruence|]. unfold slen. cbn [length]. lia. }
  assert (Hcols : 1 <= slen cols) by (pose proof (cols_ne sep Hr); destruct cols; [congruence|unfold slen; cbn [length]; lia]).
  assert (Hrec : 0 <= zsum (recorded t cols)).
  { unfold recorded. apply zsum_map_nonneg. intros col. apply HU. }
  assert (Hsum : zsum (map (fun _ : nat => zsum (recorded t cols)) (seq 0 g)) = Z.of_nat g * zsum (recorded t cols)).
  { generalize 0%nat. generalize g. clear. induction g as [|g IH]; intros s; [reflexivity|]. cbn [seq map].
    change (zsum (recorded t cols) + zsum (map (fun _ : nat => zsum (recorded t cols)) (seq (S s) g)) = Z.of_nat (S g) * zsum (recorded t cols)).
    rewrite IH. lia. }
  rewrite Hsum. unfold estimate in Hg.
  assert (He : effective maxWidth = maxWidth).
  { unfold effective. destruct (Z.gtb_spec maxWidth 65535); [lia|]. apply Z.mod_small. lia. }
  rewrite He in Hg. rewrite (Z.mod_small (maxWidth + slen sep)) in Hg by lia.
  assert (0 <= reckoned t cols sep) by (unfold reckoned; nia).
  rewrite (Z.mod_small (reckoned t cols sep)) in * by lia.
  destruct (Z_le_dec 1 ((maxWidth + slen sep) / reckoned t cols sep)) as [L|L].
  - pose proof (Z.mul_div_le (maxWidth + slen sep) (reckoned t cols sep) ltac:(lia)) as K.
    replace ((maxWidth + slen sep) / reckoned t cols sep) with (Z.of_nat g) in K by lia.
    unfold reckoned in K. unfold recorded in *. set (S0 := zsum (map _ cols)) in *. clearbody S0.
    assert (0 <= (slen cols - 1) * Z.of_nat g * (slen sep - 1)) by (apply Z.mul_nonneg_nonneg; [apply Z.mul_nonneg_nonneg|]; lia). lia.
  - replace g with 1%nat in * by lia. lia.
Qed.

Lemma any_plain_fit m fuel sep maxWidth : ValidUTF8 sep -> sep <> [] -> 0 <= maxWidth -> maxWidth + slen sep < 65536 ->
  reckoned t cols sep mod 65536 <> 0 -> reckoned t cols sep < 65536 -> zsum (recorded t cols) + slen cols - 1 <= maxWidth ->
  FitsRecorded c t cols rows ->
  forall txt, In txt (written (merge m fuel c t (fun _ => true) items maxWidth sep false)) ->
  exists line, txt = line ++ [x0a] /\ rawWidth c line <= maxWidth /\ (~ In 0x9B (runes line) -> vwidth c line <= maxWidth).
Proof.
  intros Hs Hsne Hm0 Hm Hr Hrk Hfit HF txt Htxt. pose proof (estimate_pos t cols sep maxWidth) as Hp.
  set (g := Z.to_nat (estimate t cols sep maxWidth)). assert (Hg : Z.of_nat g = estimate t cols sep maxWidth) by lia.
  pose proof (layout_ok m g rows ltac:(lia)) as HL.
  rewrite (plain_ok HP m fuel maxWidth sep g _ Hr Hg HL) in Htxt. cbn [written] in Htxt.
  apply printed_in in Htxt. destruct Htxt as (line & Hline & ->). eexists. split; [reflexivity|].
  assert (K : rawWidth c (line_text c cols sep (fun _ => recorded t cols) g line) <= maxWidth).
  { apply narrow_line; auto.
    - eapply cols_ne; eauto.
    - lia.
    - eapply recorded_narrow; eauto. lia.
    - eapply plain_total_any; eauto. }
  split; [exact K|]. apply narrow_vwidth; auto. pose proof (slen_nonneg sep). lia.
Qed.

Lemma any_compact_fit m fuel sep maxWidth g0 g : ValidUTF8 sep -> sep <> [] -> reckoned t cols sep mod 65536 <> 0 ->
  Z.of_nat g0 = estimate t cols sep maxWidth -> Search c cols sep maxWidth m rows g0 g -> (g0 < g < g0 + fuel)%nat ->
  (forall w, CompactTotal c cols sep m rows g w -> w < 65536) ->
  forall txt, In txt (written (merge m fuel c t (fun _ => true) items maxWidth sep true)) ->
  exists line, txt = line ++ [x0a] /\ rawWidth c line <= effective maxWidth
    /\ (~ In 0x9B (runes line) -> vwidth c line <= effective maxWidth).
Proof.
  clear HU. intros Hs Hsne Hr Hg0 HS Hg Htot txt Htxt. pose proof (estimate_pos t cols sep maxWidth) as Hp.
  destruct (chosen_exists (c := c) (t := t) (cols := cols) (rows := rows) m g0 g ltac:(lia) (proj1 HS)) as (lines & W & HL & HW).
  rewrite (compact_ok HP m fuel maxWidth sep g0 g lines W) in Htxt; auto; [|lia]. cbn [written] in Htxt.
  apply printed_in in Htxt. destruct Htxt as (line & Hline & ->). eexists. split; [reflexivity|].
  destruct HW as [[E0 _]|[_ HG]]; [lia|].
  pose proof (effective_range maxWidth) as Heff.
  assert (K : rawWidth c (line_text c cols sep W g line) <= effective maxWidth).
  { apply narrow_line; auto.
    - eapply cols_ne; eauto.
    - lia.
    - eapply group_narrow; eauto. lia.
    - assert (HCT : CompactTotal c cols sep m rows g (total sep cols W g)) by (exists lines, W; auto).
      destruct HS as (_ & HS & _). destruct (HS g ltac:(lia)) as (_ & w & Hw & Hle).
      assert (w = total sep cols W g).
      { apply CompactTotal_is in Hw; [|lia]. apply CompactTotal_is in HCT; [|lia]. congruence. }
      subst w. specialize (Htot _ HCT). rewrite Z.mod_small in Hle; [auto|]. split; [|auto].
      unfold total. assert (Hcols : 1 <= slen cols) by (pose proof (cols_ne sep Hr); destruct cols; [congruence|unfold slen; cbn [length]; lia]).
      assert (0 <= zsum (map (fun k => zsum (W k)) (seq 0 g))).
      { assert (Hall : forall k, In k (seq 0 g) -> 0 <= zsum (W k)).
        { intros k Hk. apply in_seq in Hk. destruct (HG k ltac:(lia)) as [_ HG2].
          assert (HF : Forall (fun w => 0 <= w) (W k)).
          { apply Forall_forall. intros w0 Hw0. apply In_nth_error in Hw0. destruct Hw0 as (i & Hi). apply (HG2 i w0 Hi). auto. }
          clear -HF. induction HF as [|w l Hw _ IH]; [cbn; lia|]. change (0 <= w + zsum l). lia. }
        clear -Hall. induction (seq 0 g) as [|k l IH]; [cbn; lia|]. cbn [map].
        change (0 <= zsum (W k) + zsum (map (fun k => zsum (W k)) l)).
        specialize (IH ltac:(intros; apply Hall; right; auto)). specialize (Hall k (or_introl eq_refl)). lia. }
      assert (0 <= slen sep * (Z.of_nat g - 1)) by (unfold slen; nia).
      assert (0 <= (slen cols - 1) * Z.of_nat g) by nia. lia. }
  split; [exact K|]. apply narrow_vwidth; auto. lia.
Qed.
End Printing.
End Types.
