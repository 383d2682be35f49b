(** * RepairProofs: bytes that belong to no character count as U+FFFD. *)
From Coq Require Import ZifyBool ZifyNat.
From Verif Require Import GoBase Utf8 Utf8Spec Utf8Proofs Utf8Theory Uniseg GraphemeSpec UnisegProofs EscapeSpec ScanProofs TextSpec Runewidth ConditionSpec StringWidthProofs LawsTheory
  Regex Width WidthProofs AlignSpec Table Merge MergeSpec TemplateSpec TemplateProofs RepairSpec.
Local Open Scope Z_scope.

(** ** What is measured depends on the runes only *)
Lemma map_app_split {A B} (f : A -> B) l a b : map f l = a ++ b -> exists l1 l2, l = l1 ++ l2 /\ map f l1 = a /\ map f l2 = b.
Proof. intros e. destruct (map_eq_app f l a b e) as (l1 & l2 & -> & e1 & e2). eauto. Qed.
Lemma first_runes pre m rest pre' m' rest' : map fst pre' = map fst pre -> map fst m' = map fst m -> map fst rest' = map fst rest ->
  FirstEscape pre m rest -> FirstEscape pre' m' rest'.
Proof.
  intros E1 E2 E3 (HE & HF & HL). pose proof (f_equal (@length Z) E1) as L1. pose proof (f_equal (@length Z) E2) as L2. rewrite !map_length in L1, L2. split; [|split].
  - unfold text_runes in *. rewrite E2. exact HE.
  - intros p q r E HQ. assert (K : map fst (pre ++ m ++ rest) = map fst p ++ map fst q ++ map fst r) by (rewrite !map_app, <- E1, <- E2, <- E3, <- !map_app, E; reflexivity).
    apply map_app_split in K. destruct K as (p' & t & K & Kp & Kt). apply map_app_split in Kt. destruct Kt as (q' & r' & -> & Kq & Kr).
    specialize (HF p' q' r' K). unfold text_runes in HF, HQ. rewrite Kq in HF. specialize (HF HQ). apply (f_equal (@length Z)) in Kp. rewrite !map_length in Kp. lia.
  - intros q r E HQ. assert (K : map fst (m ++ rest) = map fst q ++ map fst r) by (rewrite !map_app, <- E2, <- E3, <- !map_app, E; reflexivity).
    apply map_app_split in K. destruct K as (q' & r' & K & Kq & Kr). specialize (HL q' r' K). unfold text_runes in HL, HQ. rewrite Kq in HL. specialize (HL HQ).
    apply (f_equal (@length Z)) in Kq. rewrite !map_length in Kq. lia.
Qed.
Lemma scan_runes l ms : Scan l ms -> forall s s', decode s = l -> map fst (decode s') = map fst l -> exists ms', Scan (decode s') ms' /\ escape_cells ms' = escape_cells ms.
Proof.
  intros HS. induction HS as [l Hno|pre m rest ms HF HS IH]; intros s s' Es E.
  - exists []. split; [|reflexivity]. constructor. intros p q r K HQ. rewrite K, !map_app in E. symmetry in E.
    apply map_app_split in E. destruct E as (p' & t & K' & _ & Kt). apply map_app_split in Kt. destruct Kt as (q' & r' & -> & Kq & _).
    apply (Hno p' q' r' K'). unfold text_runes in *. rewrite Kq. exact HQ.
  - rewrite !map_app in E. apply map_app_split in E. destruct E as (pre' & t & K' & Kp & Kt). apply map_app_split in Kt. destruct Kt as (m' & rest' & -> & Km & Kr).
    assert (Es' : decode s = (pre ++ m) ++ rest) by (rewrite Es, app_assoc; reflexivity).
    assert (K2 : decode s' = (pre' ++ m') ++ rest') by (rewrite K', app_assoc; reflexivity).
    destruct (decode_split _ _ _ Es') as (p & q & _ & _ & Hq & _). destruct (decode_split _ _ _ K2) as (p2 & q2 & _ & _ & Hq2 & _).
    destruct (IH q q2 Hq) as (ms' & HS' & HC'); [rewrite Hq2; exact Kr|]. exists (m' :: ms'). split.
    + rewrite K'. apply scan_next; [eapply first_runes; eauto|]. rewrite <- Hq2. exact HS'.
    + unfold escape_cells in *. cbn [map]. rewrite !zsum_cons, HC'. f_equal. f_equal. change (nb m' = nb m). destruct HF as [HE _]. unfold text_runes in HE.
      rewrite (escape_bytes s pre m rest Es HE), (escape_bytes s' pre' m' rest' K') by (rewrite Km; exact HE). rewrite Km. f_equal.
      apply (f_equal (@length Z)) in Km. rewrite !map_length in Km. unfold slen. lia.
Qed.
Lemma runes_count s s' : runes s' = runes s -> countMatchesLength ansiEscapeRE s' = countMatchesLength ansiEscapeRE s.
Proof.
  rewrite !runes_decode. intros E. destruct (Scan_exists_decode s) as (ms & HS). destruct (scan_runes _ _ HS s s' eq_refl E) as (ms' & HS' & HC).
  rewrite (count_eq s ms HS), (count_eq s' ms' HS'). exact HC.
Qed.
Lemma runes_width c s s' : runes s' = runes s -> StringWidth c s' = StringWidth c s /\ rawWidth c s' = rawWidth c s /\ vwidth c s' = vwidth c s.
Proof.
  intros E. assert (K : StringWidth c s' = StringWidth c s) by (rewrite !StringWidth_swidth, E; reflexivity). assert (K2 : rawWidth c s' = rawWidth c s) by (unfold rawWidth; rewrite K, (runes_count s s' E); reflexivity).
  split; [exact K|]. split; [exact K2|]. unfold vwidth. rewrite K2. reflexivity.
Qed.

(** ** Repaired text *)
Lemma decode_kept r e s : Encodes r e -> decode (e ++ s) = (r, slen e) :: decode s.
Proof.
  intros HE. pose proof (encodes_len r e HE) as [Hne HL]. assert (Hne2 : e ++ s <> []) by (intros E0; apply app_eq_nil in E0; tauto).
  rewrite (decode_cons _ Hne2), (decode_encodes r e _ HE). cbn [snd]. rewrite drop_app_exact. reflexivity.
Qed.
Lemma replacement_encodes : Encodes RuneError replacement.
Proof. apply (e3 _ 15 63 61); vm_compute; intuition discriminate. Qed.
Lemma repaired_runes s s' : Repaired s s' -> runes s' = runes s /\ ValidUTF8 s'.
Proof.
  unfold runes, ValidUTF8. induction 1 as [|r e s s' HE _ [IH1 IH2]|b s s' HN _ [IH1 IH2]]; [split; [reflexivity|constructor]| |].
  - rewrite !(decode_kept r e) by exact HE. cbn [map fst]. split; [f_equal; exact IH1|]. constructor; [|exact IH2].
    intros E0. injection E0 as -> Hl. rewrite (encodes_error e HE) in Hl. discriminate.
  - rewrite (decode_kept _ _ _ replacement_encodes). rewrite (decode_cons (b :: s)) by discriminate.
    assert (D : DecodeRune (b :: s) = (RuneError, 1)) by (apply decode_spec; [discriminate|]; right; split; [reflexivity|]; split; [reflexivity|exact HN]).
    rewrite D. cbn [snd map fst]. change (drop 1 (b :: s)) with s. split; [f_equal; exact IH1|]. constructor; [discriminate|exact IH2].
Qed.
Lemma repaired_total s : exists s', Repaired s s'.
Proof.
  apply (decode_ind (fun s => exists s', Repaired s s')); [exists []; constructor|]. clear s. intros s Hs [s' IH].
  destruct (DecodeRune s) as [r n] eqn:D. pose proof (proj1 (decode_spec s r n Hs) D) as K. cbn [snd] in IH. destruct K as [(e & rest & -> & HE & ->)|(-> & -> & HN)].
  - rewrite drop_app_exact in IH. exists (e ++ s'). apply rp_kept with r; assumption.
  - destruct s as [|b s]; [congruence|]. exists (replacement ++ s'). apply rp_replaced; assumption.
Qed.
Lemma text_unique rs s1 s2 : EncodesText rs s1 -> EncodesText rs s2 -> s1 = s2.
Proof.
  intros (es & F1 & ->) (es2 & F2 & ->). f_equal. revert es2 F2. induction F1 as [|r e rs es HE F1 IH]; intros es2 F2; inversion F2; subst; [reflexivity|].
  f_equal; [eapply encodes_unique; eauto|auto].
Qed.
Lemma repaired_unique s s1 s2 : Repaired s s1 -> Repaired s s2 -> s1 = s2.
Proof.
  intros H1 H2. apply repaired_runes in H1, H2. destruct H1 as [E1 V1], H2 as [E2 V2]. apply valid_text in V1, V2. rewrite E1 in V1. rewrite E2 in V2. exact (text_unique _ _ _ V1 V2).
Qed.
Lemma repaired_valid s s' : Repaired s s' -> (ValidUTF8 s <-> s' = s).
Proof.
  intros HR. apply repaired_runes in HR. destruct HR as [E V]. split; [|intros ->; exact V]. intros HV. apply valid_text in HV, V. rewrite E in V. exact (text_unique _ _ _ V HV).
Qed.
Lemma repaired_width c s s' : Repaired s s' -> StringWidth c s' = StringWidth c s /\ vwidth c s' = vwidth c s.
Proof. intros HR. apply repaired_runes in HR. destruct (runes_width c s s' (proj1 HR)) as (A & _ & B). auto. Qed.

(** ** In a table *)
Section Cells.
Context {Item Val E : Type}.
Lemma repaired_items c (items items' : FormattedItemList E) : RepairedItems items items' -> SameWidths c items items'.
Proof.
  intros [HL HI]. split; [exact HL|]. intros i. specialize (HI i). destruct (fiGet items i) as [row|e|p], (fiGet items' i) as [row'|e'|p']; auto.
  induction HI as [|s s' row row' Hs _ IH]; [reflexivity|]. cbn [map]. rewrite IH, (proj2 (repaired_width c s s' Hs)). reflexivity.
Qed.
Lemma merge_repaired c (t : Table Item Val E) m fuel ok items items' maxWidth sep compact :
  Forall (fun mc => match mc with Some col => BuiltIn c col | None => True end) (Columns (tSpec t)) -> RepairedItems items items' ->
  exists forms, Forall (Forall (Proper Blank sep items)) forms /\
    written (merge m fuel c t ok items maxWidth sep compact) = map (fill items) forms /\ written (merge m fuel c t ok items' maxWidth sep compact) = map (fill items') forms /\
    stop (merge m fuel c t ok items' maxWidth sep compact) = stop (merge m fuel c t ok items maxWidth sep compact).
Proof.
  intros HB HD. destruct (merge_template Blank c t m fuel ok items maxWidth sep compact (builtin_columns c t HB)) as (T & st & TP & TE). exists T. split; [exact TP|].
  rewrite (TE items) by (split; [reflexivity|]; intros i; destruct (fiGet items i); reflexivity). rewrite (TE items' (repaired_items c items items' HD)). auto.
Qed.
End Cells.
Lemma repaired_once s : (exists s', Repaired s s') /\ (forall s1 s2, Repaired s s1 -> Repaired s s2 -> s1 = s2).
Proof. split; [apply repaired_total|]. intros s1 s2. apply repaired_unique. Qed.
