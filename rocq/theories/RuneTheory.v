(** * RuneTheory: the rune-level properties in the form PropRune.v states them. *)
From Verif Require Import GoBase IntervalSpec TableProofs Uniseg Runewidth
  RuneWidthData GraphemeData EastAsianData EmojiData RunewidthSpec ConditionSpec Pointwise RunewidthProofs.
Local Open Scope Z_scope.

Lemma lookup_total d r : Sorted (spans d) ->
  (exists e, propertySearch d r = Some e) /\ forall p, property d r = p <-> HasProperty d r p.
Proof.
  intros Hs. split; [|intros p; apply property_spec; auto].
  destruct (propertySearch_spec d r Hs) as (a & b & p & E & _). eauto.
Qed.

Lemma package_dicts_sorted : Forall (fun d => Sorted (spans d))
  [graphemeCodePoints; eastAsianWidth; emojiPresentation].
Proof.
  apply Forall_cons; [exact grapheme_sorted|]. apply Forall_cons; [exact eastAsian_sorted|].
  apply Forall_cons; [exact emoji_sorted|]. apply Forall_nil.
Qed.

Lemma inTable_total t r : t <> [] -> Sorted t ->
  (exists b, inTable_go r t = Some b) /\ (inTable r t = true <-> Member r t).
Proof.
  intros Hn Hs. split; [|apply inTable_spec; auto].
  destruct (inTable_go_spec t r Hn Hs) as (res & E & _). eauto.
Qed.

Lemma package_tables_compact : Forall (fun t => t <> [] /\ Compact t)
  [tbl_private; tbl_nonprint; tbl_combining; tbl_doublewidth;
   tbl_ambiguous; tbl_narrow; tbl_neutral; tbl_emoji].
Proof.
  assert (H : forallb (fun t => compactb t && negb (match t with [] => true | _ => false end))
    [tbl_private; tbl_nonprint; tbl_combining; tbl_doublewidth;
   tbl_ambiguous; tbl_narrow; tbl_neutral; tbl_emoji] = true) by (vm_compute; reflexivity).
  rewrite forallb_forall in H. apply Forall_forall. intros t Hin. specialize (H t Hin).
  apply andb_true_iff in H. destruct H as [H1 H2]. split.
  - destruct t; [discriminate|congruence].
  - apply compactb_ok. exact H1.
Qed.

Lemma RuneWidth_outside c r : r < 0 \/ 0x10FFFF < r -> RuneWidth c r = 0.
Proof.
  intros H. unfold RuneWidth.
  destruct (Z.ltb_spec r 0); [reflexivity|].
  destruct (Z.gtb_spec r 0x10FFFF); [reflexivity|lia].
Qed.

Lemma RuneWidth_total c r : Reachable c ->
  (RuneWidth c r = 0 \/ RuneWidth c r = 1 \/ RuneWidth c r = 2)
  /\ (r < 0 \/ 0x10FFFF < r -> RuneWidth c r = 0)
  /\ (combinedLut c <> [] -> 0 <= r <= 0x10FFFF ->
      (Z.to_nat (Z.shiftr r 1) < length (combinedLut c))%nat).
Proof.
  intros H. split; [apply Reachable_range; exact H|]. split; [apply RuneWidth_outside|].
  intros Hne Hr. apply lut_index_in_range; assumption.
Qed.

Lemma RuneWidth_plainCondition ea st r : 0 <= r <= 0x10FFFF ->
  RuneWidth (plainCondition ea st) r = RuneWidth_tables ea st r.
Proof.
  intros H. unfold RuneWidth, plainCondition. cbn [combinedLut EastAsianWidth StrictEmojiNeutral].
  destruct (Z.ltb_spec r 0); [lia|]. destruct (Z.gtb_spec r 0x10FFFF); [lia|]. reflexivity.
Qed.

Lemma RuneWidth_by_tables st r : 0 <= r <= 0x10FFFF ->
  (forall w, RuneWidth (plainCondition false st) r = w <-> WidthPlain r w)
  /\ (forall w, RuneWidth (plainCondition true st) r = w <-> WidthEastAsian st r w).
Proof.
  intros H. rewrite !RuneWidth_plainCondition by exact H. split; intros w; split.
  - intros <-. apply plain_spec. lia.
  - intros K. eapply WidthPlain_fun; [apply plain_spec; lia|exact K].
  - intros <-. apply eastasian_spec.
  - intros K. eapply WidthEastAsian_fun; [apply eastasian_spec|exact K].
Qed.

(** A table built once is right as long as the flags are not changed; the
    rebuilt one is right whatever was there before. *)
Lemma CreateLUT_transparent c r : Reachable c ->
  RuneWidth (CreateLUT c) r =
  RuneWidth (plainCondition (EastAsianWidth c) (StrictEmojiNeutral c)) r.
Proof.
  intros H. rewrite RuneWidth_CreateLUT by (apply Reachable_lut; exact H). reflexivity.
Qed.

Lemma RuneWidth_mono st st' r :
  RuneWidth (plainCondition false st) r <= RuneWidth (plainCondition true st') r.
Proof.
  destruct (Z_lt_dec r 0). { rewrite !RuneWidth_outside by lia. lia. }
  destruct (Z_lt_dec 0x10FFFF r). { rewrite !RuneWidth_outside by lia. lia. }
  rewrite !RuneWidth_plainCondition, !RuneWidth_tables_rwM by lia. apply rwM_mono. lia.
Qed.

(** Both modes agree on which runes are invisible. *)
Lemma RuneWidth_zero st st' r :
  RuneWidth (plainCondition false st) r = 0 <-> RuneWidth (plainCondition true st') r = 0.
Proof.
  destruct (Z_lt_dec r 0). { rewrite !RuneWidth_outside by lia. tauto. }
  destruct (Z_lt_dec 0x10FFFF r). { rewrite !RuneWidth_outside by lia. tauto. }
  destruct (RuneWidth_by_tables st r ltac:(lia)) as [H _].
  destruct (RuneWidth_by_tables st' r ltac:(lia)) as [_ H']. rewrite H, H'.
  split; intros K; inversion K; subst; constructor; assumption.
Qed.
