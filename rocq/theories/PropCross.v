(** * PropCross: the tables of the two packages describe the same characters (C65). *)
From Verif Require Import GoBase Utf8 IntervalSpec PropConst GraphemeData EastAsianData EmojiData GraphemeSpec RuneWidthData
  RunewidthSpec ConditionSpec Runewidth Uniseg ClusterSpec SegmentSpec CrossSpec CrossProofs.
Local Open Scope Z_scope.

Theorem C65_narrow : forall r, Member r tbl_narrow <-> HasProperty eastAsianWidth r prNa.
Proof. exact narrow_same. Qed.
Print Assumptions C65_narrow.

Theorem C65_ambiguous : forall r, Member r tbl_ambiguous <-> HasProperty eastAsianWidth r prA.
Proof. exact ambiguous_same. Qed.
Print Assumptions C65_ambiguous.

(** Up to 54 characters added later, all of them wide in uniseg. *)
Theorem C65_wide : forall r, (Member r tbl_doublewidth <->
    (HasProperty eastAsianWidth r prW \/ HasProperty eastAsianWidth r prF) /\ ~ Member r newWide)
  /\ (Member r newWide -> HasProperty eastAsianWidth r prW).
Proof. intros r. split; [apply wide_same|apply newWide_wide]. Qed.
Print Assumptions C65_wide.

Theorem C65_neutral : forall r,
  (Member r tbl_neutral <-> HasProperty eastAsianWidth r prN /\ ~ Member r newNeutral)
  /\ (Member r newNeutral -> HasProperty eastAsianWidth r prN).
Proof. intros r. split; [apply neutral_same|apply newNeutral_neutral]. Qed.
Print Assumptions C65_neutral.

Theorem C65_disjoint : forall r,
  ~ (Member r tbl_narrow /\ Member r tbl_ambiguous) /\ ~ (Member r tbl_narrow /\ Member r tbl_doublewidth)
  /\ ~ (Member r tbl_narrow /\ Member r tbl_neutral) /\ ~ (Member r tbl_ambiguous /\ Member r tbl_doublewidth)
  /\ ~ (Member r tbl_ambiguous /\ Member r tbl_neutral) /\ ~ (Member r tbl_doublewidth /\ Member r tbl_neutral).
Proof. exact classes_disjoint. Qed.
Print Assumptions C65_disjoint.

Theorem C65_emoji : forall r, Member r tbl_emoji <->
  HasProperty graphemeCodePoints r prExtendedPictographic /\ r <> 0xA9 /\ r <> 0xAE.
Proof. exact emoji_same. Qed.
Print Assumptions C65_emoji.

Theorem C65_presentation : forall r, HasProperty emojiPresentation r prEmojiPresentation ->
  HasProperty graphemeCodePoints r prExtendedPictographic \/ HasProperty graphemeCodePoints r prRegionalIndicator
  \/ 0x1F3FB <= r <= 0x1F3FF.
Proof. exact presentation_class. Qed.
Print Assumptions C65_presentation.

Theorem C65_combining : forall r, Member r tbl_combining ->
  HasProperty graphemeCodePoints r prExtend \/ r = 0x1D166 \/ r = 0x1D16D.
Proof. exact combining_marks. Qed.
Print Assumptions C65_combining.

Theorem C65_private : forall r, Member r tbl_private -> Member r tbl_ambiguous.
Proof. exact private_ambiguous. Qed.
Print Assumptions C65_private.

(** Two cells in East Asian mode, by the properties of uniseg. *)
Theorem C65_eastasian : forall st r, 0 <= r <= 0x10FFFF -> ~ Invisible r ->
  (RuneWidth (plainCondition true st) r = 2 <->
   HasProperty eastAsianWidth r prA
   \/ (HasProperty eastAsianWidth r prW \/ HasProperty eastAsianWidth r prF) /\ ~ Member r newWide
   \/ st = false /\ HasProperty graphemeCodePoints r prExtendedPictographic /\ r <> 0xA9 /\ r <> 0xAE).
Proof. exact eastasian_class. Qed.
Print Assumptions C65_eastasian.

(** Where the two packages give a character the same width. *)
Theorem C65_widths : forall st r, 0 <= r <= 0x10FFFF ->
  (uniRuneWidth r (property graphemeCodePoints r) = RuneWidth (plainCondition false st) r <-> ~ Differ r).
Proof. exact widths_differ. Qed.
Print Assumptions C65_widths.

(** Where they give a text the same width: a cluster's width is stored above the four lowest bits. *)
Theorem C65_text : forall st s gs, Visits (NewGraphemes s) gs -> Forall (fun h => OrdinaryCluster (Runes h)) gs ->
  16 * StringWidth (plainCondition false st) s = zsum (map g_boundaries gs).
Proof. exact text_agrees. Qed.
Print Assumptions C65_text.

Theorem C65_blocks : forall ea st r, Member r wideBlocks -> RuneWidth (plainCondition ea st) r = 2.
Proof. exact blocks_wide. Qed.
Print Assumptions C65_blocks.

(** A wide character, a new one, a flag letter and a mark unknown to runewidth. *)
Example C65_example :
  HasProperty eastAsianWidth 0x4E00 prW /\ ~ Member 0x4E00 newWide /\ ~ Differ 0x4E00 /\ ~ Differ 0x41
  /\ Member 0x1FAE0 newWide /\ Differ 0x1F1E6 /\ Differ 0x591 /\ ~ Invisible 0xA1
  /\ uniRuneWidth 0x591 (property graphemeCodePoints 0x591) = 0 /\ RuneWidth (plainCondition false true) 0x591 = 1.
Proof. exact cross_example. Qed.

(** A letter with U+0301, an ideograph, an emoji. *)
Example C65_text_example : exists gs, Visits (NewGraphemes [x61; xcc; x81; xe6; xbc; xa2; xf0; x9f; x98; x80]) gs
  /\ Forall (fun h => OrdinaryCluster (Runes h)) gs /\ zsum (map g_boundaries gs) = 16 * 5.
Proof. exact cross_text_example. Qed.
