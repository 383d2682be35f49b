(** * CrossSpec: what the tables of runewidth and those of uniseg say about the
    same characters. *)
From Verif Require Import GoBase IntervalSpec PropConst GraphemeData EastAsianData EmojiData GraphemeSpec
  RuneWidthData RunewidthSpec ClusterSpec.
Local Open Scope Z_scope.

(** Wide characters of a later Unicode version, missing in the tables of runewidth. *)
Definition newWide : list (Z * Z) := [
  (0x1AFF0, 0x1AFF3); (0x1AFF5, 0x1AFFB); (0x1AFFD, 0x1AFFE); (0x1B11F, 0x1B122);
  (0x1F6DD, 0x1F6DF); (0x1F7F0, 0x1F7F0); (0x1F979, 0x1F979); (0x1F9CC, 0x1F9CC);
  (0x1FA7B, 0x1FA7C); (0x1FAA9, 0x1FAAC); (0x1FAB7, 0x1FABA); (0x1FAC3, 0x1FAC5);
  (0x1FAD7, 0x1FAD9); (0x1FAE0, 0x1FAE7); (0x1FAF0, 0x1FAF6)].

(** The same for neutral characters. *)
Definition newNeutral : list (Z * Z) := [
  (0x61D, 0x61D); (0x870, 0x88E); (0x890, 0x891); (0x898, 0x89F); (0x8B5, 0x8B5); (0x8C8, 0x8D2);
  (0xC3C, 0xC3C); (0xC5D, 0xC5D); (0xCDD, 0xCDD); (0x170D, 0x170D); (0x1715, 0x1715);
  (0x171F, 0x171F); (0x180F, 0x180F); (0x1AC1, 0x1ACE); (0x1B4C, 0x1B4C); (0x1B7D, 0x1B7E);
  (0x1DFA, 0x1DFA); (0x20C0, 0x20C0); (0x2C2F, 0x2C2F); (0x2C5F, 0x2C5F); (0x2E53, 0x2E5D);
  (0xA7C0, 0xA7C1); (0xA7D0, 0xA7D1); (0xA7D3, 0xA7D3); (0xA7D5, 0xA7D9); (0xA7F2, 0xA7F4);
  (0xFBC2, 0xFBC2); (0xFD40, 0xFD4F); (0xFDCF, 0xFDCF); (0xFDFE, 0xFDFF); (0x10570, 0x1057A);
  (0x1057C, 0x1058A); (0x1058C, 0x10592); (0x10594, 0x10595); (0x10597, 0x105A1);
  (0x105A3, 0x105B1); (0x105B3, 0x105B9); (0x105BB, 0x105BC); (0x10780, 0x10785);
  (0x10787, 0x107B0); (0x107B2, 0x107BA); (0x10F70, 0x10F89); (0x11070, 0x11075);
  (0x110C2, 0x110C2); (0x116B9, 0x116B9); (0x11740, 0x11746); (0x11AB0, 0x11ABF);
  (0x12F90, 0x12FF2); (0x16A70, 0x16ABE); (0x16AC0, 0x16AC9); (0x1CF00, 0x1CF2D);
  (0x1CF30, 0x1CF46); (0x1CF50, 0x1CFC3); (0x1D1E9, 0x1D1EA); (0x1DF00, 0x1DF1E);
  (0x1E290, 0x1E2AE); (0x1E7E0, 0x1E7E6); (0x1E7E8, 0x1E7EB); (0x1E7ED, 0x1E7EE); (0x1E7F0, 0x1E7FE)].

(** Wide pictographs that are text by default. *)
Definition textPictographs : list (Z * Z) := [
  (0x3030, 0x3030); (0x303D, 0x303D); (0x3297, 0x3297); (0x3299, 0x3299); (0x1F202, 0x1F202);
  (0x1F237, 0x1F237); (0x1F260, 0x1F265)].

(** Characters without width in runewidth that are no control characters or
    marks in uniseg: U+070F, the surrogates, U+FFFE and U+FFFF, two musical signs. *)
Definition onlyHidden : list (Z * Z) := [
  (0x70F, 0x70F); (0xD800, 0xDFFF); (0xFFFE, 0xFFFF); (0x1D166, 0x1D166); (0x1D16D, 0x1D16D)].

(** Control characters and marks, by their grapheme cluster class. *)
Definition ZeroClass (r : Z) : Prop :=
  class r = Control \/ class r = CR \/ class r = LF \/ class r = Extend \/ class r = ZWJ.

(** The characters on which the two packages differ. *)
Inductive Differ (r : Z) : Prop :=
| d_marks : ZeroClass r -> ~ Invisible r -> Differ r          (* uniseg 0, runewidth 1 or 2 *)
| d_hidden : Member r onlyHidden -> Differ r                  (* runewidth 0, uniseg 1 *)
| d_flags : class r = RI -> Differ r                          (* uniseg 2, runewidth 1 *)
| d_dashes : r = 0x2E3A \/ r = 0x2E3B -> Differ r             (* uniseg 3 or 4, runewidth 1 *)
| d_new : Member r newWide -> Differ r                        (* uniseg 2, runewidth 1 *)
| d_text : Member r textPictographs -> Differ r.              (* uniseg 1, runewidth 2 *)

(** A cluster both packages give the same width: one character, or a visible
    one with marks after it. *)
Inductive OrdinaryCluster : list Z -> Prop :=
| oc_one r : 0 <= r <= 0x10FFFF -> ~ Differ r -> OrdinaryCluster [r]
| oc_marks r marks : 0 <= r <= 0x10FFFF -> ~ Differ r -> ~ ZeroClass r -> special (class r) = false ->
    Forall ZeroClass marks -> ~ In VS16 marks -> OrdinaryCluster (r :: marks).

(** Blocks of wide scripts: Hangul letters and syllables, kana, ideographs, fullwidth forms. *)
Definition wideBlocks : list (Z * Z) :=
  [(0x1100, 0x115F); (0x3041, 0x3096); (0x30A1, 0x30FA); (0x3400, 0x4DBF); (0x4E00, 0x9FFF); (0xAC00, 0xD7A3);
   (0xF900, 0xFAFF); (0xFF01, 0xFF60); (0xFFE0, 0xFFE6); (0x20000, 0x2FFFD); (0x30000, 0x3FFFD)].
