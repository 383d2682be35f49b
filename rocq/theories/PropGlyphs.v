(** * PropGlyphs: emoji, flags and syllables are one character each (C75). *)
From Coq Require Import Strings.String.
From Verif Require Import GoBase Utf8 Utf8Spec Uniseg GraphemeSpec SegmentSpec TextSpec Runewidth ConditionSpec Width Locale AlignSpec Table TableExamples
  Merge MergeSpec MergeExamples TemplateSpec MarkSpec GlyphSpec GlyphProofs GlyphCases.
Local Open Scope Z_scope.

(** C75: the clusters of a text of glyphs are the glyphs; *)
Theorem C75_clusters : forall gl, Forall Glyph gl -> IsSegmentation (List.concat gl) gl.
Proof. exact @glyphs_clusters. Qed.
Print Assumptions C75_clusters.

(** the iterator stops at each of them once, in order. *)
Theorem C75_visited : forall gl s gs, Forall Glyph gl -> EncodesText (List.concat gl) s -> Visits (NewGraphemes s) gs -> map Runes gs = gl.
Proof. exact @glyphs_visited. Qed.
Print Assumptions C75_visited.

(** The text is as wide as the first runes of the glyphs together. *)
Theorem C75_width : forall c gl s, Forall (Shown c) gl -> EncodesText (List.concat gl) s ->
  StringWidth c s = zsum (map (fun g => RuneWidth c (hd 0 g)) gl) /\ vwidth c s = u16 (zsum (map (fun g => RuneWidth c (hd 0 g)) gl)).
Proof. exact @glyphs_width. Qed.
Print Assumptions C75_width.

Example C75_example : Forall (Shown exC) glyphs /\ EncodesText (List.concat glyphs) (List.concat (map EncodeRune (List.concat glyphs)))
  /\ zsum (map (fun g => RuneWidth exC (hd 0 g)) glyphs) = 10 /\ StringWidth exC (List.concat (map EncodeRune family)) = 2.
Proof. exact glyphs_example. Qed.

(** Merging rows writes the same lines, with the cells exchanged, when each glyph is
    exchanged for another that begins with the same rune. *)
Theorem C75_merge : forall Item Val E c (t : Table Item Val E) m fuel ok items items' maxWidth sep compact,
  Forall (fun mc => match mc with Some col => BuiltIn c col | None => True end) (Columns (tSpec t)) -> SameFirstItems c items items' ->
  exists forms, Forall (Forall (Proper Blank sep items)) forms /\
    written (merge m fuel c t ok items maxWidth sep compact) = map (fill items) forms /\ written (merge m fuel c t ok items' maxWidth sep compact) = map (fill items') forms /\
    stop (merge m fuel c t ok items' maxWidth sep compact) = stop (merge m fuel c t ok items maxWidth sep compact).
Proof. exact @merge_glyphs. Qed.
Print Assumptions C75_merge.

Example C75_merge_example : SameFirstItems exC (listOf gRows) (listOf gRows')
  /\ Forall (fun mc => match mc with Some col => BuiltIn exC col | None => True end) (Columns (tSpec mTable))
  /\ written (merge H 40 exC mTable (fun _ => true) (listOf gRows) 8 mSep true) = [lit "a      "%string ++ familyText ++ [x0a]; lit "bc      3"%string ++ [x0a]]
  /\ written (merge H 40 exC mTable (fun _ => true) (listOf gRows') 8 mSep true) = [lit "a      "%string ++ manText ++ [x0a]; lit "bc      3"%string ++ [x0a]].
Proof. exact glyph_rows_example. Qed.

(** Half flags are not clusters of the text they make. *)
Theorem C75_half_flags_refuted : exists gl, Forall (fun g => exists a, g = [a] /\ class a = RI) gl /\ ~ IsSegmentation (List.concat gl) gl.
Proof. exact half_flags_refuted. Qed.
Print Assumptions C75_half_flags_refuted.

(** ZWJ joins neither letters nor pictographs after a spacing mark. *)
Theorem C75_zwj_refuted : (exists a z b, class z = ZWJ /\ class a = Other /\ class b = Other /\ ~ IsSegmentation [a; z; b] [[a; z; b]])
  /\ (exists p m z q, class p = Pict /\ Mark m /\ class z = ZWJ /\ class q = Pict /\ ~ IsSegmentation [p; m; z; q] [[p; m; z; q]]).
Proof. exact zwj_refuted. Qed.
Print Assumptions C75_zwj_refuted.

(** Emoji presentation is not two cells by itself, nor is a flag. *)
Theorem C75_presentation_refuted : exists c g g', Reachable c /\ Shown c g /\ Shown c g' /\ In 0xFE0F g /\ (forall r, In r g' -> class r = RI) /\
  StringWidth c (List.concat (map EncodeRune g)) <> 2 /\ StringWidth c (List.concat (map EncodeRune g')) <> 2.
Proof. exact presentation_refuted. Qed.
Print Assumptions C75_presentation_refuted.
