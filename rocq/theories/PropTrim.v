(** * PropTrim: cutting texts that are too wide for their column (C113). *)
From Verif Require Import GoBase Utf8 Utf8Spec GraphemeSpec Runewidth ConditionSpec StringWidthProofs Width TextSpec AlignSpec Table TableContract TableExamples
  Merge MergeSpec MergeExamples VisualLawsCases PartsSpec EditCases TrimSpec TrimProofs TrimCases TrimTable.
Local Open Scope Z_scope.

(** C113: there is exactly one cut. *)
Theorem C113_one : forall c w s, Reachable c -> 0 <= w ->
  (exists p q, Trim c w s p q) /\ (forall p q p' q', Trim c w s p q -> Trim c w s p' q' -> p = p' /\ q = q').
Proof. exact (fun c w s Hc Hw => conj (trim_total c w s Hc Hw) (fun p q p' q' => trim_unique c w s p q p' q' Hc)). Qed.
Print Assumptions C113_one.

(** Nothing is lost, the widths add up, a text that fits stays whole, and of one
    that does not at most one column is left empty. *)
Theorem C113_fits : forall c w s p q, Reachable c -> Trim c w s p q ->
  s = p ++ q /\ StringWidth c p <= w /\ StringWidth c s = StringWidth c p + StringWidth c q /\
  (q = [] <-> StringWidth c s <= w) /\ (q <> [] -> w - 1 <= StringWidth c p).
Proof. exact trim_facts. Qed.
Print Assumptions C113_fits.
Example C113_fits_example : Trim (plainCondition false true) 3 (wide ++ wide) wide wide /\ StringWidth (plainCondition false true) wide = 2.
Proof. exact trim_example. Qed.
Example C113_mark_example : Trim (plainCondition false true) 1 [x65; xcc; x81; x61] [x65; xcc; x81] [x61].
Proof. exact mark_example. Qed.

(** No other cut between characters that fits leaves more. *)
Theorem C113_longest : forall c w s p q cl1 cl2, Reachable c -> Trim c w s p q -> Clusters s (cl1 ++ cl2) -> StringWidth c (concat cl1) <= w ->
  exists m, p = concat cl1 ++ m.
Proof. exact trim_longest. Qed.
Print Assumptions C113_longest.

(** As a cell it fits its column, whatever escape sequences it holds or is cut in. *)
Theorem C113_cell : forall c w s p q, Reachable c -> Trim c w s p q -> ~ In 0x9B (runes s) -> w < 65536 -> vwidth c p <= w.
Proof. exact trim_cell. Qed.
Print Assumptions C113_cell.

(** Rows of any texts, cut to the recorded widths, merge to lines that fit the screen. *)
Theorem C113_merged : forall (Item Val E : Type) c (t : Table Item Val E) cols items texts rows,
  Printable t cols items rows -> Reachable c -> Forall (BuiltIn c) cols -> (forall name, 0 <= Width t name < 65536) ->
  CutRows c t cols texts rows -> (forall text s, In text texts -> In s text -> ~ In 0x9B (runes s)) ->
  forall m fuel sep maxWidth, ValidUTF8 sep -> sep <> [] -> 0 <= maxWidth -> maxWidth + slen sep < 65536 ->
  reckoned t cols sep mod 65536 <> 0 -> reckoned t cols sep < 65536 -> zsum (recorded t cols) + slen cols - 1 <= maxWidth ->
  forall txt, In txt (written (merge m fuel c t (fun _ => true) items maxWidth sep false)) ->
  exists line, txt = line ++ [x0a] /\ rawWidth c line <= maxWidth /\ (~ In 0x9B (runes line) -> vwidth c line <= maxWidth).
Proof. exact cut_merged. Qed.
Print Assumptions C113_merged.
Example C113_merged_example : Printable mTable mCols (listOf cutTexts) cutTexts /\ CutRows exC mTable mCols longTexts cutTexts
  /\ (forall text s, In text longTexts -> In s text -> ~ In 0x9B (runes s))
  /\ reckoned mTable mCols oddSep = 12 /\ zsum (recorded mTable mCols) + slen mCols - 1 = 9
  /\ map (rawWidth exC) (written (merge H 1 exC mTable (fun _ => true) (listOf cutTexts) 22 oddSep false)) = [20].
Proof. exact cut_example. Qed.

(** With a sign for what was left out. *)
Theorem C113_sign : forall c w s p q e, Reachable c -> StartsRune e -> Trim c (w - StringWidth c e) s p q -> StringWidth c (p ++ e) <= w.
Proof. exact trim_sign. Qed.
Print Assumptions C113_sign.
Example C113_sign_example : StartsRune dots /\ Trim (plainCondition false true) (3 - StringWidth (plainCondition false true) dots) (wide ++ wide) wide wide /\
  StringWidth (plainCondition false true) (wide ++ dots) = 3.
Proof. exact sign_example. Qed.

(** Cut again and again a text becomes lines, in exactly one way from two columns on. *)
Theorem C113_lines : forall c w s, Reachable c -> 2 <= w -> exists ps, Lines c w s ps /\ (forall ps', Lines c w s ps' -> ps = ps') /\
  concat ps = s /\ StringWidth c s = zsum (map (StringWidth c) ps) /\ Forall (fun p => StringWidth c p <= w) ps /\
  (forall a p x b, ps = a ++ p :: x :: b -> w - 1 <= StringWidth c p) /\
  (s <> [] -> (Z.of_nat (length ps) - 1) * (w - 1) <= StringWidth c s <= Z.of_nat (length ps) * w).
Proof. exact lines_all. Qed.
Print Assumptions C113_lines.
Example C113_lines_example : Lines (plainCondition false true) 3 (wide ++ [x61] ++ wide ++ wide ++ [x62]) [wide ++ [x61]; wide; wide ++ [x62]].
Proof. exact lines_example. Qed.

(** In one column a wide character has no line. *)
Theorem C113_one_column_refuted : exists c s, Reachable c /\ forall ps, ~ Lines c 1 s ps.
Proof. exact (ex_intro _ _ (ex_intro _ _ (conj (r_fresh false true) narrow_lines))). Qed.
Print Assumptions C113_one_column_refuted.

(** Cut between bytes, part of a text can be wider than the whole; between runes,
    the widths need not add up. *)
Theorem C113_bytes_refuted : exists c s p q, Reachable c /\ s = p ++ q /\ StringWidth c s < StringWidth c p.
Proof. exact bytes_wider. Qed.
Print Assumptions C113_bytes_refuted.
Theorem C113_runes_refuted : exists c s p q, Reachable c /\ s = p ++ q /\ StartsRune q /\ StringWidth c s < StringWidth c p + StringWidth c q.
Proof. exact runes_differ. Qed.
Print Assumptions C113_runes_refuted.

(** One column kept for U+2026 is not enough in East Asian mode. *)
Theorem C113_dots_refuted : exists c w s p q, Reachable c /\ Trim c (w - 1) s p q /\ w < StringWidth c (p ++ dots).
Proof. exact dots_wider. Qed.
Print Assumptions C113_dots_refuted.

(** A coloured text is cut although its visual width fits. *)
Theorem C113_colours_refuted : exists c w s p q, Reachable c /\ Trim c w s p q /\ vwidth c s <= w /\ q <> [].
Proof. exact colours_cut. Qed.
Print Assumptions C113_colours_refuted.
