(** * PropVisualLaws: laws of the visual width, and merged lines of any cells (C76). *)
From Coq Require Import Strings.String.
From Verif Require Import GoBase Utf8 Utf8Spec Runewidth ConditionSpec Width TextSpec AlignSpec Table TableContract TableExamples
  Merge MergeSpec MergeExamples VisualLawsSpec VisualLawsProofs VisualLawsCases.
Local Open Scope Z_scope.

(** C76: two texts one after the other are never wider than each on its own. *)
Theorem C76_subadditive : forall c s t, Reachable c -> StartsRune t -> rawWidth c (s ++ t) <= rawWidth c s + rawWidth c t.
Proof. exact visual_subadd. Qed.
Print Assumptions C76_subadditive.

Example C76_example : Reachable exC /\ StartsRune (lit "mb"%string)
  /\ rawWidth exC begun = 0 /\ rawWidth exC (lit "mb"%string) = 2 /\ rawWidth exC (begun ++ lit "mb"%string) = 1.
Proof. exact subadd_example. Qed.

(** Nor are any texts joined by a separator of valid UTF-8, whatever bytes they hold. *)
Theorem C76_joined : forall c sep parts, Reachable c -> ValidUTF8 sep -> sep <> [] -> parts <> [] ->
  rawWidth c (TableContract.join sep parts) <= zsum (map (rawWidth c) parts) + (slen parts - 1) * rawWidth c sep.
Proof. exact visual_join. Qed.
Print Assumptions C76_joined.

(** A text does not become narrower by what is put after it, unless it ends
    inside what may become an escape sequence or U+009B follows. *)
Theorem C76_grows : forall c s t, Reachable c -> StartsRune t -> ~ Unfinished s -> ~ In 0x9B (runes t) ->
  rawWidth c s <= rawWidth c (s ++ t).
Proof. exact visual_prefix. Qed.
Print Assumptions C76_grows.

Example C76_grows_example : Reachable exC /\ StartsRune (lit "mb"%string) /\ ~ Unfinished ended /\ ~ In 0x9B (runes (lit "mb"%string))
  /\ rawWidth exC ended = 1 /\ rawWidth exC (ended ++ lit "mb"%string) = 3.
Proof. exact prefix_example. Qed.

Theorem C76_unfinished_refuted : exists c s t, Reachable c /\ StartsRune t /\ ~ In 0x9B (runes t) /\ rawWidth c (s ++ t) < rawWidth c s.
Proof. exact unfinished_refuted. Qed.
Print Assumptions C76_unfinished_refuted.

Theorem C76_c1_refuted : exists c s t, Reachable c /\ StartsRune t /\ ~ Unfinished s /\ rawWidth c (s ++ t) < rawWidth c s.
Proof. exact c1_prefix_refuted. Qed.
Print Assumptions C76_c1_refuted.

(** What is lost at the seam is what StringWidth loses there. *)
Theorem C76_seam : forall c s t, StartsRune t -> ~ Unfinished s ->
  rawWidth c s + rawWidth c t - rawWidth c (s ++ t) = StringWidth c s + StringWidth c t - StringWidth c (s ++ t).
Proof. exact visual_exact. Qed.
Print Assumptions C76_seam.

(** Merged lines fit the width asked for, whatever bytes the cells hold. *)
Theorem C76_lines_fit : forall (Item Val E : Type) c (t : Table Item Val E) cols items rows,
  Printable t cols items rows -> Reachable c -> Forall (BuiltIn c) cols ->
  (forall row s, In row rows -> In s row -> rawWidth c s < 65536) -> (forall name, 0 <= Width t name < 65536) ->
  forall m fuel sep maxWidth, ValidUTF8 sep -> sep <> [] -> 0 <= maxWidth -> maxWidth + slen sep < 65536 ->
  reckoned t cols sep mod 65536 <> 0 -> reckoned t cols sep < 65536 -> zsum (recorded t cols) + slen cols - 1 <= maxWidth ->
  FitsRecorded c t cols rows ->
  forall txt, In txt (written (merge m fuel c t (fun _ => true) items maxWidth sep false)) ->
  exists line, txt = line ++ [x0a] /\ rawWidth c line <= maxWidth /\ (~ In 0x9B (runes line) -> vwidth c line <= maxWidth).
Proof. exact @any_plain_fit. Qed.
Print Assumptions C76_lines_fit.

Example C76_lines_example : Printable mTable mCols (listOf oddRows) oddRows /\ Reachable exC /\ Forall (BuiltIn exC) mCols
  /\ (forall row s, In row oddRows -> In s row -> rawWidth exC s < 65536) /\ (forall name, 0 <= Width mTable name < 65536)
  /\ ValidUTF8 oddSep /\ FitsRecorded exC mTable mCols oddRows
  /\ reckoned mTable mCols oddSep = 12 /\ zsum (recorded mTable mCols) + slen mCols - 1 = 9
  /\ ~ IsolatedCells mCols oddRows /\ ~ Separates oddSep
  /\ map (rawWidth exC) (written (merge H 1 exC mTable (fun _ => true) (listOf oddRows) 22 oddSep false)) = [18; 19].
Proof. exact odd_example. Qed.

(** In compact layout as well. *)
Theorem C76_compact_fit : forall (Item Val E : Type) c (t : Table Item Val E) cols items rows,
  Printable t cols items rows -> Reachable c -> Forall (BuiltIn c) cols ->
  (forall row s, In row rows -> In s row -> rawWidth c s < 65536) ->
  forall m fuel sep maxWidth g0 g, ValidUTF8 sep -> sep <> [] -> reckoned t cols sep mod 65536 <> 0 ->
  Z.of_nat g0 = estimate t cols sep maxWidth -> Search c cols sep maxWidth m rows g0 g -> (g0 < g < g0 + fuel)%nat ->
  (forall w, CompactTotal c cols sep m rows g w -> w < 65536) ->
  forall txt, In txt (written (merge m fuel c t (fun _ => true) items maxWidth sep true)) ->
  exists line, txt = line ++ [x0a] /\ rawWidth c line <= effective maxWidth
    /\ (~ In 0x9B (runes line) -> vwidth c line <= effective maxWidth).
Proof. exact @any_compact_fit. Qed.
Print Assumptions C76_compact_fit.

Example C76_compact_example : exists g0 g, Z.of_nat g0 = estimate mTable mCols oddSep 22 /\ Search exC mCols oddSep 22 H oddRows g0 g
  /\ (g0 < g < g0 + 20)%nat /\ (forall w, CompactTotal exC mCols oddSep H oddRows g w -> w < 65536).
Proof. exact odd_compact_example. Qed.

(** Not so for a separator that is not UTF-8. *)
Theorem C76_separator_refuted : exists (t : Table (list str) str str) cols rows sep maxWidth,
  Printable t cols (listOf rows) rows /\ Reachable eaC /\ Forall (BuiltIn eaC) cols /\ IsolatedCells cols rows /\ FitsRecorded eaC t cols rows
  /\ sep <> [] /\ zsum (recorded t cols) + slen cols - 1 <= maxWidth /\ maxWidth + slen sep < 65536
  /\ exists line, In (line ++ [x0a]) (written (merge H 1 eaC t (fun _ => true) (listOf rows) maxWidth sep false))
     /\ maxWidth < rawWidth eaC line.
Proof. exact invalid_separator. Qed.
Print Assumptions C76_separator_refuted.
