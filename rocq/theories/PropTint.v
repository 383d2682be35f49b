(** * PropTint: cutting texts with attribute sequences (C114). *)
From Coq Require Import Strings.String.
From Verif Require Import GoBase Utf8 GraphemeSpec Runewidth ConditionSpec TextSpec Width AlignSpec Table TableExamples Merge MergeSpec MergeExamples TerminalSpec TerminalCases
  WrapSpec ColourSpec EditCases TrimSpec TintSpec TintProofs TintCases TintTable.
Local Open Scope Z_scope.

(** C114: there is exactly one such cut. *)
Theorem C114_one : forall c w s, Reachable c -> Styled s -> 0 <= w -> exists p, Tint c w s p /\ forall p', Tint c w s p' -> p = p'.
Proof. exact tint_one. Qed.
Print Assumptions C114_one.

(** What is left measures at most [w], and at least [w - 1] if anything was cut; a text
    is left alone exactly if it fits. *)
Theorem C114_fits : forall c w s p, Reachable c -> Tint c w s p -> Styled p /\ 0 <= rawWidth c p <= w /\ (w < 65536 -> vwidth c p <= w) /\
  (p = s <-> rawWidth c s <= w) /\ (w < rawWidth c s -> w - 1 <= rawWidth c p).
Proof. exact tint_fits. Qed.
Print Assumptions C114_fits.

(** The terminal draws the first runes of the text, with the attributes it would have
    drawn them with, *)
Theorem C114_drawn : forall c w s p, Reachable c -> Tint c w s p -> forall x st, exists more,
  paint c (mkT Ground x st) s = paint c (mkT Ground x st) p ++ more.
Proof. exact tint_drawn. Qed.
Print Assumptions C114_drawn.

(** and afterwards has the attributes it would have had. *)
Theorem C114_after : forall c w s p, Reachable c -> Tint c w s p ->
  (forall x st, tStyle (show c (mkT Ground x st) p) = tStyle (show c (mkT Ground x st) s) /\ tMode (show c (mkT Ground x st) p) = Ground) /\
  (Closed c s -> Closed c p).
Proof. exact tint_after. Qed.
Print Assumptions C114_after.

Example C114_example : Tint (plainCondition false true) 2 long short /\ Styled long /\ Closed (plainCondition false true) long /\
  rawWidth (plainCondition false true) long = 5 /\ paint (plainCondition false true) home short = [(97, [[51; 49]]); (98, [[51; 49]])].
Proof. exact tint_example. Qed.

(** Cut to [w] and aligned to [w], it takes exactly [w] columns of the screen. *)
Theorem C114_cell : forall a c w s p x st, Reachable c -> 0 <= w < 65536 -> Tint c w s p ->
  show c (mkT Ground x st) (align a c p w) = mkT Ground (x + w) (tStyle (show c (mkT Ground x st) s)).
Proof. exact tint_cell. Qed.
Print Assumptions C114_cell.

Example C114_cell_example : Tint (plainCondition false true) 2 long short /\
  show (plainCondition false true) (mkT Ground 3 []) (align ACenter (plainCondition false true) short 2) = mkT Ground 5 [[]; [51; 49]].
Proof. split; [apply tint_example|vm_compute; reflexivity]. Qed.

(** Rows of coloured texts cut to the recorded widths and merged: field [i] of the [k]th
    item of a line takes the same columns of the screen in every line. *)
Theorem C114_merged : forall (Item Val E : Type) c (t : Table Item Val E) cols items texts rows,
  Printable t cols items rows -> Reachable c -> Forall (BuiltIn c) cols -> (forall name, 0 <= Width t name < 65536) -> TintRows c t cols texts rows ->
  forall m fuel sep maxWidth compact, Styled sep -> reckoned t cols sep mod 65536 <> 0 ->
  let r := merge m fuel c t (fun _ => true) items maxWidth sep compact in
  stop r = Finished ->
  exists g lines (start width : nat -> nat -> Z), (1 <= g)%nat /\ Layout m g rows lines /\ List.length (written r) = List.length lines
    /\ forall l line txt k row i s, nth_error lines l = Some line -> nth_error (written r) l = Some txt ->
       nth_error line k = Some row -> nth_error row i = Some s -> (i < List.length cols)%nat ->
       exists before p q after st st', txt = before ++ (spaces p ++ s ++ spaces q) ++ after ++ [x0a]
         /\ show c home before = mkT Ground (start k i) st
         /\ show c home (before ++ spaces p ++ s ++ spaces q) = mkT Ground (start k i + width k i) st'.
Proof. exact tint_merged. Qed.
Print Assumptions C114_merged.

Example C114_merged_example : Printable mTable mCols (listOf tintRows) tintRows /\ TintRows exC mTable mCols tintTexts tintRows
  /\ reckoned mTable mCols mSep mod 65536 <> 0
  /\ stop (merge H 9 exC mTable (fun _ => true) (listOf tintRows) 26 mSep false) = Finished
  /\ written (merge H 9 exC mTable (fun _ => true) (listOf tintRows) 26 mSep false)
     = [red_on ++ lit "go.mod"%string ++ off ++ lit " 12 |"%string ++ red_on ++ lit "abc"%string ++ off ++ lit "de   5"%string ++ [x0a]].
Proof. exact tint_rows_example. Qed.

(** If the sequences behind the cut are left out too, the colour stays on. *)
Theorem C114_bare_refuted : exists c w s p q, Reachable c /\ Styled s /\ Closed c s /\ s = p ++ q /\ Styled p /\ rawWidth c p <= w /\ ~ Closed c p.
Proof. exact bare_cut_refuted. Qed.
Print Assumptions C114_bare_refuted.
