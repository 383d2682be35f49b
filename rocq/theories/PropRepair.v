(** * PropRepair: bytes that belong to no character (C74). *)
From Coq Require Import Strings.String.
From Verif Require Import GoBase Utf8 Utf8Spec Uniseg GraphemeSpec SegmentSpec TextSpec Runewidth ConditionSpec Width AlignSpec Table TableExamples
  Merge MergeSpec MergeExamples TemplateSpec RepairSpec RepairProofs RepairCases.
Local Open Scope Z_scope.

(** C74: every text can be repaired in one way, *)
Theorem C74_repair : forall s, (exists s', Repaired s s') /\ (forall s1 s2, Repaired s s1 -> Repaired s s2 -> s1 = s2).
Proof. exact repaired_once. Qed.
Print Assumptions C74_repair.

(** which decodes to the same runes and is valid; *)
Theorem C74_runes : forall s s', Repaired s s' -> runes s' = runes s /\ ValidUTF8 s'.
Proof. exact @repaired_runes. Qed.
Print Assumptions C74_runes.

(** valid text is left as it is. *)
Theorem C74_valid : forall s s', Repaired s s' -> (ValidUTF8 s <-> s' = s).
Proof. exact @repaired_valid. Qed.
Print Assumptions C74_valid.

Example C74_example : Repaired cafe (lit "caf"%string ++ replacement).
Proof. exact cafe_repaired. Qed.

(** Widths depend on the runes only, though escape sequences are counted in bytes. *)
Theorem C74_runes_only : forall c s s', runes s' = runes s -> StringWidth c s' = StringWidth c s /\ rawWidth c s' = rawWidth c s /\ vwidth c s' = vwidth c s.
Proof. exact @runes_width. Qed.
Print Assumptions C74_runes_only.

(** So a text and the repaired one are as wide as each other, *)
Theorem C74_width : forall c s s', Repaired s s' -> StringWidth c s' = StringWidth c s /\ vwidth c s' = vwidth c s.
Proof. exact @repaired_width. Qed.
Print Assumptions C74_width.

(** and have the same clusters. *)
Theorem C74_clusters : forall s s' gs gs', Repaired s s' -> Visits (NewGraphemes s) gs -> Visits (NewGraphemes s') gs' -> map Runes gs' = map Runes gs.
Proof. exact @repaired_clusters. Qed.
Print Assumptions C74_clusters.

(** A character that is cut off counts for each of its bytes. *)
Example C74_cut_example : Repaired [xe6; x97] (replacement ++ replacement) /\ StringWidth exC [xe6; x97] = 2 /\ StringWidth exC [xe6; x97; xa5] = 2 /\ StringWidth exC replacement = 1.
Proof. exact cut_repaired. Qed.

(** In East Asian mode a stray byte takes two cells. *)
Example C74_wide_example : Reachable (plainCondition true true) /\ vwidth (plainCondition true true) cafe = 5 /\ vwidth exC cafe = 4.
Proof. exact stray_wide. Qed.

(** Merging rows with stray bytes writes the lines it writes for repaired ones, with
    the cells exchanged, and ends the same way. *)
Theorem C74_merge : forall Item Val E c (t : Table Item Val E) m fuel ok items items' maxWidth sep compact,
  Forall (fun mc => match mc with Some col => BuiltIn c col | None => True end) (Columns (tSpec t)) -> RepairedItems items items' ->
  exists forms, Forall (Forall (Proper Blank sep items)) forms /\
    written (merge m fuel c t ok items maxWidth sep compact) = map (fill items) forms /\ written (merge m fuel c t ok items' maxWidth sep compact) = map (fill items') forms /\
    stop (merge m fuel c t ok items' maxWidth sep compact) = stop (merge m fuel c t ok items maxWidth sep compact).
Proof. exact @merge_repaired. Qed.
Print Assumptions C74_merge.

Example C74_merge_example : RepairedItems (listOf cRows) (listOf cRows')
  /\ Forall (fun mc => match mc with Some col => BuiltIn exC col | None => True end) (Columns (tSpec mTable))
  /\ written (merge H 40 exC mTable (fun _ => true) (listOf cRows) 80 mSep true) = [cafe ++ lit " 12 |x 3 |"%string ++ [x0a]]
  /\ written (merge H 40 exC mTable (fun _ => true) (listOf cRows') 80 mSep true) = [(lit "caf"%string ++ replacement) ++ lit " 12 |x 3 |"%string ++ [x0a]].
Proof. exact repaired_example. Qed.

(** One replacement for several stray bytes, as [strings.ToValidUTF8] makes it, is
    not as wide as they are. *)
Theorem C74_run_refuted : exists c s, Reachable c /\ (forall r e rest, s = e ++ rest -> ~ Encodes r e) /\ vwidth c (s ++ lit "x"%string) <> vwidth c (replacement ++ lit "x"%string).
Proof. exact run_refuted. Qed.
Print Assumptions C74_run_refuted.
