(** * PropMarks: marks on characters, and colours, do not change a table (C73). *)
From Coq Require Import Strings.String.
From Verif Require Import GoBase Utf8 Utf8Spec GraphemeSpec TextSpec Runewidth ConditionSpec Width AlignSpec Table TableExamples TerminalSpec
  Merge MergeSpec MergeExamples TemplateSpec MarkSpec MarkProofs MarkCases.
Local Open Scope Z_scope.

(** C73: marks put at the end of a cluster do not change the width of a text, if
    they take none or the cluster does. *)
Theorem C73_width : forall c s s', Reachable c -> Marked c s s' -> StringWidth c s' = StringWidth c s.
Proof. exact @marked_width. Qed.
Print Assumptions C73_width.

(** So for the visual width of a text without escape sequences. *)
Theorem C73_visual : forall c s s', Reachable c -> Forall (fun r => ~ Introducer r) (runes s) -> Marked c s s' -> rawWidth c s' = rawWidth c s /\ vwidth c s' = vwidth c s.
Proof. exact @marked_visual. Qed.
Print Assumptions C73_visual.

Example C73_example : Marked exC (lit "x"%string) (lit "x"%string ++ acute) /\ Marked exC ([xe6; x97; xa5] ++ lit "!"%string) ([xe6; x97; xa5] ++ visarga ++ lit "!"%string)
  /\ Forall (fun r => ~ Introducer r) (runes (lit "x"%string)) /\ RuneWidth exC 0x903 = 1.
Proof. exact marked_example. Qed.

(** A text of characters that stand for themselves, each with any marks, is as
    wide as the characters. *)
Theorem C73_characters : forall c ps s, Reachable c -> Forall (fun p => Stands (fst p) /\ 0 < RuneWidth c (fst p) /\ Forall Mark (snd p)) ps ->
  EncodesText (List.concat (map spelled ps)) s -> rawWidth c s = zsum (map (fun p => RuneWidth c (fst p)) ps).
Proof. exact @pieces_width. Qed.
Print Assumptions C73_characters.

Example C73_characters_example : let ps := [(0x65E5, [0x301; 0x903]); (0x78, [])] in
  Forall (fun p => Stands (fst p) /\ 0 < RuneWidth exC (fst p) /\ Forall Mark (snd p)) ps
  /\ EncodesText (List.concat (map spelled ps)) ([xe6; x97; xa5] ++ acute ++ visarga ++ lit "x"%string)
  /\ zsum (map (fun p => RuneWidth exC (fst p)) ps) = 3.
Proof. exact pieces_example. Qed.

(** Marks put on or taken off, and colours put around a text or taken away, in any
    order. *)
Theorem C73_decorated : forall c s s', Reachable c -> Decorated c s s' -> vwidth c s' = vwidth c s.
Proof. exact @decorated_width. Qed.
Print Assumptions C73_decorated.

Example C73_decorated_example : Decorated exC (lit "x"%string) (on_red ++ (lit "x"%string ++ acute) ++ off_red).
Proof. exact x_decorated. Qed.

(** Merging rows whose cells differ in that only writes the same lines, with the
    cells exchanged, and ends the same way. *)
Theorem C73_merge : forall Item Val E c (t : Table Item Val E) m fuel ok items items' maxWidth sep compact, Reachable c ->
  Forall (fun mc => match mc with Some col => BuiltIn c col | None => True end) (Columns (tSpec t)) -> DecoratedItems c items items' ->
  exists forms, Forall (Forall (Proper Blank sep items)) forms /\
    written (merge m fuel c t ok items maxWidth sep compact) = map (fill items) forms /\ written (merge m fuel c t ok items' maxWidth sep compact) = map (fill items') forms /\
    stop (merge m fuel c t ok items' maxWidth sep compact) = stop (merge m fuel c t ok items maxWidth sep compact).
Proof. exact @merge_decorated. Qed.
Print Assumptions C73_merge.

Example C73_merge_example : DecoratedItems exC (listOf mRows) (listOf dRows) /\ Reachable exC
  /\ Forall (fun mc => match mc with Some col => BuiltIn exC col | None => True end) (Columns (tSpec mTable))
  /\ written (merge H 40 exC mTable (fun _ => true) (listOf mRows) 26 mSep true) = map (fill (listOf mRows)) dForm
  /\ written (merge H 40 exC mTable (fun _ => true) (listOf dRows) 26 mSep true) = map (fill (listOf dRows)) dForm
  /\ nth 1 (map (fill (listOf mRows)) dForm) [] = lit "c       9 |"%string ++ [x0a].
Proof. exact merged_example. Qed.

(** Inside a cluster, between the halves of a flag, a mark without width does
    change the width. *)
Theorem C73_inside_refuted : exists c a ms m b, Reachable c /\ EncodesText ms m /\ Forall Mark ms /\ StartsRune b /\ TakesMarks a /\
  Forall (fun r => RuneWidth c r = 0) ms /\ VisibleEnd c a /\ vwidth c (a ++ m ++ b) <> vwidth c (a ++ b).
Proof. exact inside_refuted. Qed.
Print Assumptions C73_inside_refuted.

(** So does one that takes width, at the start or after a line feed, *)
Theorem C73_alone_refuted : exists c ms m, Reachable c /\ EncodesText ms m /\ Forall Mark ms /\
  vwidth c m <> vwidth c [] /\ vwidth c (([x0a] ++ m) ++ lit "x"%string) <> vwidth c ([x0a] ++ lit "x"%string).
Proof. exact alone_refuted. Qed.
Print Assumptions C73_alone_refuted.

(** and one in an escape sequence. *)
Theorem C73_escape_refuted : exists c s s', Reachable c /\ Marked c s s' /\ vwidth c s' <> vwidth c s.
Proof. exact escape_refuted. Qed.
Print Assumptions C73_escape_refuted.
