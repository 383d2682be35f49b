(** * PropTemplate: of the text of cells only the width matters (C72). *)
From Coq Require Import Strings.String.
From Verif Require Import GoBase Utf8 Runewidth ConditionSpec Width AlignSpec Table TableContract TableExamples Merge MergeSpec MergeExamples TemplateSpec TemplateProofs MarkCases.
Local Open Scope Z_scope.

(** C72: the widths of the cells determine a form, of padding, separators and line
    feeds, with places for the cells.  What merging writes is the form filled in
    with the texts, and whether and how it fails does not depend on them. *)
Theorem C72_merge : forall Item Val E (Q : str -> Prop) c (t : Table Item Val E) m fuel ok items maxWidth sep compact, PadsColumns Q c t ->
  exists T st, Forall (Forall (Proper Q sep items)) T /\
  forall items', SameWidths c items items' -> merge m fuel c t ok items' maxWidth sep compact = {| written := map (fill items') T; stop := st |}.
Proof. exact @merge_template. Qed.
Print Assumptions C72_merge.

(** With the alignments of the package, the padding is spaces. *)
Theorem C72_builtin : forall Item Val E c (t : Table Item Val E), Forall (fun mc => match mc with Some col => BuiltIn c col | None => True end) (Columns (tSpec t)) -> PadsColumns Blank c t.
Proof. exact @builtin_columns. Qed.
Print Assumptions C72_builtin.

Example C72_merge_example : SameWidths exC (listOf mRows) (listOf (map (map (fun s => map (fun _ => x7a) (repeat tt (Z.to_nat (vwidth exC s))))) mRows))
  /\ PadsColumns Blank exC mTable.
Proof. exact widths_example. Qed.

(** The form of a compact merge in two lines. *)
Example C72_form_example : written (merge H 40 exC mTable (fun _ => true) (listOf mRows) 26 mSep true) = map (fill (listOf mRows)) dForm
  /\ written (merge H 40 exC mTable (fun _ => true) (listOf dRows) 26 mSep true) = map (fill (listOf dRows)) dForm
  /\ nth 1 (map (fill (listOf mRows)) dForm) [] = lit "c       9 |"%string ++ [x0a].
Proof. apply merged_example. Qed.

(** So for a single row: what is put around the cells is determined by their widths. *)
Theorem C72_align : forall Item Val E (Q : str -> Prop) c (t : Table Item Val E) ws, PadsAligned Q c (Columns (tSpec t)) -> slen ws = ColumnCount (tSpec t) ->
  exists pads res, Forall (fun lr => (Q (fst lr) \/ fst lr = []) /\ (Q (snd lr) \/ snd lr = [])) pads /\ List.length pads = List.length ws /\
  forall row, map (vwidth c) row = ws -> AlignFormattedItem t row = (around pads row, match res with None => Ok (around pads row) | Some p => Panic p end).
Proof. exact @align_template. Qed.
Print Assumptions C72_align.

Example C72_align_example : PadsAligned Blank exC (Columns (tSpec mTable)) /\ ColumnCount (tSpec mTable) = slen [1; 1]
  /\ map (vwidth exC) [lit "x"%string; lit "3"%string] = [1; 1]
  /\ fst (AlignFormattedItem mTable [lit "x"%string; lit "3"%string]) = around [([], lit "     "%string); ([space], [])] [lit "x"%string; lit "3"%string].
Proof. exact align_form_example. Qed.

(** And the widths FormatItem records are determined by the widths of its texts. *)
Theorem C72_recorded : forall Item Val E c (t : Table Item Val E) item item' t1 t2 texts texts', FormatItem c t item = (t1, Ok texts) -> FormatItem c t item' = (t2, Ok texts') ->
  map (vwidth c) texts = map (vwidth c) texts' -> t1 = t2.
Proof. exact @format_same. Qed.
Print Assumptions C72_recorded.

Example C72_recorded_example : snd (FormatItem exC exTable exItem1) = Ok [lit "go.mod"%string; lit "12"%string]
  /\ snd (FormatItem exC exTable [lit "makefi"%string; lit "34"%string]) = Ok [lit "makefi"%string; lit "34"%string]
  /\ map (vwidth exC) [lit "go.mod"%string; lit "12"%string] = map (vwidth exC) [lit "makefi"%string; lit "34"%string].
Proof. vm_compute. auto. Qed.

(** With an alignment of one's own that looks at the text there is no such form. *)
Theorem C72_own_alignment_refuted : exists c (t : Table (list str) str str) (items items' : FormattedItemList str), Reachable c /\ SameWidths c items items' /\
  ~ exists forms, written (merge H 1 c t (fun _ => true) items 80 mSep false) = map (fill items) forms /\
                  written (merge H 1 c t (fun _ => true) items' 80 mSep false) = map (fill items') forms.
Proof. exact fussy_refuted. Qed.
Print Assumptions C72_own_alignment_refuted.
