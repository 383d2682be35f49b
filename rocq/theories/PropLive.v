(** * PropLive: columns and rows that change while the table's functions run (C71). *)
From Coq Require Import Strings.String.
From Verif Require Import GoBase Runewidth Width Table Merge TableContract TableExamples MergeSpec MergeExamples MergeAsked
  Calls CallsSpec CallsProofs CallsMerge CallsSearch CallsResults CallsSteady CallsFinal CallsCases Live LiveSpec LiveFormat LiveAlign LiveMerge LiveAny LiveCases.
Local Open Scope Z_scope.

(** C71: whatever is changed meanwhile, FormatItem goes through the columns there
    were when it was called, one text each; the pointer to a column is read when
    its turn comes, the getter once for the value and again for the text, and the
    name when the width is recorded. *)
Theorem C71_format : forall Item Val E G L W (env : surroundings Item Val E G L W) c item w0 m0 w' m' texts tr,
  lrun env (FormatItemL c item) w0 m0 = (w', m', Ok texts, tr) ->
  exists cells, List.length cells = hLen (lSlice m0) /\ texts = map lcText cells /\ tr = flat_map live_events cells /\
    forall j x, nth_error cells j = Some x -> LiveCell c item (lSlice m0) j x.
Proof. exact @format_live. Qed.
Print Assumptions C71_format.

(** If what is called does no more to the columns than add some, it does exactly
    what it does on the columns there were. *)
Theorem C71_format_adds : forall Item Val E G L W (env : surroundings Item Val E G L W) c item w0 m0 w' m' r tr, OnlyAdds env -> Valid m0 ->
  lrun env (FormatItemL c item) w0 m0 = (w', m', r, tr) -> FormatActs c item (cols_now m0) (acts tr) r.
Proof. exact @format_acts. Qed.
Print Assumptions C71_format_adds.

(** So does FormatItemBasic, *)
Theorem C71_basic_adds : forall Item Val E G L W (env : surroundings Item Val E G L W) item sep w0 m0 w' m' r tr, OnlyAdds env -> Valid m0 ->
  lrun env (FormatItemBasicL item sep) w0 m0 = (w', m', r, tr) -> BasicActs item sep (cols_now m0) (acts tr) r.
Proof. exact @basic_acts. Qed.
Print Assumptions C71_basic_adds.

(** and AlignFormattedItem, on a row of the right length. *)
Theorem C71_align_adds : forall Item Val E G L W (env : surroundings Item Val E G L W) f w0 m0 w' m' r tr, OnlyAdds env -> RowsKept env -> Valid m0 ->
  (hArr f < List.length (lRows m0))%nat -> (hLen f <= List.length (nth (hArr f) (lRows m0) []))%nat -> hLen f = hLen (lSlice m0) ->
  lrun env (AlignFormattedItemL f) w0 m0 = (w', m', r, tr) ->
  AlignActs (cols_now m0) (row_in m0 f) (acts tr) (row_in m' f)
    (match r with Ok _ => Ok (row_in m' f) | Err e => Err e | Panic p => Panic p end).
Proof. exact @align_adds. Qed.
Print Assumptions C71_align_adds.

(** But a row formatted while the number of columns changed, or before, is
    refused, and nothing is called or changed. *)
Theorem C71_rejected : forall Item Val E G L W (env : surroundings Item Val E G L W) c item w0 m0 w' m' texts tr a w2 m2, lrun env (FormatItemL c item) w0 m0 = (w', m', Ok texts, tr) ->
  hLen (lSlice m2) <> hLen (lSlice m0) ->
  lrun env (AlignFormattedItemL {| hArr := a; hLen := List.length texts |}) w2 m2 = (w2, m2, Err (Z.of_nat (hLen (lSlice m0)), Z.of_nat (hLen (lSlice m2))), []).
Proof. exact @format_then_align. Qed.
Print Assumptions C71_rejected.

Example C71_format_example :
  outcome_of (fmt 1 more) = Ok [lit "x*"%string; lit "x**"%string] /\ columns_after (fmt 1 more) = 3%nat /\
  outcome_of (lrun (acting 99 more) (AlignFormattedItemL {| hArr := 0; hLen := 2 |}) 0%nat (snd (fst (fst (fmt 1 more))))) = Err (2, 3).
Proof. exact format_more_example. Qed.

Example C71_renamed_example :
  outcome_of (fmt 0 renamed) = Ok [lit "x**"%string; lit "x**"%string] /\
  acts (snd (fmt 0 renamed)) =
    [Called (CValue 1%nat (lit "x"%string)) (Ok (lit "x"%string)); Called (CFormat 2%nat (lit "x"%string) (lit "x"%string)) (Ok (lit "x**"%string)); Raised cB 3;
     Called (CValue 2%nat (lit "x"%string)) (Ok (lit "x"%string)); Called (CFormat 2%nat (lit "x"%string) (lit "x"%string)) (Ok (lit "x**"%string)); Raised cB 3].
Proof. exact format_renamed_example. Qed.

Example C71_basic_example :
  let x := lrun (acting 0 more) (FormatItemBasicL (lit "x"%string) wsep) 0%nat two in outcome_of x = Ok (lit "A|B"%string) /\ columns_after x = 3%nat.
Proof. exact basic_more_example. Qed.

Example C71_align_example :
  let m := {| lCols := lCols two; lArrs := lArrs two; lSlice := lSlice two; lRows := [[cB; cA]]; lWidths := lWidths two |} in
  let x := lrun (acting 0 more) (AlignFormattedItemL {| hArr := 0; hLen := 2 |}) 0%nat m in
  Valid m /\ outcome_of x = Ok {| hArr := 0; hLen := 2 |} /\ columns_after x = 3%nat /\ row_in (snd (fst (fst x))) {| hArr := 0; hLen := 2 |} = [cB; cA].
Proof. exact align_more_example. Qed.

Example C71_adds_example : forall t, OnlyAdds (acting t more) /\ RowsKept (acting t more) /\ Valid two /\ cols_now two = map Some [kA; kBare].
Proof. intros t. split; [apply acting_adds|]. split; [apply acting_adds|]. exact two_valid. Qed.

(** [AddColumn] does no more than that, whether the array has room or not. *)
Theorem C71_add_column : forall G L (m : lmem G L) p spare, Valid m -> Adds m (add_column m p spare).
Proof. exact @add_adds. Qed.
Print Assumptions C71_add_column.

Example C71_add_example : hArr (lSlice (more two)) = 0%nat /\ hArr (lSlice (more (more two))) = 1%nat /\
  cols_now (more (more two)) = map Some [kA; kBare; kA; kA] /\ Valid (more (more two)).
Proof. exact add_example. Qed.

(** If a merge of a list that is not empty ends without a panic although columns
    were added, it called and printed what it does with the columns there were
    (for [Prints] and [Searches] see C68). *)
Theorem C71_plain : forall Item Val E G L W (env : surroundings Item Val E G L W) md fuel c cols maxWidth sep w0 m0 w' m' tr, OnlyAdds env -> RowsKept env -> Valid m0 -> cols_now m0 = map Some cols ->
  lrun env (mergeL md fuel c maxWidth sep false) w0 m0 = (w', m', Some (Ok tt), tr) -> (forall n, In (Called CLen (Ok n)) (acts tr) -> 0 < n) ->
  exists g rest lines, Z.of_nat g = kestimate (lWidths m0) cols sep maxWidth /\ acts tr = looks (lWidths m0) cols ++ rest /\ Prints c cols sep md g true lines rest.
Proof. exact @plain_adds. Qed.
Print Assumptions C71_plain.

(** So for compact merging. *)
Theorem C71_compact : forall Item Val E G L W (env : surroundings Item Val E G L W) md fuel c cols maxWidth sep w0 m0 w' m' tr, OnlyAdds env -> RowsKept env -> Valid m0 -> cols_now m0 = map Some cols ->
  lrun env (mergeL md fuel c maxWidth sep true) w0 m0 = (w', m', Some (Ok tt), tr) -> (forall n, In (Called CLen (Ok n)) (acts tr) -> 0 < n) ->
  exists g0 g Wd search print lines, Z.of_nat g0 = kestimate (lWidths m0) cols sep maxWidth /\ acts tr = looks (lWidths m0) cols ++ search ++ print /\
    Searches c md cols sep maxWidth g0 None search g Wd /\
    match Wd with None => Prints c cols sep md g true lines print | Some Wg => Prints c cols sep md g false lines print /\ UsesWidths Wg lines end.
Proof. exact @compact_adds. Qed.
Print Assumptions C71_compact.

(** If it panics, a column was added, or it is as in C68. *)
Theorem C71_blame : forall Item Val E G L W (env : surroundings Item Val E G L W) md fuel c cols maxWidth sep compact w0 m0 w' m' p tr, OnlyAdds env -> RowsKept env -> Valid m0 -> cols_now m0 = map Some cols ->
  lrun env (mergeL md fuel c maxWidth sep compact) w0 m0 = (w', m', Some (Panic p), tr) -> Counts (acts tr) ->
  kreckoned (lWidths m0) cols sep mod 65536 <> 0 -> (hLen (lSlice m0) < hLen (lSlice m'))%nat \/ Blame (List.length cols) (acts tr) p.
Proof. exact @blame_adds. Qed.
Print Assumptions C71_blame.

(** And plain merging does end with a panic if there are more columns than at its
    start when it has been handed an item. *)
Theorem C71_grown : forall Item Val E G L W (env : surroundings Item Val E G L W) md fuel c maxWidth sep w0 m0 w' m' tr, lrun env (mergeL md fuel c maxWidth sep false) w0 m0 = (w', m', Some (Ok tt), tr) ->
  forall x i a, In x tr -> eAct x = LCalled (CGet i) a -> (hLen (lSlice (eAfter x)) <= hLen (lSlice m0))%nat.
Proof. exact @plain_few. Qed.
Print Assumptions C71_grown.

(** However the columns and rows change: the items asked for are among those the
    list had when last asked for its length; each line written is of items with
    as many cells as there were columns at the start; no width is recorded and no
    row changed. *)
Theorem C71_cells : forall Item Val E G L W (env : surroundings Item Val E G L W) md fuel c maxWidth sep compact w0 m0 w' m' r tr, lrun env (mergeL md fuel c maxWidth sep compact) w0 m0 = (w', m', r, tr) ->
  AsksWithin None (acts tr) /\
  (forall x text a, In x tr -> eAct x = LCalled (CWrite text) a -> LineOf (hLen (lSlice m0)) sep text) /\
  (forall x, In x tr -> match eAct x with LRaised _ _ | LStored _ _ _ => False | _ => True end).
Proof. exact @any_text. Qed.
Print Assumptions C71_cells.

Example C71_merge_example :
  (outcome_of (mrg 1 more false) = Some (Panic IndexOutOfRange) /\ written (mrg 1 more false) = []) /\
  (outcome_of (mrg 4 more false) = Some (Panic IndexOutOfRange) /\ written (mrg 4 more false) = [lit "* A
"%string]) /\
  (outcome_of (mrg 12 more false) = Some (Ok tt) /\ columns_after (mrg 12 more false) = 3%nat /\ written (mrg 12 more false) = [lit "* A
"%string; lit "** A
"%string; lit "*** A
"%string]).
Proof. exact merge_more_example. Qed.

Example C71_fewer_example :
  outcome_of (mrg 4 fewer false) = Some (Ok tt) /\ written (mrg 4 fewer false) = [lit "* A
"%string; lit "** 
"%string; lit "*** 
"%string].
Proof. exact merge_fewer_example. Qed.

Example C71_compact_example :
  (outcome_of (mrg 25 more true) = Some (Ok tt) /\ columns_after (mrg 25 more true) = 3%nat /\ written (mrg 25 more true) = [lit "* A|*** A
"%string; lit "** A|
"%string]) /\ forallb goodb (acts (snd (mrg 25 more true))) = true /\
  (outcome_of (mrg 23 more true) = Some (Ok tt) /\ columns_after (mrg 23 more true) = 3%nat) /\
  (outcome_of (mrg 3 more true) = Some (Panic IndexOutOfRange) /\ written (mrg 3 more true) = []).
Proof. exact merge_compact_example. Qed.

Example C71_blame_example : kreckoned (lWidths two) [kA; kBare] wsep mod 65536 <> 0.
Proof. exact merge_blame_example. Qed.

(** With columns added a merge can panic although no object called fails and no
    row is too short, even for the columns there are then. *)
Theorem C71_grown_refuted : exists (env : surroundings str str str nat nat nat) c maxWidth sep m0 w' m' p tr, OnlyAdds env /\ RowsKept env /\ Valid m0 /\
  lrun env (mergeL V 9 c maxWidth sep false) 0%nat m0 = (w', m', Some (Panic p), tr) /\ ~ Blame (hLen (lSlice m')) (acts tr) p.
Proof. exact grown_refuted. Qed.
Print Assumptions C71_grown_refuted.
