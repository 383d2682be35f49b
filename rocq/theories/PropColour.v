(** * PropColour: colours stay in their cells (C106). *)
From Coq Require Import Strings.String.
From Verif Require Import GoBase Utf8 Runewidth ConditionSpec Width TextSpec AlignSpec Table TableContract TableExamples Merge MergeSpec MergeExamples
  WrapSpec TemplateSpec TerminalSpec TerminalCases ColourSpec ColourProofs ColourCases.
Local Open Scope Z_scope.

(** C106: if every cell and the separator leave the terminal printing without
    attributes, a merge is drawn piece by piece: each cell as it is drawn alone,
    the padding and the separator as they are drawn alone; and each line too
    leaves the terminal so, whether or not the merge comes to its end. *)
Theorem C106_merge : forall Item Val E c (t : Table Item Val E) m fuel ok items maxWidth sep compact,
  Forall (fun mc => match mc with Some col => BuiltIn c col | None => True end) (Columns (tSpec t)) ->
  ClosedItems c items -> Closed c sep ->
  let r := merge m fuel c t ok items maxWidth sep compact in
  exists forms, Forall (Forall (Proper Blank sep items)) forms /\ written r = map (fill items) forms
    /\ paint c home (List.concat (written r)) = List.concat (map (fun p => paint c home (filled items p)) (List.concat forms))
    /\ Forall (Closed c) (written r) /\ paint c home (List.concat (written r)) = List.concat (map (paint c home) (written r)).
Proof. exact @merge_paint. Qed.
Print Assumptions C106_merge.

Example C106_merge_example :
  Forall (fun mc => match mc with Some col => BuiltIn exC col | None => True end) (Columns (tSpec mTable))
  /\ ClosedItems exC (listOf cRows) /\ Closed exC mSep
  /\ map (paint exC home) (written (merge H 9 exC mTable (fun _ => true) (listOf cRows) 26 mSep false))
     = [[(97, red_); (98, red_)] ++ bare [32; 32; 32; 32; 32; 49; 50; 32; 124] ++ bare [120; 32; 32; 32; 32; 32; 32; 32] ++ [(51, red_)];
        [(26085, [[49; 59; 51; 50]])] ++ bare [32; 32; 32; 32; 32; 32; 53; 32; 124]].
Proof. exact colour_example. Qed.

(** The padding is spaces without attributes, and a line feed draws nothing. *)
Theorem C106_bare : forall c s, Blank s \/ SimpleText s -> Closed c s /\ paint c home s = bare (runes s).
Proof. exact bare_text. Qed.
Print Assumptions C106_bare.
Theorem C106_line_feed : forall c, Closed c [x0a] /\ paint c home [x0a] = [].
Proof. exact newline_closed. Qed.
Print Assumptions C106_line_feed.

Example C106_bare_example : Blank (lit "   "%string) /\ SimpleText (lit "a b"%string).
Proof. split; [exists 3%nat; reflexivity|apply simple_b_ok; vm_compute; reflexivity]. Qed.

(** Rows: each cell is drawn as before, with bare spaces around it. *)
Theorem C106_align : forall Item Val E c (t : Table Item Val E) row cells,
  Forall (fun mc => match mc with Some col => BuiltIn c col | None => True end) (Columns (tSpec t)) ->
  (forall name, 0 <= Width t name < 65536) -> Forall (Closed c) row -> snd (AlignFormattedItem t row) = Ok cells ->
  Forall2 (Around c) row cells.
Proof. exact @align_paint. Qed.
Print Assumptions C106_align.

Example C106_align_example :
  Forall (fun mc => match mc with Some col => BuiltIn exC col | None => True end) (Columns (tSpec mTable))
  /\ (forall name, 0 <= Width mTable name < 65536) /\ Forall (Closed exC) [red "ab"%string; red "3"%string]
  /\ snd (AlignFormattedItem mTable [red "ab"%string; red "3"%string])
     = Ok [red "ab"%string ++ lit "    "%string; lit " "%string ++ red "3"%string].
Proof. exact align_example. Qed.

(** A cell does not change how what follows is drawn, if and only if it leaves
    the terminal so. *)
Theorem C106_only : forall c a, ValidUTF8 a ->
  (Closed c a <-> forall b, paint c home (a ++ b) = paint c home a ++ paint c home b).
Proof. exact only_closed. Qed.
Print Assumptions C106_only.

Example C106_only_example : ValidUTF8 open_red /\ tMode (show exC home open_red) = Ground /\ ~ Closed exC open_red
  /\ Closed exC (red "ab"%string) /\ Closed exC (open_red ++ attr "0;00"%string).
Proof. exact next_example. Qed.

(** The usual way to colour a cell, ESC [ p m before and ESC [ m behind, is
    enough, and the text between is drawn with [p]. *)
Theorem C106_coloured : forall c p s, Forall (fun b => 0x20 <= bv b <= 0x3F) p ->
  (ValidUTF8 s -> tMode (show c home s) = Ground -> Closed c (coloured p s)) /\
  (SimpleText s -> paint c home (coloured p s) = map (fun r => (r, in_force [map bv p])) (runes s)).
Proof. exact coloured_both. Qed.
Print Assumptions C106_coloured.

Example C106_coloured_example : Forall (fun b => 0x20 <= bv b <= 0x3F) (lit "31"%string) /\ SimpleText (lit "ab"%string)
  /\ coloured (lit "31"%string) (lit "ab"%string) = x1b :: lit "[31mab"%string ++ x1b :: lit "[m"%string
  /\ paint exC home (coloured (lit "31"%string) (lit "ab"%string)) = [(97, [[51; 49]]); (98, [[51; 49]])].
Proof.
  split; [repeat constructor; vm_compute; discriminate|]. split; [apply simple_b_ok; vm_compute; reflexivity|]. split; vm_compute; reflexivity.
Qed.

(** Without it the colour of one cell spreads over the padding, the cells after
    it and the lines after its own. *)
Theorem C106_leak_refuted : exists c (t : Table (list str) str str) (rows : list (list str)) sep, Reachable c
  /\ Forall (fun mc => match mc with Some col => BuiltIn c col | None => True end) (Columns (tSpec t))
  /\ Forall (Forall ValidUTF8) rows /\ Forall (Forall (fun s => tMode (show c home s) = Ground)) rows /\ Closed c sep
  /\ exists first second, written (merge H 9 c t (fun _ => true) (listOf rows) 12 sep false) = [first; second]
  /\ paint c home (first ++ second) <> paint c home first ++ paint c home second
  /\ paint c home second = bare [120; 32; 32; 32; 32; 32; 32; 32; 51]
  /\ Forall (fun x => snd x = [[51; 49]]) (paint c home (first ++ second)).
Proof. exact leak_refuted. Qed.
Print Assumptions C106_leak_refuted.
