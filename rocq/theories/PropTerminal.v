(** * PropTerminal: what a terminal shows of measured, aligned and merged text (C64). *)
From Coq Require Import Strings.String.
From Verif Require Import GoBase Utf8 Runewidth ConditionSpec Width EscapeSpec TextSpec AlignSpec Table TableContract TableExamples
  Merge MergeSpec MergeExamples TerminalSpec TerminalProofs TerminalMerge TerminalCases.
Local Open Scope Z_scope.

(** ** C64 *)

(** Printing styled text moves the cursor by its width. *)
Theorem C64_measured : forall c s x st, Reachable c -> Styled s -> rawWidth c s < 65536 ->
  exists st', show c (mkT Ground x st) s = mkT Ground (x + vwidth c s) (st' ++ st).
Proof. exact measured. Qed.
Print Assumptions C64_measured.

Example C64_measured_example : Styled (bold (lit "ab"%string ++ [xea; xb0; x80] ++ [xe2; x98; x80]))
  /\ show exC home (bold (lit "ab"%string ++ [xea; xb0; x80] ++ [xe2; x98; x80])) = mkT Ground 5 [[48]; [49]].
Proof. exact styled_example. Qed.

(** Aligned to [w] cells, the cursor ends [w] cells on, or as far as the text
    goes; the attributes are those the text left. *)
Theorem C64_aligned : forall a c s w x st, Reachable c -> Styled s -> rawWidth c s < 65536 -> 0 <= w < 65536 ->
  tMode (show c (mkT Ground x st) (align a c s w)) = Ground
  /\ tCol (show c (mkT Ground x st) (align a c s w)) = Z.max w (tCol (show c (mkT Ground 0 st) s)) + x
  /\ tStyle (show c (mkT Ground x st) (align a c s w)) = tStyle (show c (mkT Ground x st) s).
Proof. exact aligned_shown. Qed.
Print Assumptions C64_aligned.

Example C64_aligned_example : show exC (mkT Ground 3 []) (align ACenter exC (bold (lit "ab"%string)) 7) = mkT Ground 10 [[48]; [49]].
Proof. vm_compute. reflexivity. Qed.

(** Formatted and aligned rows: the cells of a column start at one column of
    the screen in every row. *)
Theorem C64_rows : forall (Item Val E : Type) c (spec : option (TableSpec Item Val E)) ops items t' rows cols sep,
  Reachable c -> Forall uint16_op ops ->
  Formats c (table_run (NewTable spec) ops) items t' rows ->
  Columns (tSpec (table_run (NewTable spec) ops)) = map Some cols ->
  Forall (fun col => exists a, colAlignment col = Some (align a c)) cols ->
  Forall (Forall (fun cell => Styled cell /\ rawWidth c cell < 65536)) rows -> Styled sep ->
  forall row, In row rows -> exists cells, AlignFormattedItem t' row = (cells, Ok cells)
    /\ List.length cells = List.length cols
    /\ forall n, exists st, show c home (List.concat (map (fun cell => cell ++ sep) (firstn n cells)))
        = mkT Ground (zsum (map (fun col => Width t' (colName col) + rawWidth c sep) (firstn n cols))) st.
Proof. exact @rows_shown. Qed.
Print Assumptions C64_rows.

Example C64_rows_example : exists t', Formats exC exTable sRows t' sRows
  /\ Columns (tSpec exTable) = map Some mCols
  /\ Forall (fun col => exists a, colAlignment col = Some (align a exC)) mCols
  /\ Forall (Forall (fun s => Styled s /\ rawWidth exC s < 65536)) sRows /\ Styled mSep
  /\ map (fun row => map (fun n => tCol (show exC home (List.concat (map (fun cell => cell ++ mSep) (firstn n (fst (AlignFormattedItem t' row))))))) [1; 2]%nat) sRows
     = [[8; 12]; [8; 12]; [8; 12]].
Proof. exact rows_hypotheses. Qed.

(** Merged rows: field [i] of the [k]th item of a line takes the same columns
    of the screen in every line. *)
Theorem C64_merged : forall (Item Val E : Type) c (t : Table Item Val E) cols items rows,
  Printable t cols items rows -> Reachable c -> Forall (BuiltIn c) cols ->
  Forall (Forall (fun s => Styled s /\ rawWidth c s < 65536)) rows ->
  (forall name, 0 <= Width t name < 65536) ->
  forall m fuel sep maxWidth compact, Styled sep -> reckoned t cols sep mod 65536 <> 0 -> FitsRecorded c t cols rows ->
  let r := merge m fuel c t (fun _ => true) items maxWidth sep compact in
  stop r = Finished ->
  exists g lines (start width : nat -> nat -> Z), (1 <= g)%nat /\ Layout m g rows lines /\ List.length (written r) = List.length lines
    /\ forall l line txt k row i s, nth_error lines l = Some line -> nth_error (written r) l = Some txt ->
       nth_error line k = Some row -> nth_error row i = Some s -> (i < List.length cols)%nat ->
       exists before p q after st st', txt = before ++ (spaces p ++ s ++ spaces q) ++ after ++ [x0a]
         /\ show c home before = mkT Ground (start k i) st
         /\ show c home (before ++ spaces p ++ s ++ spaces q) = mkT Ground (start k i + width k i) st'.
Proof. exact @merged_shown. Qed.
Print Assumptions C64_merged.

Example C64_merged_example : Printable mTable mCols (listOf sRows) sRows /\ Reachable exC /\ Forall (BuiltIn exC) mCols
  /\ Forall (Forall (fun s => Styled s /\ rawWidth exC s < 65536)) sRows
  /\ (forall name, 0 <= Width mTable name < 65536) /\ Styled mSep /\ reckoned mTable mCols mSep mod 65536 <> 0
  /\ FitsRecorded exC mTable mCols sRows
  /\ stop (merge H 9 exC mTable (fun _ => true) (listOf sRows) 26 mSep false) = Finished
  /\ written (merge H 9 exC mTable (fun _ => true) (listOf sRows) 26 mSep false)
     = [bold (lit "go.mod"%string) ++ lit " 12 |"%string ++ bold (lit "x"%string) ++ lit "       3"%string ++ [x0a];
        bold [xe6; x97; xa5] ++ lit "      5 |"%string ++ [x0a]].
Proof. exact merged_hypotheses. Qed.

(** Which attribute sequences ESC [ p m measure nothing: those of numbers of
    at most four digits divided by semicolons. *)
Theorem C64_attributes : forall c p, Reachable c -> Forall (fun b => oneof "0123456789;:" (bv b)) p ->
  (rawWidth c (x1b :: x5b :: p ++ [x6d]) = 0 <-> ShortNumbers p).
Proof. exact attribute_zero. Qed.
Print Assumptions C64_attributes.

Example C64_attributes_example : ShortNumbers (lit "38;5;1234;;0"%string) /\ ~ ShortNumbers (lit "38;12345"%string).
Proof. exact attribute_example. Qed.

(** A terminal hides more than that: attributes with colons, and links. *)
Theorem C64_colon_refuted : exists c e, Reachable c /\ tCol (show c home e) = 0 /\ tMode (show c home e) = Ground
  /\ tStyle (show c home e) <> [] /\ vwidth c e = 3.
Proof. exact colon_refuted. Qed.
Print Assumptions C64_colon_refuted.

Theorem C64_link_refuted : exists c s w, Reachable c /\ vwidth c s = w /\ tMode (show c home s) = Ground
  /\ tCol (show c home (align ALeft c s w)) < w.
Proof. exact link_refuted. Qed.
Print Assumptions C64_link_refuted.

(** A sequence that moves the cursor measures nothing. *)
Theorem C64_moving_refuted : exists c e, Reachable c /\ EscSequence e /\ vwidth c e = 0 /\ tCol (show c home e) = 5.
Proof. exact moving_refuted. Qed.
Print Assumptions C64_moving_refuted.

(** Joined runes: the library counts clusters, this terminal counts runes. *)
Theorem C64_joined_refuted : exists c s, Reachable c /\ ValidUTF8 s /\ vwidth c s < tCol (show c home s).
Proof. exact joined_refuted. Qed.
Print Assumptions C64_joined_refuted.
