(** * PropElsewhere: a table measured for one terminal and shown on another (C108). *)
From Coq Require Import Strings.String.
From Verif Require Import GoBase Utf8 Runewidth ConditionSpec Width TextSpec AlignSpec Table TableContract TableExamples
  Merge MergeSpec MergeExamples TerminalSpec TerminalProofs TerminalMerge TerminalCases ElsewhereSpec ElsewhereProofs ElsewhereCases.
Local Open Scope Z_scope.

(** ** C108 *)

(** How much further a text goes on the other terminal: rune by rune. *)
Theorem C108_runes : forall c d s, Reachable c -> Reachable d -> Styled s ->
  excess c d s = zsum (map (fun r => RuneWidth d r - RuneWidth c r) (runes s)).
Proof. exact excess_runes. Qed.
Print Assumptions C108_runes.

(** On an East Asian terminal: one cell for each rune whose widths differ. *)
Theorem C108_counts : forall st st' s, Styled s ->
  excess (plainCondition false st) (plainCondition true st') s
  = slen (filter (differs (plainCondition false st) (plainCondition true st')) (runes s)).
Proof. exact excess_counts. Qed.
Print Assumptions C108_counts.

Example C108_counts_example : Styled (bold (pm ++ lit "5 "%string ++ pm)) /\ excess exC eaC (bold (pm ++ lit "5 "%string ++ pm)) = 2
  /\ slen (filter (differs exC eaC) (runes (bold (pm ++ lit "5 "%string ++ pm)))) = 2.
Proof. exact counts_example. Qed.

(** Rows formatted and aligned for [c], shown on [d]. *)
Theorem C108_rows : forall (Item Val E : Type) c d (spec : option (TableSpec Item Val E)) ops items t' rows cols sep,
  Reachable c -> Reachable d -> Forall uint16_op ops ->
  Formats c (table_run (NewTable spec) ops) items t' rows ->
  Columns (tSpec (table_run (NewTable spec) ops)) = map Some cols ->
  Forall (fun col => exists a, colAlignment col = Some (align a c)) cols ->
  Forall (Forall (fun cell => Styled cell /\ rawWidth c cell < 65536)) rows -> Styled sep ->
  forall row, In row rows -> exists cells, AlignFormattedItem t' row = (cells, Ok cells)
    /\ List.length cells = List.length cols
    /\ forall n, exists st, show d home (List.concat (map (fun cell => cell ++ sep) (firstn n cells)))
        = mkT Ground (zsum (map (fun col => Width t' (colName col) + rawWidth d sep) (firstn n cols)) + excesses c d (firstn n row)) st.
Proof. exact @rows_elsewhere. Qed.
Print Assumptions C108_rows.

Example C108_rows_example : exists t', Formats exC exTable eRows t' eRows
  /\ Columns (tSpec exTable) = map Some mCols
  /\ Forall (fun col => exists a, colAlignment col = Some (align a exC)) mCols
  /\ map (fun row => map (fun n => tCol (show eaC home (List.concat (map (fun cell => cell ++ mSep) (firstn n (fst (AlignFormattedItem t' row))))))) [1; 2]%nat) eRows
     = [[5; 9]; [4; 8]; [4; 8]]
  /\ map (fun row => map (fun n => excesses exC eaC (firstn n row)) [1; 2]%nat) eRows = [[1; 1]; [0; 0]; [0; 0]].
Proof. exact rows_elsewhere_example. Qed.

(** Rows merged for [c], shown on [d]: a field is moved by what the fields
    before it in its line add, and by nothing else that depends on the line. *)
Theorem C108_merged : forall (Item Val E : Type) c d (t : Table Item Val E) cols items rows,
  Printable t cols items rows -> Reachable c -> Reachable d -> Forall (BuiltIn c) cols ->
  Forall (Forall (fun s => Styled s /\ rawWidth c s < 65536)) rows ->
  (forall name, 0 <= Width t name < 65536) ->
  forall m fuel sep maxWidth compact, Styled sep -> reckoned t cols sep mod 65536 <> 0 -> FitsRecorded c t cols rows ->
  let r := merge m fuel c t (fun _ => true) items maxWidth sep compact in
  stop r = Finished ->
  exists g lines (start width : nat -> nat -> Z), (1 <= g)%nat /\ Layout m g rows lines /\ List.length (written r) = List.length lines
    /\ forall l line txt k row i s, nth_error lines l = Some line -> nth_error (written r) l = Some txt ->
       nth_error line k = Some row -> nth_error row i = Some s -> (i < List.length cols)%nat ->
       exists before p q after st st', txt = before ++ (spaces p ++ s ++ spaces q) ++ after ++ [x0a]
         /\ show d home before = mkT Ground (start k i + excesses c d (cells_before (List.length cols) line k i)) st
         /\ show d home (before ++ spaces p ++ s ++ spaces q)
            = mkT Ground (start k i + excesses c d (cells_before (List.length cols) line k i) + width k i + excess c d s) st'.
Proof. exact @merged_elsewhere. Qed.
Print Assumptions C108_merged.

Example C108_merged_example : Printable mTable mCols (listOf eRows) eRows /\ Reachable exC /\ Reachable eaC /\ Forall (BuiltIn exC) mCols
  /\ Forall (Forall (fun s => Styled s /\ rawWidth exC s < 65536)) eRows
  /\ (forall name, 0 <= Width mTable name < 65536) /\ Styled mSep /\ reckoned mTable mCols mSep mod 65536 <> 0
  /\ FitsRecorded exC mTable mCols eRows
  /\ stop (merge H 9 exC mTable (fun _ => true) (listOf eRows) 26 mSep false) = Finished.
Proof. exact elsewhere_hypotheses. Qed.

(** No rune in a cell on which the terminals differ: straight on both,
    whatever the separator. *)
Theorem C108_same : forall (Item Val E : Type) c d (t : Table Item Val E) cols items rows,
  Printable t cols items rows -> Reachable c -> Reachable d -> Forall (BuiltIn c) cols ->
  Forall (Forall (fun s => Styled s /\ rawWidth c s < 65536)) rows ->
  Forall (Forall (fun s => forall r, In r (runes s) -> RuneWidth c r = RuneWidth d r)) rows ->
  (forall name, 0 <= Width t name < 65536) ->
  forall m fuel sep maxWidth compact, Styled sep -> reckoned t cols sep mod 65536 <> 0 -> FitsRecorded c t cols rows ->
  let r := merge m fuel c t (fun _ => true) items maxWidth sep compact in
  stop r = Finished ->
  exists g lines (start width : nat -> nat -> Z), (1 <= g)%nat /\ Layout m g rows lines /\ List.length (written r) = List.length lines
    /\ forall l line txt k row i s, nth_error lines l = Some line -> nth_error (written r) l = Some txt ->
       nth_error line k = Some row -> nth_error row i = Some s -> (i < List.length cols)%nat ->
       exists before p q after st st', txt = before ++ (spaces p ++ s ++ spaces q) ++ after ++ [x0a]
         /\ show d home before = mkT Ground (start k i) st
         /\ show d home (before ++ spaces p ++ s ++ spaces q) = mkT Ground (start k i + width k i) st'.
Proof. exact @merged_same. Qed.
Print Assumptions C108_same.

(** The rows of C64's example meet it (their other hypotheses: C64_merged_example). *)
Example C108_same_example : Forall (Forall (fun s => forall r, In r (runes s) -> RuneWidth exC r = RuneWidth eaC r)) sRows.
Proof. exact sRows_same. Qed.

(** Straight on one terminal is not straight on every terminal. *)
Theorem C108_straight_refuted : exists before1 after1 before2 after2,
  written (merge H 9 exC mTable (fun _ => true) (listOf eRows) 26 mSep false) = [before1 ++ lit "12"%string ++ after1; before2 ++ lit " 5"%string ++ after2]
  /\ show exC home before1 = mkT Ground 7 [] /\ show exC home before2 = mkT Ground 7 []
  /\ show eaC home before1 = mkT Ground 8 [] /\ show eaC home before2 = mkT Ground 7 [].
Proof. exact crooked. Qed.
Print Assumptions C108_straight_refuted.
