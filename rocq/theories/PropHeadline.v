(** * PropHeadline: a header above merged rows (C109). *)
From Coq Require Import Strings.String.
From Verif Require Import GoBase Utf8 Runewidth ConditionSpec Width TextSpec AlignSpec Table TableContract TableExamples
  Merge MergeSpec MergeExamples TerminalSpec TerminalProofs TerminalMerge TerminalCases HeadlineSpec HeadlineProofs HeadlineCases.
Local Open Scope Z_scope.

(** ** C109 *)

(** Title [i] of copy [k] and field [i] of the [k]th item of every line take
    the same columns of the screen. *)
Theorem C109_above : forall (Item Val E : Type) c (t : Table Item Val E) cols items rows,
  Printable t cols items rows -> Reachable c -> Forall (BuiltIn c) cols ->
  Forall (Forall (fun s => Styled s /\ rawWidth c s < 65536)) rows ->
  (forall name, 0 <= Width t name < 65536) -> (forall col, In col cols -> 0 < Width t (colName col)) ->
  Forall (fun col => Styled (colTitle col) /\ Styled (colShortTitle col)) cols ->
  forall m fuel sep maxWidth, Styled sep -> reckoned t cols sep mod 65536 <> 0 -> FitsRecorded c t cols rows ->
  let r := merge m fuel c t (fun _ => true) items maxWidth sep false in
  exists header g lines (start : nat -> nat -> Z),
    FormatHeader c t [space] = Ok (header ++ [space; x0a]) :> outcome E str
    /\ Z.of_nat g = estimate t cols sep maxWidth /\ stop r = Finished /\ Layout m g rows lines
    /\ List.length (written r) = List.length lines
    /\ (forall k i col, (k < g)%nat -> nth_error cols i = Some col ->
        exists before p q after st st', headline sep header g = before ++ (spaces p ++ title_for col (Width t (colName col)) ++ spaces q) ++ after
          /\ show c home before = mkT Ground (start k i) st
          /\ show c home (before ++ spaces p ++ title_for col (Width t (colName col)) ++ spaces q) = mkT Ground (start k i + Width t (colName col)) st')
    /\ (forall l line txt k row i s col, nth_error lines l = Some line -> nth_error (written r) l = Some txt ->
        nth_error line k = Some row -> nth_error row i = Some s -> nth_error cols i = Some col ->
        exists before p q after st st', txt = before ++ (spaces p ++ s ++ spaces q) ++ after ++ [x0a]
          /\ show c home before = mkT Ground (start k i) st
          /\ show c home (before ++ spaces p ++ s ++ spaces q) = mkT Ground (start k i + Width t (colName col)) st').
Proof. exact @headline_above. Qed.
Print Assumptions C109_above.

Example C109_above_example : Printable mTable mCols (listOf sRows) sRows /\ Reachable exC /\ Forall (BuiltIn exC) mCols
  /\ Forall (Forall (fun s => Styled s /\ rawWidth exC s < 65536)) sRows
  /\ (forall name, 0 <= Width mTable name < 65536) /\ (forall col, In col mCols -> 0 < Width mTable (colName col))
  /\ Forall (fun col => Styled (colTitle col) /\ Styled (colShortTitle col)) mCols
  /\ Styled mSep /\ reckoned mTable mCols mSep mod 65536 <> 0 /\ FitsRecorded exC mTable mCols sRows
  /\ estimate mTable mCols mSep 26 = 2
  /\ FormatHeader exC mTable [space] = Ok (lit " Name   S"%string ++ [space; x0a]) :> outcome str str
  /\ headline mSep (lit " Name   S"%string) 2 = lit " Name   S | Name   S"%string
  /\ written (merge H 9 exC mTable (fun _ => true) (listOf sRows) 26 mSep false)
     = [bold (lit "go.mod"%string) ++ lit " 12 |"%string ++ bold (lit "x"%string) ++ lit "       3"%string ++ [x0a];
        bold [xe6; x97; xa5] ++ lit "      5 |"%string ++ [x0a]].
Proof. exact headline_example. Qed.

(** The number of copies, from the function a caller has. *)
Theorem C109_number : forall (Item Val E : Type) (t : Table Item Val E) cols sep maxWidth, Columns (tSpec t) = map Some cols ->
  exists tw, TableWidth t (slen sep mod 65536) = Ok tw :> outcome E Z
    /\ estimate t cols sep maxWidth = Z.max 1 (((effective maxWidth + slen sep) mod 65536) / ((tw + slen sep) mod 65536)).
Proof. exact @groups_number. Qed.
Print Assumptions C109_number.

Example C109_number_example : TableWidth mTable 2 = Ok 10 :> outcome str Z /\ estimate mTable mCols mSep 26 = Z.max 1 ((26 + 2) / (10 + 2)).
Proof. exact number_example. Qed.

(** It fits the screen if one item does. *)
Theorem C109_fits : forall (Item Val E : Type) c (t : Table Item Val E) cols sep maxWidth header g,
  Reachable c -> Columns (tSpec t) = map Some cols -> cols <> [] ->
  (forall name, 0 <= Width t name < 65536) -> (forall col, In col cols -> 0 < Width t (colName col)) ->
  Forall (fun col => Styled (colTitle col) /\ Styled (colShortTitle col)) cols -> Styled sep -> sep <> [] ->
  0 <= maxWidth -> maxWidth + slen sep < 65536 -> reckoned t cols sep < 65536 -> zsum (recorded t cols) + slen cols - 1 <= maxWidth ->
  FormatHeader c t [space] = Ok (header ++ [space; x0a]) :> outcome E str -> Z.of_nat g = estimate t cols sep maxWidth ->
  tMode (show c home (headline sep header g)) = Ground /\ 0 <= tCol (show c home (headline sep header g)) <= maxWidth.
Proof. exact @headline_fits. Qed.
Print Assumptions C109_fits.

Example C109_fits_example : mSep <> [] /\ 26 + slen mSep < 65536 /\ reckoned mTable mCols mSep < 65536 /\ zsum (recorded mTable mCols) + slen mCols - 1 <= 26
  /\ tCol (show exC home (headline mSep (lit " Name   S"%string) 2)) = 20.
Proof. exact fits_example. Qed.

(** Not so for compact merging, whose columns are narrower. *)
Theorem C109_compact_refuted : exists header before after line rest hbefore hafter,
  FormatHeader exC mTable [space] = Ok (header ++ [space; x0a]) :> outcome str str
  /\ written (merge H 9 exC mTable (fun _ => true) (listOf mRows) 26 mSep true) = line :: rest
  /\ line = before ++ lit "3"%string ++ after
  /\ headline mSep header 2 = hbefore ++ lit " S"%string ++ hafter /\ hafter = []
  /\ tCol (show exC home before) = 13 /\ tCol (show exC home hbefore) = 18.
Proof. exact compact_crooked. Qed.
Print Assumptions C109_compact_refuted.

(** Nor with a column of no width, which takes none in a row but has its title in the header. *)
Theorem C109_empty_refuted : exists header before after hbefore hafter,
  Printable zTable mCols (listOf zRows) zRows /\ FitsRecorded exC zTable mCols zRows /\ reckoned zTable mCols mSep mod 65536 <> 0
  /\ FormatHeader exC zTable [space] = Ok (header ++ [space; x0a]) :> outcome str str
  /\ estimate zTable mCols mSep 26 = 2
  /\ written (merge H 9 exC zTable (fun _ => true) (listOf zRows) 26 mSep false) = [before ++ lit "x     "%string ++ after]
  /\ headline mSep header 2 = hbefore ++ lit " Name "%string ++ hafter
  /\ tCol (show exC home before) = 9 /\ tCol (show exC home hbefore) = 13.
Proof. exact empty_crooked. Qed.
Print Assumptions C109_empty_refuted.
