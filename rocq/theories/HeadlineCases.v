(** * HeadlineCases: headers above merged rows, concretely. *)
From Coq Require Import Strings.String.
From Verif Require Import GoBase Utf8 Runewidth ConditionSpec Width TextSpec AlignSpec Table TableContract TableExamples
  Merge MergeSpec MergeExamples TerminalSpec TerminalProofs TerminalMerge TerminalCases HeadlineSpec HeadlineProofs.
Local Open Scope Z_scope.

Lemma mPositive : forall col, In col mCols -> 0 < Width mTable (colName col).
Proof. intros col [<-|[<-|[]]]; vm_compute; reflexivity. Qed.
Lemma mTitles : Forall (fun col => Styled (colTitle col) /\ Styled (colShortTitle col)) mCols.
Proof.
  repeat (apply Forall_cons; [split; apply st_end, simple_b_ok; vm_compute; reflexivity|]). apply Forall_nil.
Qed.

Lemma headline_example : Printable mTable mCols (listOf sRows) sRows /\ Reachable exC /\ Forall (BuiltIn exC) mCols
  /\ Forall (Forall (fun s => Styled s /\ rawWidth exC s < 65536)) sRows
  /\ (forall name, 0 <= Width mTable name < 65536) /\ (forall col, In col mCols -> 0 < Width mTable (colName col))
  /\ Forall (fun col => Styled (colTitle col) /\ Styled (colShortTitle col)) mCols
  /\ Styled mSep /\ reckoned mTable mCols mSep mod 65536 <> 0 /\ FitsRecorded exC mTable mCols sRows
  /\ estimate mTable mCols mSep 26 = 2
  /\ FormatHeader exC mTable [space] = Ok (lit " Name   S"%string ++ [space; x0a]) :> outcome str str
  /\ headline mSep (lit " Name   S"%string) 2 = lit " Name   S | Name   S"%string
  /\ written (merge H 9 exC mTable (fun _ => true) (listOf sRows) 26 mSep false)
     = [bold (lit "go.mod"%string) ++ lit " 12 |"%string ++ bold (lit "x"%string) ++ lit "       3"%string ++ [x0a];
        bold [xe6; x97; xa5] ++ lit "      5 |"%string ++ [x0a]].
Proof.
  destruct merged_hypotheses as (A & B & C & D & F & G & J & K & L & M).
  do 5 (split; [assumption|]). split; [exact mPositive|]. split; [exact mTitles|].
  do 3 (split; [assumption|]). do 3 (split; [vm_compute; reflexivity|]). exact M.
Qed.

Lemma number_example : TableWidth mTable 2 = Ok 10 :> outcome str Z /\ estimate mTable mCols mSep 26 = Z.max 1 ((26 + 2) / (10 + 2)).
Proof. split; vm_compute; reflexivity. Qed.

Lemma fits_example : mSep <> [] /\ 26 + slen mSep < 65536 /\ reckoned mTable mCols mSep < 65536 /\ zsum (recorded mTable mCols) + slen mCols - 1 <= 26
  /\ tCol (show exC home (headline mSep (lit " Name   S"%string) 2)) = 20.
Proof. repeat split; try discriminate; vm_compute; reflexivity. Qed.

(** Compact: the second field of the second item stands under no title. *)
Lemma compact_crooked : exists header before after line rest hbefore hafter,
  FormatHeader exC mTable [space] = Ok (header ++ [space; x0a]) :> outcome str str
  /\ written (merge H 9 exC mTable (fun _ => true) (listOf mRows) 26 mSep true) = line :: rest
  /\ line = before ++ lit "3"%string ++ after
  /\ headline mSep header 2 = hbefore ++ lit " S"%string ++ hafter /\ hafter = []
  /\ tCol (show exC home before) = 13 /\ tCol (show exC home hbefore) = 18.
Proof.
  exists (lit " Name   S"%string), (lit "go.mod 12 |x "%string), (lit " |"%string ++ [xe6; x97; xa5] ++ lit " 5 |ab 7"%string ++ [x0a]),
    (lit "go.mod 12 |x 3 |"%string ++ [xe6; x97; xa5] ++ lit " 5 |ab 7"%string ++ [x0a]), [lit "c       9 |"%string ++ [x0a]],
    (lit " Name   S | Name  "%string), [].
  repeat split; vm_compute; reflexivity.
Qed.

(** A column of empty cells only: its title takes room all the same. *)
Definition zTable : Table (list str) str str := fst (UpdateWidth (E := str) exTable [(lit "name"%string, 6)]).
Definition zRows : list (list str) := [[lit "go.mod"%string; []]; [lit "x"%string; []]].
Lemma empty_crooked : exists header before after hbefore hafter,
  Printable zTable mCols (listOf zRows) zRows /\ FitsRecorded exC zTable mCols zRows /\ reckoned zTable mCols mSep mod 65536 <> 0
  /\ FormatHeader exC zTable [space] = Ok (header ++ [space; x0a]) :> outcome str str
  /\ estimate zTable mCols mSep 26 = 2
  /\ written (merge H 9 exC zTable (fun _ => true) (listOf zRows) 26 mSep false) = [before ++ lit "x     "%string ++ after]
  /\ headline mSep header 2 = hbefore ++ lit " Name "%string ++ hafter
  /\ tCol (show exC home before) = 9 /\ tCol (show exC home hbefore) = 13.
Proof.
  exists (lit " Name  Size"%string), (lit "go.mod  |"%string), (lit " "%string ++ [x0a]), (lit " Name  Size |"%string), (lit " Size"%string).
  split; [split; [reflexivity|apply listOf_serves|repeat constructor]|]. split.
  { intros row i s col Hrow Hs Hcol. cbn in Hrow.
    destruct Hrow as [<-|[<-|[]]]; destruct i as [|[|i]]; cbn in Hs, Hcol; try discriminate;
      try (destruct i; discriminate); injection Hs as <-; injection Hcol as <-; vm_compute; discriminate. }
  split; [vm_compute; discriminate|]. repeat split; vm_compute; reflexivity.
Qed.
