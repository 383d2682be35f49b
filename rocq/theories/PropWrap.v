(** * PropWrap: merged rows on a screen of limited width (C95). *)
From Coq Require Import Strings.String.
From Verif Require Import GoBase Utf8 Runewidth ConditionSpec Width TextSpec AlignSpec Table TableContract TableExamples
  Merge MergeSpec MergeExamples TerminalSpec TerminalProofs TerminalMerge TerminalCases WrapSpec WrapProofs WrapCases.
Local Open Scope Z_scope.

(** ** C95 *)

(** Styled text stays in its row exactly when its width fits before the edge. *)
Theorem C95_text : forall c w t, Reachable c -> Styled t -> forall row x st ink, x <= w ->
  (sRow (display (mkEdge (Some w) false) c (mkS Ground row x st ink) t) = row <-> x + rawWidth c t <= w).
Proof. exact stays. Qed.
Print Assumptions C95_text.

Example C95_text_example : Styled (bold (lit "ab"%string)) /\ rawWidth exC (bold (lit "ab"%string)) = 2
  /\ sRow (display (narrow 7) exC (mkS Ground 3 5 [] []) (bold (lit "ab"%string))) = 3
  /\ sRow (display (narrow 6) exC (mkS Ground 3 5 [] []) (bold (lit "ab"%string))) = 4.
Proof. exact stays_example. Qed.

(** On a screen without an edge the cursor is that of C64's terminal. *)
Theorem C95_endless : forall c text s t, sMode s = tMode t -> sCol s = tCol t -> sStyle s = tStyle t ->
  let s' := display endless c s text in let t' := show c t text in
  sMode s' = tMode t' /\ sCol s' = tCol t' /\ sStyle s' = tStyle t'.
Proof. exact display_terminal. Qed.
Print Assumptions C95_endless.

Example C95_endless_example : sMode top = tMode home /\ sCol top = tCol home /\ sStyle top = tStyle home
  /\ display endless exC top (bold (lit "ab"%string)) = mkS Ground 0 2 [[48]; [49]] [(0, 1, 98); (0, 0, 97)].
Proof. repeat split; vm_compute; reflexivity. Qed.

(** Merged rows printed on any screen with [maxWidth] columns or more: what is
    drawn is what a screen without an edge shows, every line takes one row,
    and field [i] of the [k]th item of a line takes the same columns in every
    row. *)
Theorem C95_plain : forall (Item Val E : Type) c (t : Table Item Val E) cols items rows,
  Printable t cols items rows -> Reachable c -> Forall (BuiltIn c) cols ->
  Forall (Forall (fun s => Styled s /\ rawWidth c s < 65536)) rows ->
  (forall name, 0 <= Width t name < 65536) ->
  forall m fuel sep maxWidth, Styled sep -> sep <> [] -> 0 <= maxWidth -> maxWidth + slen sep < 65536 ->
  reckoned t cols sep mod 65536 <> 0 -> reckoned t cols sep < 65536 -> zsum (recorded t cols) + slen cols - 1 <= maxWidth ->
  FitsRecorded c t cols rows ->
  let r := merge m fuel c t (fun _ => true) items maxWidth sep false in
  stop r = Finished ->
  exists g lines (start width : nat -> nat -> Z), (1 <= g)%nat /\ Layout m g rows lines /\ List.length (written r) = List.length lines
    /\ forall e, Holds e maxWidth ->
      (let out := display e c top (List.concat (written r)) in
       out = display endless c top (List.concat (written r)) /\ sMode out = Ground /\ sCol out = 0 /\ sRow out = slen lines)
    /\ forall l line txt k row i s, nth_error lines l = Some line -> nth_error (written r) l = Some txt ->
       nth_error line k = Some row -> nth_error row i = Some s -> (i < List.length cols)%nat ->
       exists before p q after st st' ink ink', txt = before ++ (spaces p ++ s ++ spaces q) ++ after ++ [x0a]
         /\ display e c top (List.concat (firstn l (written r)) ++ before) = mkS Ground (Z.of_nat l) (start k i) st ink
         /\ display e c top (List.concat (firstn l (written r)) ++ before ++ spaces p ++ s ++ spaces q)
            = mkS Ground (Z.of_nat l) (start k i + width k i) st' ink'.
Proof. exact @plain_displayed. Qed.
Print Assumptions C95_plain.

Example C95_plain_example : Printable mTable mCols (listOf sRows) sRows /\ Reachable exC /\ Forall (BuiltIn exC) mCols
  /\ Forall (Forall (fun s => Styled s /\ rawWidth exC s < 65536)) sRows
  /\ (forall name, 0 <= Width mTable name < 65536) /\ Styled mSep /\ mSep <> []
  /\ reckoned mTable mCols mSep = 12 /\ zsum (recorded mTable mCols) + slen mCols - 1 = 9
  /\ FitsRecorded exC mTable mCols sRows
  /\ stop plain9 = Finished /\ slen (written plain9) = 3
  /\ Holds (narrow 9) 9 /\ Holds (hasty 10) 9
  /\ sRow (display (narrow 9) exC top (List.concat (written plain9))) = 3.
Proof. exact plain_hypotheses. Qed.

(** In compact layout as well. *)
Theorem C95_compact : forall (Item Val E : Type) c (t : Table Item Val E) cols items rows,
  Printable t cols items rows -> Reachable c -> Forall (BuiltIn c) cols ->
  Forall (Forall (fun s => Styled s /\ rawWidth c s < 65536)) rows ->
  (forall name, 0 <= Width t name < 65536) ->
  forall m fuel sep maxWidth g0 g, Styled sep -> sep <> [] -> reckoned t cols sep mod 65536 <> 0 -> FitsRecorded c t cols rows ->
  Z.of_nat g0 = estimate t cols sep maxWidth -> Search c cols sep maxWidth m rows g0 g -> (g0 < g < g0 + fuel)%nat ->
  (forall w, CompactTotal c cols sep m rows g w -> w < 65536) ->
  let r := merge m fuel c t (fun _ => true) items maxWidth sep true in
  stop r = Finished ->
  exists g lines (start width : nat -> nat -> Z), (1 <= g)%nat /\ Layout m g rows lines /\ List.length (written r) = List.length lines
    /\ forall e, Holds e (effective maxWidth) ->
      (let out := display e c top (List.concat (written r)) in
       out = display endless c top (List.concat (written r)) /\ sMode out = Ground /\ sCol out = 0 /\ sRow out = slen lines)
    /\ forall l line txt k row i s, nth_error lines l = Some line -> nth_error (written r) l = Some txt ->
       nth_error line k = Some row -> nth_error row i = Some s -> (i < List.length cols)%nat ->
       exists before p q after st st' ink ink', txt = before ++ (spaces p ++ s ++ spaces q) ++ after ++ [x0a]
         /\ display e c top (List.concat (firstn l (written r)) ++ before) = mkS Ground (Z.of_nat l) (start k i) st ink
         /\ display e c top (List.concat (firstn l (written r)) ++ before ++ spaces p ++ s ++ spaces q)
            = mkS Ground (Z.of_nat l) (start k i + width k i) st' ink'.
Proof. exact @compact_displayed. Qed.
Print Assumptions C95_compact.

Example C95_compact_example : exists g0 g, Z.of_nat g0 = estimate mTable mCols mSep 20 /\ Search exC mCols mSep 20 H sRows g0 g
  /\ (g0 < g < g0 + 9)%nat /\ (forall w, CompactTotal exC mCols mSep H sRows g w -> w < 65536)
  /\ stop compact20 = Finished /\ slen (written compact20) = 1 /\ effective 20 = 20
  /\ sRow (display (narrow 20) exC top (List.concat (written compact20))) = 1.
Proof. exact compact_hypotheses. Qed.

(** And whatever was asked for: on a screen with room for the widest line. *)
Theorem C95_roomy : forall (Item Val E : Type) c (t : Table Item Val E) cols items rows,
  Printable t cols items rows -> Reachable c -> Forall (BuiltIn c) cols ->
  Forall (Forall (fun s => Styled s /\ rawWidth c s < 65536)) rows ->
  (forall name, 0 <= Width t name < 65536) ->
  forall m fuel sep maxWidth compact, Styled sep -> reckoned t cols sep mod 65536 <> 0 -> FitsRecorded c t cols rows ->
  let r := merge m fuel c t (fun _ => true) items maxWidth sep compact in
  stop r = Finished ->
  forall n, (forall line, In (line ++ [x0a]) (written r) -> rawWidth c line <= n) ->
  exists g lines (start width : nat -> nat -> Z), (1 <= g)%nat /\ Layout m g rows lines /\ List.length (written r) = List.length lines
    /\ forall e, Holds e n ->
      (let out := display e c top (List.concat (written r)) in
       out = display endless c top (List.concat (written r)) /\ sMode out = Ground /\ sCol out = 0 /\ sRow out = slen lines)
    /\ forall l line txt k row i s, nth_error lines l = Some line -> nth_error (written r) l = Some txt ->
       nth_error line k = Some row -> nth_error row i = Some s -> (i < List.length cols)%nat ->
       exists before p q after st st' ink ink', txt = before ++ (spaces p ++ s ++ spaces q) ++ after ++ [x0a]
         /\ display e c top (List.concat (firstn l (written r)) ++ before) = mkS Ground (Z.of_nat l) (start k i) st ink
         /\ display e c top (List.concat (firstn l (written r)) ++ before ++ spaces p ++ s ++ spaces q)
            = mkS Ground (Z.of_nat l) (start k i + width k i) st' ink'.
Proof. exact @merged_displayed. Qed.
Print Assumptions C95_roomy.

(** The output takes as many rows as it has lines exactly when no line is
    wider than the screen. *)
Theorem C95_rows : forall (Item Val E : Type) c (t : Table Item Val E) cols items rows,
  Printable t cols items rows -> Reachable c -> Forall (BuiltIn c) cols ->
  Forall (Forall (fun s => Styled s /\ rawWidth c s < 65536)) rows ->
  (forall name, 0 <= Width t name < 65536) ->
  forall m fuel sep maxWidth compact, Styled sep -> reckoned t cols sep mod 65536 <> 0 -> FitsRecorded c t cols rows ->
  let r := merge m fuel c t (fun _ => true) items maxWidth sep compact in
  stop r = Finished ->
  forall w, 0 <= w ->
  (sRow (display (mkEdge (Some w) false) c top (List.concat (written r))) = slen (written r)
   <-> forall line, In (line ++ [x0a]) (written r) -> rawWidth c line <= w).
Proof. exact @merged_rows. Qed.
Print Assumptions C95_rows.

(** One column fewer is not enough, nor are [maxWidth] columns on a screen
    that leaves a row as soon as it is full. *)
Theorem C95_narrower_refuted : exists (t : Table (list str) str str) cols rows sep maxWidth,
  Printable t cols (listOf rows) rows /\ Forall (BuiltIn exC) cols
  /\ Forall (Forall (fun s => Styled s /\ rawWidth exC s < 65536)) rows /\ (forall name, 0 <= Width t name < 65536)
  /\ Styled sep /\ sep <> [] /\ 0 <= maxWidth /\ maxWidth + slen sep < 65536
  /\ reckoned t cols sep mod 65536 <> 0 /\ reckoned t cols sep < 65536 /\ zsum (recorded t cols) + slen cols - 1 <= maxWidth
  /\ FitsRecorded exC t cols rows
  /\ let r := merge H 9 exC t (fun _ => true) (listOf rows) maxWidth sep false in
     stop r = Finished
     /\ slen (written r) < sRow (display (mkEdge (Some (maxWidth - 1)) false) exC top (List.concat (written r)))
     /\ slen (written r) < sRow (display (mkEdge (Some maxWidth) true) exC top (List.concat (written r))).
Proof. exact narrower_refuted. Qed.
Print Assumptions C95_narrower_refuted.

(** Nor for joined runes, which are measured as one cluster and drawn one by one. *)
Theorem C95_joined_refuted : exists (t : Table (list str) str str) cols rows sep maxWidth,
  Printable t cols (listOf rows) rows /\ Forall (BuiltIn exC) cols
  /\ Forall (Forall (fun s => ValidUTF8 s /\ rawWidth exC s < 65536)) rows /\ (forall name, 0 <= Width t name < 65536)
  /\ Styled sep /\ sep <> [] /\ 0 <= maxWidth /\ maxWidth + slen sep < 65536
  /\ reckoned t cols sep mod 65536 <> 0 /\ reckoned t cols sep < 65536 /\ zsum (recorded t cols) + slen cols - 1 <= maxWidth
  /\ FitsRecorded exC t cols rows
  /\ let r := merge H 9 exC t (fun _ => true) (listOf rows) maxWidth sep false in
     stop r = Finished /\ Forall (fun txt => rawWidth exC txt <= maxWidth) (written r)
     /\ slen (written r) < sRow (display (mkEdge (Some maxWidth) false) exC top (List.concat (written r))).
Proof. exact joined_wraps. Qed.
Print Assumptions C95_joined_refuted.
