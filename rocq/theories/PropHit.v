(** * PropHit: from a place on the screen to an item and a field (C111). *)
From Coq Require Import Strings.String.
From Verif Require Import GoBase Utf8 Runewidth ConditionSpec Width TextSpec AlignSpec Table TableContract TableExamples
  Merge MergeSpec MergeExamples TerminalSpec TerminalProofs TerminalMerge TerminalCases HitSpec HitProofs HitCases.
Local Open Scope Z_scope.

(** ** C111 *)

(** Every item has a line and a place in it; column [x] of the line lies in its
    field [i] exactly if the formula says so. *)
Theorem C111_place : forall (Item Val E : Type) c (t : Table Item Val E) cols items rows,
  Printable t cols items rows -> Reachable c -> Forall (BuiltIn c) cols ->
  Forall (Forall (fun s => Styled s /\ rawWidth c s < 65536)) rows ->
  (forall name, 0 <= Width t name < 65536) ->
  forall m fuel sep maxWidth, Styled sep -> reckoned t cols sep mod 65536 <> 0 -> FitsRecorded c t cols rows ->
  let r := merge m fuel c t (fun _ => true) items maxWidth sep false in
  exists g, Z.of_nat g = estimate t cols sep maxWidth /\ stop r = Finished
    /\ (forall n, (n < List.length rows)%nat -> exists l k, (k < g)%nat /\ (l < List.length (written r))%nat /\ number m g (List.length (written r)) l k = n)
    /\ forall l txt k i row s, nth_error (written r) l = Some txt -> (k < g)%nat -> (i < List.length cols)%nat ->
       nth_error rows (number m g (List.length (written r)) l k) = Some row -> nth_error row i = Some s ->
       exists before p q after a b st st', txt = before ++ (spaces p ++ s ++ spaces q) ++ after ++ [x0a]
         /\ show c home before = mkT Ground a st /\ show c home (before ++ spaces p ++ s ++ spaces q) = mkT Ground b st'
         /\ forall x, 0 <= x -> (hit (recorded t cols) (rawWidth c sep) x = Some (k, i) <-> a <= x < b).
Proof. exact @at_screen. Qed.
Print Assumptions C111_place.

Example C111_place_example : Printable mTable mCols (listOf sRows) sRows /\ Reachable exC /\ Forall (BuiltIn exC) mCols
  /\ Forall (Forall (fun s => Styled s /\ rawWidth exC s < 65536)) sRows
  /\ (forall name, 0 <= Width mTable name < 65536) /\ Styled mSep /\ reckoned mTable mCols mSep mod 65536 <> 0
  /\ FitsRecorded exC mTable mCols sRows /\ estimate mTable mCols mSep 26 = 2
  /\ written (merge H 9 exC mTable (fun _ => true) (listOf sRows) 26 mSep false)
     = [bold (lit "go.mod"%string) ++ lit " 12 |"%string ++ bold (lit "x"%string) ++ lit "       3"%string ++ [x0a];
        bold [xe6; x97; xa5] ++ lit "      5 |"%string ++ [x0a]]
  /\ map (hit (recorded mTable mCols) (rawWidth exC mSep)) [0; 5; 6; 7; 8; 9; 10; 11; 16; 17; 18; 19; 20]
     = [Some (0, 0); Some (0, 0); None; Some (0, 1); Some (0, 1); None; None; Some (1, 0); Some (1, 0); None; Some (1, 1); Some (1, 1); None]%nat.
Proof. exact hit_example. Qed.

(** Not so for compact merging. *)
Theorem C111_compact_refuted : exists before after line rest,
  written (merge H 9 exC mTable (fun _ => true) (listOf mRows) 26 mSep true) = line :: rest
  /\ nth_error mRows 2 = Some [[xe6; x97; xa5]; lit "5"%string]
  /\ line = before ++ [xe6; x97; xa5] ++ after
  /\ tCol (show exC home before) = 16 /\ hit (recorded mTable mCols) (rawWidth exC mSep) 16 = Some (1, 0)%nat.
Proof. exact compact_hit. Qed.
Print Assumptions C111_compact_refuted.

(** Nor with the bytes of the separator, by which the number of items is reckoned. *)
Theorem C111_bytes_refuted : exists before after line, 
  written (merge H 9 exC mTable (fun _ => true) (listOf mRows) 40 arrow false) = line :: tl (written (merge H 9 exC mTable (fun _ => true) (listOf mRows) 40 arrow false))
  /\ line = before ++ lit "x     "%string ++ after /\ tCol (show exC home before) = 10
  /\ hit (recorded mTable mCols) (rawWidth exC arrow) 10 = Some (1, 0)%nat /\ hit (recorded mTable mCols) (slen arrow) 10 = None.
Proof. exact bytes_hit. Qed.
Print Assumptions C111_bytes_refuted.
