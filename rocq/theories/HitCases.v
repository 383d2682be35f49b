(** * HitCases: places on the screen, concretely. *)
From Coq Require Import Strings.String.
From Verif Require Import GoBase Utf8 Runewidth ConditionSpec Width TextSpec AlignSpec Table TableContract TableExamples
  Merge MergeSpec MergeExamples TerminalSpec TerminalProofs TerminalMerge TerminalCases HitSpec HitProofs.
Local Open Scope Z_scope.

(** Fields of 6 and 2, two items to a line, the separator showing 2. *)
Lemma hit_example : Printable mTable mCols (listOf sRows) sRows /\ Reachable exC /\ Forall (BuiltIn exC) mCols
  /\ Forall (Forall (fun s => Styled s /\ rawWidth exC s < 65536)) sRows
  /\ (forall name, 0 <= Width mTable name < 65536) /\ Styled mSep /\ reckoned mTable mCols mSep mod 65536 <> 0
  /\ FitsRecorded exC mTable mCols sRows /\ estimate mTable mCols mSep 26 = 2
  /\ written (merge H 9 exC mTable (fun _ => true) (listOf sRows) 26 mSep false)
     = [bold (lit "go.mod"%string) ++ lit " 12 |"%string ++ bold (lit "x"%string) ++ lit "       3"%string ++ [x0a];
        bold [xe6; x97; xa5] ++ lit "      5 |"%string ++ [x0a]]
  /\ map (hit (recorded mTable mCols) (rawWidth exC mSep)) [0; 5; 6; 7; 8; 9; 10; 11; 16; 17; 18; 19; 20]
     = [Some (0, 0); Some (0, 0); None; Some (0, 1); Some (0, 1); None; None; Some (1, 0); Some (1, 0); None; Some (1, 1); Some (1, 1); None]%nat.
Proof.
  destruct merged_hypotheses as (A & B & C & D & F & G & J & K & L & M).
  do 8 (split; [assumption|]). split; [vm_compute; reflexivity|]. split; [exact M|]. vm_compute. reflexivity.
Qed.

(** Compact: the third item of the line starts where the second is reckoned. *)
Lemma compact_hit : exists before after line rest,
  written (merge H 9 exC mTable (fun _ => true) (listOf mRows) 26 mSep true) = line :: rest
  /\ nth_error mRows 2 = Some [[xe6; x97; xa5]; lit "5"%string]
  /\ line = before ++ [xe6; x97; xa5] ++ after
  /\ tCol (show exC home before) = 16 /\ hit (recorded mTable mCols) (rawWidth exC mSep) 16 = Some (1, 0)%nat.
Proof.
  exists (lit "go.mod 12 |x 3 |"%string), (lit " 5 |ab 7"%string ++ [x0a]),
    (lit "go.mod 12 |x 3 |"%string ++ [xe6; x97; xa5] ++ lit " 5 |ab 7"%string ++ [x0a]), [lit "c       9 |"%string ++ [x0a]].
  repeat split; vm_compute; reflexivity.
Qed.

(** The number of bytes of the separator instead of what it shows. *)
Definition arrow : str := [xe2; x86; x92].
Lemma bytes_hit : exists before after line, 
  written (merge H 9 exC mTable (fun _ => true) (listOf mRows) 40 arrow false) = line :: tl (written (merge H 9 exC mTable (fun _ => true) (listOf mRows) 40 arrow false))
  /\ line = before ++ lit "x     "%string ++ after /\ tCol (show exC home before) = 10
  /\ hit (recorded mTable mCols) (rawWidth exC arrow) 10 = Some (1, 0)%nat /\ hit (recorded mTable mCols) (slen arrow) 10 = None.
Proof.
  exists (lit "go.mod 12"%string ++ arrow), (skipn 18 (hd [] (written (merge H 9 exC mTable (fun _ => true) (listOf mRows) 40 arrow false)))),
    (hd [] (written (merge H 9 exC mTable (fun _ => true) (listOf mRows) 40 arrow false))).
  repeat split; vm_compute; reflexivity.
Qed.
