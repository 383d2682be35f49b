(** * PickCases: a table with its columns in another order, and with fewer of them. *)
From Coq Require Import Strings.String.
From Verif Require Import GoBase Runewidth Width AlignSpec Table Merge TableContract TableExamples TableOpsProofs
  MergeSpec MergeExamples MergeScreens MergeRecorded GrowSpec GrowProofs PickSpec PickProofs.
From Coq Require Import ZifyBool ZifyNat.
Local Open Scope Z_scope.

(** A table of the columns, with the widths. *)
Definition tableOf (cols : list (Column (list str) str str)) (ws : list (str * Z)) : Table (list str) str str :=
  fst (UpdateWidth (E := str) (NewTable (Some (add_all NewTableSpec (map Some cols)))) ws).

(** The size first, and both with other names. *)
Definition pBytes := exColumn 1 ARight "bytes" "Bytes" "B".
Definition pFile := exColumn 0 ALeft "file" "File" "F".
Definition pCols : list (Column (list str) str str) := [pBytes; pFile].
Definition pTable := tableOf pCols [(lit "file"%string, 6); (lit "bytes"%string, 2)].
Definition pOrder : list nat := [1; 0]%nat.
Definition pOne : list nat := [1]%nat.
Definition oneTable := tableOf [pBytes] [(lit "bytes"%string, 2)].

Lemma two_places : NoDup pOrder.
Proof. repeat constructor; cbn; intuition discriminate. Qed.
Lemma p_picked : Picked pOrder mTable mCols pTable pCols.
Proof.
  split; [exact two_places|]. repeat constructor.
  - exists exSize. repeat split.
  - exists exName. repeat split.
Qed.
Lemma one_picked : Picked pOne mTable mCols oneTable [pBytes].
Proof. split; [repeat constructor; cbn; tauto|]. repeat constructor. exists exSize. repeat split. Qed.
Lemma p_getters : SameGetters pOrder mCols pCols.
Proof.
  split; [repeat constructor; cbn; intuition discriminate|]. split; [repeat constructor; cbn; intuition discriminate|]. repeat constructor.
  - exists exSize. repeat split.
  - exists exName. repeat split.
Qed.
Definition aRows : list (list str) := [[lit "go.mod"%string; lit "12"%string]; [lit "x"%string; lit "3"%string]; [lit "ab"%string; lit "7"%string]; [lit "c"%string; lit "9"%string]].
Lemma a_printable : Printable mTable mCols (listOf aRows) aRows.
Proof. split; [reflexivity|apply listOf_serves|repeat constructor]. Qed.
Lemma p_printable : Printable pTable pCols (listOf (map (pick pOrder) aRows)) (map (pick pOrder) aRows).
Proof. split; [reflexivity|apply listOf_serves|repeat constructor]. Qed.
Lemma one_printable : Printable oneTable [pBytes] (listOf (map (pick pOne) aRows)) (map (pick pOne) aRows).
Proof. split; [reflexivity|apply listOf_serves|repeat constructor]. Qed.
Lemma a_narrow m : Narrow exC mCols mSep m aRows.
Proof.
  apply (narrow_recorded m exC mTable mCols (listOf aRows) aRows a_printable ltac:(discriminate)); [apply MergeExamples.fits_b_ok; vm_compute; reflexivity|].
  vm_compute. reflexivity.
Qed.

Definition texts (m : mode) (t : Table (list str) str str) rows :=
  let r := merge m 9 exC t (fun _ => true) (listOf rows) 20 mSep true in (written r, stop r).
Definition lines (l : list string) : list str := map (fun s => lit s ++ [x0a]) l.

Lemma order_example :
  Printable mTable mCols (listOf aRows) aRows /\ Picked pOrder mTable mCols pTable pCols
  /\ Printable pTable pCols (listOf (map (pick pOrder) aRows)) (map (pick pOrder) aRows) /\ List.length pOrder = List.length mCols
  /\ texts H mTable aRows = (lines ["go.mod 12 |x 3 |ab 7"; "c       9 |"]%string, Finished)
  /\ texts H pTable (map (pick pOrder) aRows) = (lines ["12 go.mod |3 x |7 ab"; " 9 c      |"]%string, Finished)
  /\ texts V mTable aRows = (lines ["go.mod 12 |ab 7"; "x       3 |c  9"]%string, Finished)
  /\ texts V pTable (map (pick pOrder) aRows) = (lines ["12 go.mod |7 ab"; " 3 x      |9 c "]%string, Finished).
Proof.
  split; [exact a_printable|]. split; [exact p_picked|]. split; [exact p_printable|]. split; [reflexivity|].
  repeat split; vm_compute; reflexivity.
Qed.

Lemma fewer_example :
  Printable mTable mCols (listOf aRows) aRows /\ Picked pOne mTable mCols oneTable [pBytes]
  /\ Printable oneTable [pBytes] (listOf (map (pick pOne) aRows)) (map (pick pOne) aRows)
  /\ (forall col, In col mCols -> 0 <= Width mTable (colName col)) /\ reckoned mTable mCols mSep < 65536
  /\ Narrow exC mCols mSep H aRows /\ Narrow exC mCols mSep V aRows
  /\ texts H oneTable (map (pick pOne) aRows) = (lines ["12 |3 |7 |9 |"]%string, Finished).
Proof.
  split; [exact a_printable|]. split; [exact one_picked|]. split; [exact one_printable|].
  split; [intros col _; apply mWidths|]. split; [vm_compute; reflexivity|]. split; [apply a_narrow|]. split; [apply a_narrow|]. vm_compute. reflexivity.
Qed.

Lemma format_example : columnWidth exTable <> None /\ Columns (tSpec exTable) = map Some mCols
  /\ Picked pOrder exTable mCols (tableOf pCols []) pCols /\ SameGetters pOrder mCols pCols
  /\ snd (FormatItem exC exTable exItem1) = Ok [lit "go.mod"%string; lit "12"%string]
  /\ snd (FormatItem exC (tableOf pCols []) exItem1) = Ok [lit "12"%string; lit "go.mod"%string].
Proof.
  split; [discriminate|]. split; [reflexivity|]. split; [|split; [exact p_getters|split; vm_compute; reflexivity]].
  split; [exact two_places|]. repeat constructor; [exists exSize|exists exName]; repeat split.
Qed.

(** Alignment that leaves texts as they are. *)
Definition asIs (i : nat) (name : string) : Column (list str) str str :=
  {| colGetter := Some (field i); colAlignment := Some (fun s _ => s); colName := lit name; colTitle := []; colShortTitle := [] |}.
Definition asIsCols := [asIs 0 "name"; asIs 1 "size"].
Definition leave := [0]%nat.
Lemma leave_picked ws : (Width (tableOf [asIs 0 "name"] ws) (lit "name"%string) = Width (tableOf asIsCols ws) (lit "name"%string)) ->
  Picked leave (tableOf asIsCols ws) asIsCols (tableOf [asIs 0 "name"] ws) [asIs 0 "name"].
Proof. intros K. split; [repeat constructor; cbn; tauto|]. repeat constructor. exists (asIs 0 "name"). repeat split. exact K. Qed.

Definition ends (m : mode) (t : Table (list str) str str) rows w sep compact :=
  let r := merge m 9 exC t (fun _ => true) (listOf rows) w sep compact in (List.length (written r), stop r).

(** Recorded widths past 16 bits: with a column less, more lines. *)
Lemma more_refuted : forall m, exists t cols t' cols' p (rows : list (list str)) w sep compact,
  Picked p t cols t' cols' /\ p <> [] /\ Printable t cols (listOf rows) rows /\ Printable t' cols' (listOf (map (pick p) rows)) (map (pick p) rows)
  /\ (forall col, In col cols -> 0 <= Width t (colName col) < 65536)
  /\ ends m t rows w sep compact = (2%nat, Finished) /\ ends m t' (map (pick p) rows) w sep compact = (4%nat, Finished).
Proof.
  intros m. set (ws := [(lit "name"%string, 65000); (lit "size"%string, 600)]).
  exists (tableOf asIsCols ws), asIsCols, (tableOf [asIs 0 "name"] ws), [asIs 0 "name"], leave, aRows, 200, gSep, false.
  split; [apply leave_picked; vm_compute; reflexivity|]. split; [discriminate|].
  split; [split; [reflexivity|apply listOf_serves|repeat constructor]|]. split; [split; [reflexivity|apply listOf_serves|repeat constructor]|].
  split; [intros col [<-|[<-|[]]]; vm_compute; split; congruence|]. split; destruct m; vm_compute; reflexivity.
Qed.

(** The column left has no width: a panic instead of lines. *)
Lemma panic_refuted : forall m, exists t cols t' cols' p (rows : list (list str)) w sep compact,
  Picked p t cols t' cols' /\ p <> [] /\ Printable t cols (listOf rows) rows /\ Printable t' cols' (listOf (map (pick p) rows)) (map (pick p) rows)
  /\ FitsRecorded exC t cols rows /\ reckoned t cols sep < 65536 /\ Narrow exC cols sep m rows
  /\ ends m t rows w sep compact = (1%nat, Finished) /\ ends m t' (map (pick p) rows) w sep compact = (0%nat, Panicked DivideByZero).
Proof.
  intros m. set (ws := [(lit "name"%string, 0); (lit "size"%string, 2)]). set (rows := [[[]; lit "12"%string]; [[]; lit "3"%string]]).
  assert (P : Printable (tableOf asIsCols ws) asIsCols (listOf rows) rows) by (split; [reflexivity|apply listOf_serves|repeat constructor]).
  assert (F : FitsRecorded exC (tableOf asIsCols ws) asIsCols rows) by (apply MergeExamples.fits_b_ok; vm_compute; reflexivity).
  exists (tableOf asIsCols ws), asIsCols, (tableOf [asIs 0 "name"] ws), [asIs 0 "name"], leave, rows, 20, [], true.
  split; [apply leave_picked; vm_compute; reflexivity|]. split; [discriminate|]. split; [exact P|].
  split; [split; [reflexivity|apply listOf_serves|repeat constructor]|]. split; [exact F|]. split; [vm_compute; reflexivity|].
  split; [apply (narrow_recorded m exC _ _ _ _ P ltac:(discriminate) F); vm_compute; reflexivity|]. split; destruct m; vm_compute; reflexivity.
Qed.
