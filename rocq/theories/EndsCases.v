(** * EndsCases: concrete calls that panic. *)
From Coq Require Import Strings.String.
From Verif Require Import GoBase Runewidth Width AlignSpec Table TableContract TableExamples Merge MergeSpec MergeExamples AlikeSpec EndsSpec.
Local Open Scope Z_scope.

(** A table with a nil column between two others, and widths 8 and 5. *)
Definition gapTable : Table (list str) str str :=
  {| tSpec := {| ColumnByName := None; TimeFormat := []; Columns := [Some exName; None; Some exSize] |};
     columnWidth := Some (wset (wset wempty (lit "name"%string) 8) (lit "size"%string) 5) |}.
(** A table without a map. *)
Definition bareTable : Table (list str) str str := {| tSpec := exSpec; columnWidth := None |}.
Definition bareCalls : list (call (list str) str) :=
  [CHeader exC (lit "|"%string); CUpdate [(lit "name"%string, 0)]; CFormat exC [[]; []]; CFormat exC exItem1; CHeader exC (lit "|"%string)].

Lemma gap_example : Columns (tSpec gapTable) = map Some [exName] ++ None :: [Some exSize]
  /\ AlignFormattedItem gapTable [lit "ab"%string; lit "c"%string; lit "d"%string]
     = ([lit "ab      "%string; lit "c"%string; lit "d"%string], Panic NilDereference)
  /\ AlignFormattedItem gapTable [lit "ab"%string] = ([lit "ab"%string], Err (1, 3))
  /\ FormatHeader exC gapTable (lit "|"%string) = Panic NilDereference
  /\ TableWidth gapTable 1 = Panic NilDereference.
Proof. repeat split; vm_compute; reflexivity. Qed.

Definition barePanics : list (option panic_reason) := [None; None; None; Some NilMapWrite; None].
Lemma bare_example : columnWidth bareTable = None
  /\ map panicked (answers bareTable bareCalls) = barePanics
  /\ map panicked (answers (with_map bareTable) bareCalls) = [None; None; None; None; None]
  /\ nth_error (answers bareTable bareCalls) 4 = Some (AText (Ok (lit "Name|Size|"%string ++ [x0a])))
  /\ nth_error (answers (with_map bareTable) bareCalls) 4 = Some (AText (Ok (lit " Name | S|"%string ++ [x0a]))).
Proof. repeat split; vm_compute; reflexivity. Qed.

(** Getting item 3 panics with a nil dereference. *)
Definition brokenItems : FormattedItemList str :=
  {| fiLen := 5; fiGet := fun i => if i =? 3 then Panic NilDereference else fiGet (listOf mRows) i |}.
Definition oneWrite (k : nat) : bool := Nat.ltb k 1.
Definition brokenCall ok sep : call (list str) str := CMerge H 1 exC ok brokenItems 26 sep false.
Lemma fault_example : ~ In None (Columns (tSpec mTable)) /\ ProperCall (brokenCall (fun _ => true) mSep)
  /\ panicked (snd (perform mTable (brokenCall (fun _ => true) mSep))) = Some NilDereference
  /\ fiGet brokenItems 3 = Panic NilDereference
  /\ panicked (snd (perform mTable (CMerge H 1 exC oneWrite (listOf mRows) 26 mSep false))) = Some WriteFailed
  /\ panicked (snd (perform exTable (CMerge V 1 exC (fun _ => true) (listOf mRows) 26 [] false))) = Some DivideByZero.
Proof.
  split; [cbn; intuition discriminate|]. split.
  - split; [cbn; discriminate|]. intros i e. cbn. destruct (i =? 3); [discriminate|]. unfold at_index. destruct (i <? 0); [discriminate|]. destruct (nth_error _ _); discriminate.
  - repeat split; vm_compute; reflexivity.
Qed.
