(** * BlockCases: merged lines and aligned rows, examples. *)
From Coq Require Import Strings.String.
From Coq Require Import ZifyBool ZifyNat.
From Verif Require Import GoBase Runewidth Width TextSpec AlignSpec Table TableContract TableExamples
  Merge MergeSpec MergeExamples MergeRecorded PipelineSpec PipelineExamples BlockSpec.
Local Open Scope Z_scope.

(** Where one item stands on a line. *)
Lemma one_group (Item Val E : Type) (t : Table Item Val E) cols sep maxWidth : 0 < reckoned t cols sep < 65536 ->
  effective maxWidth + slen sep < 65536 ->
  (estimate t cols sep maxWidth = 1 <-> effective maxWidth + slen sep < 2 * reckoned t cols sep).
Proof.
  intros Hr Hw. unfold estimate. assert (0 <= effective maxWidth) by (unfold effective; destruct (_ >? _); [lia|apply Z.mod_pos_bound; lia]).
  assert (0 <= slen sep) by (unfold slen; lia). rewrite !(Z.mod_small (effective maxWidth + slen sep)) by lia. rewrite !(Z.mod_small (reckoned t cols sep)) by lia.
  pose proof (Z.div_mod (effective maxWidth + slen sep) (reckoned t cols sep) ltac:(lia)) as D.
  pose proof (Z.mod_pos_bound (effective maxWidth + slen sep) (reckoned t cols sep) ltac:(lia)) as M.
  set (q := (effective maxWidth + slen sep) / reckoned t cols sep) in *.
  assert (0 <= q) by (apply Z.div_pos; lia). split; intros K.
  - assert (q <= 1) by lia. nia.
  - assert (q < 2) by nia. lia.
Qed.

Definition bCol : Column (list str) str str :=
  {| colGetter := colGetter exName; colAlignment := None; colName := lit "name"%string; colTitle := colTitle exName; colShortTitle := colShortTitle exName |}.
Definition bTable : Table (list str) str str :=
  fst (UpdateWidth (E := str) (NewTable (Some (add_all NewTableSpec [Some bCol]))) [(lit "name"%string, 4)]).

(** A column without alignment: merging pads it, AlignFormattedItem does not. *)
Lemma unaligned : exists (t : Table (list str) str str) cols rows sep w,
  Printable t cols (listOf rows) rows /\ ExactRows cols rows /\ reckoned t cols sep mod 65536 <> 0 /\ estimate t cols sep w = 1
  /\ (forall row, In row rows -> exists cells, AlignFormattedItem t row = (cells, Ok cells))
  /\ forall m, written (merge m 1 exC t (fun _ => true) (listOf rows) w sep false) <> map (fun row => aligned_text t row ++ [x0a]) rows.
Proof.
  exists bTable, [bCol], [[lit "x"%string]; [lit "abcd"%string]], mSep, 9.
  split; [split; [reflexivity|apply listOf_serves|repeat constructor]|]. split; [repeat constructor|]. split; [vm_compute; discriminate|].
  split; [vm_compute; reflexivity|]. split.
  - intros row [<-|[<-|[]]]; eexists; vm_compute; reflexivity.
  - intros [|]; vm_compute; discriminate.
Qed.

(** A row with more cells than columns: merged all the same, but not aligned. *)
Lemma too_long : exists (t : Table (list str) str str) cols rows sep w,
  Printable t cols (listOf rows) rows /\ AllAligned cols /\ reckoned t cols sep mod 65536 <> 0
  /\ (forall m, stop (merge m 1 exC t (fun _ => true) (listOf rows) w sep false) = Finished
        /\ written (merge m 1 exC t (fun _ => true) (listOf rows) w sep false) <> [])
  /\ forall row, In row rows -> snd (AlignFormattedItem t row) = Err (2, 1).
Proof.
  exists (rTable 4), [exName], [[lit "x"%string; lit "y"%string]], mSep, 9.
  split; [split; [reflexivity|apply listOf_serves|repeat constructor]|]. split; [intros col [<-|[]]; discriminate|]. split; [vm_compute; discriminate|].
  split; [intros [|]; vm_compute; split; discriminate || reflexivity|]. intros row [<-|[]]. vm_compute. reflexivity.
Qed.

Lemma block_example : AllAligned mCols /\ ExactRows mCols mRows /\ NoDup (map colName mCols) /\ estimate mTable mCols mSep 20 = 1
  /\ map (aligned_text mTable) mRows = [lit "go.mod 12"%string; lit "x       3"%string; [xe6; x97; xa5] ++ lit "      5"%string; lit "ab      7"%string; lit "c       9"%string]
  /\ written (merge V 1 exC mTable (fun _ => true) (listOf mRows) 20 mSep false) = map (fun row => aligned_text mTable row ++ [x0a]) mRows
  /\ aligned_text (with_widths mTable mCols [2; 1]) [lit "x"%string; lit "3"%string] = lit "x  3"%string
  /\ FormatHeader exC pTable [space] = Ok (lit " Name   Size "%string ++ [x0a]) :> outcome str str
  /\ estimate pTable mCols mSep 20 = 1
  /\ written (merge H 1 exC pTable (fun _ => true) (listOf pRows) 20 mSep false) = map (fun row => aligned_text pTable row ++ [x0a]) pRows.
Proof.
  split; [intros col [<-|[<-|[]]]; discriminate|]. split; [repeat constructor|].
  split; [repeat constructor; cbn; intuition discriminate|]. repeat split; vm_compute; reflexivity.
Qed.
