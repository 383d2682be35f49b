(** * FaultCases: a concrete list with a faulty item. *)
From Coq Require Import Strings.String.
From Verif Require Import GoBase Runewidth Width Table TableContract TableExamples Merge MergeSpec MergeLayout MergeExamples FaultSpec.
Local Open Scope Z_scope.

Definition fItems : FormattedItemList str :=
  {| fiLen := 5; fiGet := fun i => if i =? 3 then Ok [lit "ab"%string] else fiGet (listOf mRows) i |}.
Definition fFails (i : nat) : option panic_reason := if Nat.eqb i 3 then Some IndexOutOfRange else None.

Lemma faulty_example : Faulty mTable mCols fItems mRows fFails
  /\ Z.of_nat 2 = estimate mTable mCols mSep 26 /\ reckoned mTable mCols mSep mod 65536 <> 0
  /\ merge H 1 exC mTable (fun _ => true) fItems 26 mSep false
     = {| written := [lit "go.mod 12 |x       3"%string ++ [x0a]]; stop := Panicked IndexOutOfRange |}
  /\ merge V 1 exC mTable (fun _ => true) fItems 26 mSep false = {| written := []; stop := Panicked IndexOutOfRange |}
  /\ merge H 1 exC mTable (fun _ => true) fItems 26 mSep true = {| written := []; stop := Panicked IndexOutOfRange |}.
Proof.
  split.
  - split; [reflexivity|reflexivity|]. intros i row Hi. unfold fFails.
    do 5 (destruct i as [|i]; [cbn [nth_error mRows] in Hi; injection Hi as <-; cbn [Nat.eqb];
      first [split; [vm_compute; reflexivity|repeat constructor]
            |right; split; [reflexivity|]; exists [lit "ab"%string]; split; [reflexivity|repeat constructor]]|]).
    cbn in Hi. destruct i; discriminate.
  - split; [vm_compute; reflexivity|]. split; [discriminate|]. split; [|split]; vm_compute; reflexivity.
Qed.

(** Item 1 has one string; getting item 3 panics. *)
Definition gItems : FormattedItemList str :=
  {| fiLen := 5; fiGet := fun i => if i =? 1 then Ok [lit "ab"%string] else if i =? 3 then Panic NilDereference else fiGet (listOf mRows) i |}.
Lemma which_example : Worth H mRows 3 /\ Layout H 3 (seq 0 5) [[0; 1; 2]; [3; 4]]%nat
  /\ cell_order 2 3 [[0; 1; 2]; [3; 4]]%nat = [(0, 0)]%nat ++ (3, 0)%nat :: [(0, 1); (3, 1); (1, 0); (4, 0); (1, 1); (4, 1); (2, 0); (2, 1)]%nat
  /\ GoodCell gItems 0 0 /\ BadCell gItems 3 0 NilDereference /\ BadCell gItems 1 1 IndexOutOfRange
  /\ merge H 1 exC mTable (fun _ => true) gItems 26 mSep true = {| written := []; stop := Panicked NilDereference |}
  /\ merge H 1 exC mTable (fun _ => true) gItems 26 mSep false = {| written := []; stop := Panicked IndexOutOfRange |}.
Proof.
  split; [exact Logic.I|]. split; [apply (layout_ok H 3 (seq 0 5)); repeat constructor|]. split; [reflexivity|]. split; [eexists; split; [reflexivity|repeat constructor]|].
  split; [left; reflexivity|]. split; [right; split; [reflexivity|]; eexists; split; [reflexivity|repeat constructor]|]. split; vm_compute; reflexivity.
Qed.
