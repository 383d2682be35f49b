(** * ReadCases: concrete cases for C57. *)
From Coq Require Import Strings.String.
From Verif Require Import GoBase Runewidth Width AlignSpec Table TableContract TableExamples Merge MergeSpec MergeExamples ReadSpec.
From Coq Require Import ZifyBool ZifyNat.
Local Open Scope Z_scope.

(** The separator is a space and a bar. *)
Lemma read_example : LegibleRows x7c (List.length mCols) mRows /\ Marks x7c mSep /\ Forall (BuiltIn exC) mCols /\ mCols <> []
  /\ stop (merge H 20 exC mTable (fun _ => true) (listOf mRows) 26 mSep true) = Finished
  /\ read_output mSep (List.concat (written (merge H 20 exC mTable (fun _ => true) (listOf mRows) 26 mSep true)))
     = [firstn 4 mRows; skipn 4 mRows]
  /\ read_output mSep (List.concat (written (merge V 20 exC mTable (fun _ => true) (listOf mRows) 26 mSep false)))
     = [[nth 0 mRows []; nth 3 mRows []]; [nth 1 mRows []; nth 4 mRows []]; [nth 2 mRows []]].
Proof.
  split; [|split; [|split; [exact mBuiltIn|split; [discriminate|split; [vm_compute; reflexivity|split; vm_compute; reflexivity]]]]].
  - assert (G : forall s, (negb (Nat.eqb (List.length s) 0) && forallb (fun b => negb (Byte.eqb b space) && negb (Byte.eqb b x0a) && negb (Byte.eqb b x7c)) s)%bool = true -> Legible x7c s).
    { intros s Hs. apply andb_true_iff in Hs. destruct Hs as [A B]. rewrite forallb_forall in B.
      split; [intros ->; discriminate A|]. repeat split; intros K; specialize (B _ K); discriminate B. }
    assert (K : forallb (fun row => forallb (fun s => negb (Nat.eqb (List.length s) 0) && forallb (fun b => negb (Byte.eqb b space) && negb (Byte.eqb b x0a) && negb (Byte.eqb b x7c)) s) (firstn (List.length mCols) row))%bool mRows = true) by (vm_compute; reflexivity).
    apply Forall_forall. intros row Hrow. rewrite forallb_forall in K. specialize (K row Hrow). rewrite forallb_forall in K.
    apply Forall_forall. intros s Hs. apply G, K, Hs.
  - split; [right; left; reflexivity|]. split; [discriminate|]. intros [K|[K|[]]]; discriminate K.
Qed.

(** A space at the start of a right-aligned cell is lost. *)
Lemma spaces_lost : exists (t : Table (list str) str str) cols rows rows' x sep m fuel maxWidth,
  Printable t cols (listOf rows) rows /\ Printable t cols (listOf rows') rows' /\ cols <> [] /\ Forall (BuiltIn exC) cols /\ Marks x sep
  /\ FitsRecorded exC t cols rows /\ FitsRecorded exC t cols rows'
  /\ Forall (fun row => Forall (fun s => s <> [] /\ ~ In x0a s /\ ~ In x s) row) (rows ++ rows')
  /\ merge m fuel exC t (fun _ => true) (listOf rows) maxWidth sep false = merge m fuel exC t (fun _ => true) (listOf rows') maxWidth sep false
  /\ stop (merge m fuel exC t (fun _ => true) (listOf rows) maxWidth sep false) = Finished /\ rows <> rows'.
Proof.
  exists mTable, mCols, [[lit "x"%string; lit "3"%string]], [[lit "x"%string; lit " 3"%string]], x7c, mSep, H, 1%nat, 26.
  split; [split; [reflexivity|apply listOf_serves|repeat constructor]|]. split; [split; [reflexivity|apply listOf_serves|repeat constructor]|].
  split; [discriminate|]. split; [exact mBuiltIn|].
  split; [split; [right; left; reflexivity|]; split; [discriminate|]; intros [K|[K|[]]]; discriminate K|].
  assert (F : forall u, vwidth exC u <= 2 -> FitsRecorded exC mTable mCols [[lit "x"%string; u]]).
  { intros u Hu row i s col [<-|[]] Hs Hcol. destruct i as [|[|i]]; cbn in Hs, Hcol; [| |destruct i; discriminate Hs].
    - injection Hs as <-. injection Hcol as <-. vm_compute. discriminate.
    - injection Hs as <-. injection Hcol as <-. exact Hu. }
  split; [apply F; vm_compute; discriminate|]. split; [apply F; vm_compute; discriminate|].
  split; [|split; [vm_compute; reflexivity|split; [vm_compute; reflexivity|discriminate]]].
  cbn [app lit]. repeat (apply Forall_cons || apply Forall_nil); (split; [discriminate|]); split; intros K; cbn in K; repeat (destruct K as [K|K]; [discriminate K|]); exact K.
Qed.
