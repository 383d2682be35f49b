(** * CallsCases: objects that keep state, by example. *)
From Coq Require Import Strings.String.
From Coq Require Import ZifyBool ZifyNat.
From Verif Require Import GoBase CacheProofs Runewidth Width Table Merge TableContract TableExamples MergeSpec MergeLayout Calls CallsSpec CallsProofs CallsMerge CallsSearch CallsResults.
Local Open Scope Z_scope.

Section Checks.
Context {Item Val E G L : Type}.
Notation act := (act Item Val E G L).
Definition countsb (tr : list act) : bool :=
  forallb (fun a => match a with
    | Called q a => match q return answer q -> bool with CLen => fun a => match a with Ok n => 0 <=? n | _ => true end | _ => fun _ => true end a
    | _ => true end) tr.
Lemma countsb_ok tr : countsb tr = true -> Counts tr.
Proof. intros K n Hn. unfold countsb in K. rewrite forallb_forall in K. specialize (K _ Hn). cbn in K. lia. Qed.
Definition rowsb (P : list str -> bool) (tr : list act) : bool :=
  forallb (fun a => match a with
    | Called q a => match q return answer q -> bool with CGet _ => fun a => match a with Ok row => P row | _ => true end | _ => fun _ => true end a
    | _ => true end) tr.
Lemma rowsb_ok P tr : rowsb P tr = true -> forall i row, In (Called (CGet i) (Ok row)) tr -> P row = true.
Proof. intros K i row Hn. unfold rowsb in K. rewrite forallb_forall in K. exact (K _ Hn). Qed.
Lemma split4 {A B C D} (x : A * B * C * D) : x = (fst (fst (fst x)), snd (fst (fst x)), snd (fst x), snd x).
Proof. destruct x as [[[a b] c] d]. reflexivity. Qed.
End Checks.

Definition cA : str := lit "A"%string.
Definition cB : str := lit "B"%string.
Definition stars (n : nat) : str := List.repeat x2a n.

(** The state counts the calls.  Formatting also raises what is recorded for B
    to 9, as a getter does that formats another item of the same table; every
    text is longer than the one before.  The rows handed out are narrow up to
    the [late]-th call and wide after it, or, from the [short]-th on, empty. *)
Definition moody (late short : nat) : environment str str str nat nat nat :=
  fun q w m =>
  match q return nat * wmap * answer q with
  | CValue g item => (S w, m, Ok item)
  | CFormat g item value => (S w, (fun n => if str_eqb n cB then Z.max (m n) 9 else m n), Ok (value ++ stars w))
  | CString g name item => (S w, m, Ok (name ++ stars w))
  | CAlign al s width => (S w, m, Ok (s ++ stars al))
  | CLen => (S w, m, Ok 4)
  | CGet i => (S w, m, Ok (if (short <=? w)%nat then [] else if (late <=? w)%nat then [stars 12] else [stars 1]))
  | CWrite _ => (S w, m, Ok tt)
  end.
Lemma moody_grows late short : Grows (moody late short).
Proof. intros q w m n. destruct q; cbn - [Z.max]; try lia. match goal with |- _ <= if ?b then _ else _ => destruct b end; lia. Qed.

Definition kA : kcol nat nat := {| kName := cA; kGetter := Some 1%nat; kAlign := Some 2%nat |}.
Definition kB : kcol nat nat := {| kName := cB; kGetter := Some 2%nat; kAlign := None |}.
Definition kN : kcol nat nat := {| kName := cA; kGetter := None; kAlign := None |}.

Lemma format_example :
  let run := krun (moody 0 0) (FormatItemK exC [Some kA; Some kB] (lit "x"%string)) 0%nat wempty in
  snd (fst run) = Ok [lit "x*"%string; lit "x***"%string] /\ (snd (fst (fst run))) cA = 2 /\ (snd (fst (fst run))) cB = 9 /\
  snd run = [Called (CValue 1%nat (lit "x"%string)) (Ok (lit "x"%string)); Called (CFormat 1%nat (lit "x"%string) (lit "x"%string)) (Ok (lit "x*"%string)); Raised cA 2;
             Called (CValue 2%nat (lit "x"%string)) (Ok (lit "x"%string)); Called (CFormat 2%nat (lit "x"%string) (lit "x"%string)) (Ok (lit "x***"%string)); Raised cB 4].
Proof. vm_compute. auto. Qed.
Lemma basic_example :
  let run := krun (moody 0 0) (FormatItemBasicK [Some kA; Some kB; Some kN] (lit "x"%string) (lit ","%string)) 0%nat wempty in
  snd (fst run) = Panic NilDereference /\
  snd run = [Called (CString 1%nat cA (lit "x"%string)) (Ok cA); Called (CString 2%nat cB (lit "x"%string)) (Ok (lit "B*"%string))].
Proof. vm_compute. auto. Qed.
Lemma align_example :
  let run := krun (moody 0 0) (AlignFormattedItemK [Some kA; Some kB] [lit "p"%string; lit "q"%string]) 0%nat (wset wempty cA 5) in
  snd (fst run) = ([lit "p**"%string; lit "q"%string], Ok [lit "p**"%string; lit "q"%string]) /\
  snd run = [Looked cA 5; Called (CAlign 2%nat (lit "p"%string) 5) (Ok (lit "p**"%string))].
Proof. vm_compute. auto. Qed.

Definition m12 : wmap := wset wempty cA 12.
Definition one (late short : nat) (compact : bool) := krun (moody late short) (mergeK V 9 exC [Some kN] 20 (lit "|"%string) compact) 0%nat m12.
Definition ends (late short : nat) (compact : bool) (r : option (outcome Empty_set unit)) : Prop :=
  exists w' m' tr, one late short compact = (w', m', r, tr) /\ Counts tr.
Lemma ends_ok late short compact r : snd (fst (one late short compact)) = r -> countsb (snd (one late short compact)) = true -> ends late short compact r.
Proof. intros <- K. do 3 eexists. split; [apply split4|]. apply countsb_ok. exact K. Qed.
(** The first four rows handed out are narrow, the next four wide. *)
Lemma merge_example :
  ends 3 99 false (Some (Ok tt)) /\ ends 6 99 true (Some (Ok tt)) /\ ends 6 8 true (Some (Panic IndexOutOfRange)) /\
  kreckoned m12 [kN] (lit "|"%string) mod 65536 <> 0 /\ kestimate m12 [kN] (lit "|"%string) 20 = 1.
Proof.
  split; [apply ends_ok; vm_compute; reflexivity|]. split; [apply ends_ok; vm_compute; reflexivity|]. split; [apply ends_ok; vm_compute; reflexivity|].
  split; [vm_compute; discriminate|vm_compute; reflexivity].
Qed.
Lemma zero_example : kreckoned wempty [kN; kB] [] mod 65536 = 0.
Proof. vm_compute. reflexivity. Qed.

Lemma moody_quiet_merge late short : let env q w (m : wmap) := let '(w', _, a) := moody late short q w m in (w', m, a) in Quiet env.
Proof. intros env q w m. unfold env. destruct (moody late short q w m) as [[w' m'] a]. reflexivity. Qed.

Lemma narrow_row row : match row with [s] => vwidth exC s <=? 12 | _ => false end = true -> exists s, row = [s] /\ vwidth exC s <= m12 cA.
Proof.
  assert (e : m12 cA = 12) by (vm_compute; reflexivity). rewrite e. destruct row as [|s row]; [discriminate|]. destruct row; [|discriminate].
  intros K. exists s. split; [reflexivity|]. apply Z.leb_le. exact K.
Qed.
Lemma changing_refuted : exists (env : environment str str str nat nat nat) c name maxWidth sep m0 w' m' tr, Quiet env /\
  krun env (mergeK V 9 c [Some {| kName := name; kGetter := None; kAlign := None |}] maxWidth sep true) 0%nat m0 = (w', m', Some (Ok tt), tr) /\
  (forall i row, In (Called (CGet i) (Ok row)) tr -> exists s, row = [s] /\ vwidth c s <= m0 name) /\ m0 name <= maxWidth /\
  exists text, In (Called (CWrite text) (Ok tt)) tr /\ maxWidth < vwidth c text.
Proof.
  pose (env := fun q w (m : wmap) => let '(w', _, a) := moody 6 99 q w m in (w', m, a)).
  exists env, exC, cA, 20, (lit "|"%string), m12. do 3 eexists. split; [exact (moody_quiet_merge 6 99)|].
  set (x := krun env _ 0%nat m12). assert (e1 : snd (fst x) = Some (Ok tt)) by (vm_compute; reflexivity).
  assert (e2 : rowsb (fun row => match row with [s] => vwidth exC s <=? 12 | _ => false end) (snd x) = true) by (vm_compute; reflexivity).
  assert (e3 : exists i text, nth_error (snd x) i = Some (Called (CWrite text) (Ok tt)) /\ 20 < vwidth exC text).
  { exists 10%nat, (stars 12 ++ lit "|"%string ++ stars 12 ++ [x0a])%list. split; vm_compute; reflexivity. }
  split; [rewrite (split4 x), e1; reflexivity|]. split.
  - intros i row Hin. apply narrow_row. exact (rowsb_ok _ _ e2 i row Hin).
  - split; [vm_compute; discriminate|]. destruct e3 as (i & text & Hn & Hw). exists text. split; [exact (nth_error_In _ _ Hn)|exact Hw].
Qed.
