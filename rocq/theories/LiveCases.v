(** * LiveCases: what C71 says, put together, and by example. *)
From Coq Require Import Strings.String.
From Coq Require Import ZifyBool ZifyNat.
From Verif Require Import GoBase CacheProofs Runewidth Width Table Merge TableContract TableExamples MergeSpec MergeLayout
  Calls CallsSpec CallsProofs CallsMerge CallsSearch CallsResults CallsSteady CallsFinal CallsCases Live LiveSpec LiveProofs LiveFormat LiveAlign LiveMerge LiveAny.
Local Open Scope Z_scope.

Section Together.
Context {Item Val E G L W : Type} (env : surroundings Item Val E G L W).
Lemma format_acts c item w0 m0 w' m' r tr : OnlyAdds env -> Valid m0 ->
  lrun env (FormatItemL c item) w0 m0 = (w', m', r, tr) -> FormatActs c item (cols_now m0) (acts tr) r.
Proof. intros OA V e. destruct (format_adds env c item w0 m0 w' m' r tr OA V e) as (mk & K). exact (format_run _ _ _ _ _ _ _ _ _ _ K). Qed.
Lemma basic_acts item sep w0 m0 w' m' r tr : OnlyAdds env -> Valid m0 ->
  lrun env (FormatItemBasicL item sep) w0 m0 = (w', m', r, tr) -> BasicActs item sep (cols_now m0) (acts tr) r.
Proof. intros OA V e. destruct (basic_adds env item sep w0 m0 w' m' r tr OA V e) as (mk & K). exact (basic_run _ _ _ _ _ _ _ _ _ _ K). Qed.
Lemma plain_adds md fuel c cols maxWidth sep w0 m0 w' m' tr : OnlyAdds env -> RowsKept env -> Valid m0 -> cols_now m0 = map Some cols ->
  lrun env (mergeL md fuel c maxWidth sep false) w0 m0 = (w', m', Some (Ok tt), tr) -> (forall n, In (Called CLen (Ok n)) (acts tr) -> 0 < n) ->
  exists g rest lines, Z.of_nat g = kestimate (lWidths m0) cols sep maxWidth /\ acts tr = looks (lWidths m0) cols ++ rest /\ Prints c cols sep md g true lines rest.
Proof.
  intros OA RK V Hc e HP. destruct (merge_sim env md fuel c maxWidth sep false w0 m0 w' m' _ tr OA RK V e) as (mk & K); [right; split; [reflexivity|exact HP]|].
  rewrite Hc in K. eapply plain_finished; [exact K|]. intros n Hn. specialize (HP n Hn). lia.
Qed.
Lemma compact_adds md fuel c cols maxWidth sep w0 m0 w' m' tr : OnlyAdds env -> RowsKept env -> Valid m0 -> cols_now m0 = map Some cols ->
  lrun env (mergeL md fuel c maxWidth sep true) w0 m0 = (w', m', Some (Ok tt), tr) -> (forall n, In (Called CLen (Ok n)) (acts tr) -> 0 < n) ->
  exists g0 g Wd search print lines, Z.of_nat g0 = kestimate (lWidths m0) cols sep maxWidth /\ acts tr = looks (lWidths m0) cols ++ search ++ print /\
    Searches c md cols sep maxWidth g0 None search g Wd /\
    match Wd with None => Prints c cols sep md g true lines print | Some Wg => Prints c cols sep md g false lines print /\ UsesWidths Wg lines end.
Proof.
  intros OA RK V Hc e HP. destruct (merge_sim env md fuel c maxWidth sep true w0 m0 w' m' _ tr OA RK V e) as (mk & K); [right; split; [reflexivity|exact HP]|].
  rewrite Hc in K. eapply compact_finished; [exact K|]. intros n Hn. specialize (HP n Hn). lia.
Qed.
Lemma blame_adds md fuel c cols maxWidth sep compact w0 m0 w' m' p tr : OnlyAdds env -> RowsKept env -> Valid m0 -> cols_now m0 = map Some cols ->
  lrun env (mergeL md fuel c maxWidth sep compact) w0 m0 = (w', m', Some (Panic p), tr) -> Counts (acts tr) ->
  kreckoned (lWidths m0) cols sep mod 65536 <> 0 -> (hLen (lSlice m0) < hLen (lSlice m'))%nat \/ Blame (List.length cols) (acts tr) p.
Proof.
  intros OA RK V Hc e HP HZ. destruct (Nat.lt_ge_cases (hLen (lSlice m0)) (hLen (lSlice m'))) as [Hl|Hl]; [left; exact Hl|right].
  pose proof (run_more env _ _ _ _ _ _ _ OA V e) as A.
  destruct (merge_sim env md fuel c maxWidth sep compact w0 m0 w' m' _ tr OA RK V e) as (mk & K); [left; lia|].
  rewrite Hc in K. eapply merge_blame; eauto.
Qed.
Lemma any_text md fuel c maxWidth sep compact w0 m0 w' m' r tr : lrun env (mergeL md fuel c maxWidth sep compact) w0 m0 = (w', m', r, tr) ->
  AsksWithin None (acts tr) /\
  (forall x text a, In x tr -> eAct x = LCalled (CWrite text) a -> LineOf (hLen (lSlice m0)) sep text) /\
  (forall x, In x tr -> match eAct x with LRaised _ _ | LStored _ _ _ => False | _ => True end).
Proof.
  intros e. apply merge_any in e. destruct e as [A F]. rewrite Forall_forall in F. split; [apply A|]. split.
  - intros x text a Hx D. specialize (F x Hx). unfold fine in F. rewrite D in F. exact F.
  - intros x Hx. specialize (F x Hx). unfold fine in F. destruct (eAct x); try exact Logic.I; destruct F.
Qed.
Lemma format_then_align c item w0 m0 w' m' texts tr a w2 m2 : lrun env (FormatItemL c item) w0 m0 = (w', m', Ok texts, tr) ->
  hLen (lSlice m2) <> hLen (lSlice m0) ->
  lrun env (AlignFormattedItemL {| hArr := a; hLen := List.length texts |}) w2 m2 = (w2, m2, Err (Z.of_nat (hLen (lSlice m0)), Z.of_nat (hLen (lSlice m2))), []).
Proof.
  intros e D. apply format_live in e. destruct e as (cells & Hn & -> & _). rewrite align_later; cbn [hLen]; rewrite map_length, Hn; [reflexivity|]. auto.
Qed.
End Together.

(** ** By example *)
(** The state counts the calls.  The [t]-th call does [eff] to the columns.
    Values are the item, texts the value, cells come back as they are given; the
    list has three items of three cells, each in a slice of its own. *)
Definition acting (t : nat) (eff : lmem nat nat -> lmem nat nat) : surroundings str str str nat nat nat :=
  fun q k m0 =>
  let m := if Nat.eqb k t then eff m0 else m0 in
  match q return nat * lmem nat nat * lanswer q with
  | CValue g item => (S k, m, Ok item)
  | CFormat g item value => (S k, m, Ok (value ++ stars g))
  | CString g name item => (S k, m, Ok name)
  | CAlign al s width => (S k, m, Ok s)
  | CLen => (S k, m, Ok 3)
  | CGet i => (S k, {| lCols := lCols m; lArrs := lArrs m; lSlice := lSlice m; lWidths := lWidths m;
                       lRows := lRows m ++ [[stars (S (Z.to_nat i)); cA; cB]] |}, Ok {| hArr := List.length (lRows m); hLen := 3 |})
  | CWrite _ => (S k, m, Ok tt)
  end.
Definition more (m : lmem nat nat) : lmem nat nat := add_column m (Some 0%nat) 0.
Definition fewer (m : lmem nat nat) : lmem nat nat :=
  {| lCols := lCols m; lArrs := lArrs m; lSlice := {| hArr := hArr (lSlice m); hLen := 1 |}; lRows := lRows m; lWidths := lWidths m |}.
(** Every column becomes one named B, with the second getter. *)
Definition renamed (m : lmem nat nat) : lmem nat nat :=
  {| lCols := map (fun _ => kB) (lCols m); lArrs := lArrs m; lSlice := lSlice m; lRows := lRows m; lWidths := lWidths m |}.
(** Two columns, with room for one more in their array. *)
Definition kBare : kcol nat nat := {| kName := cB; kGetter := Some 2%nat; kAlign := Some 3%nat |}.
Definition two : lmem nat nat :=
  {| lCols := [kA; kBare]; lArrs := [[Some 0%nat; Some 1%nat; None]]; lSlice := {| hArr := 0; hLen := 2 |}; lRows := []; lWidths := wset (wset wempty cA 5) cB 5 |}.

Lemma two_valid : Valid two /\ cols_now two = map Some [kA; kBare].
Proof. split; [split; cbn; lia|reflexivity]. Qed.
Lemma acting_adds t : OnlyAdds (acting t more) /\ RowsKept (acting t more).
Proof.
  assert (K : forall k m, Valid m -> Adds m (if Nat.eqb k t then more m else m)).
  { intros k m V. destruct (Nat.eqb k t); [apply add_adds; exact V|apply adds_refl; exact V]. }
  split.
  - intros q k m V. specialize (K k m V). destruct q; try exact K.
    set (m1 := if Nat.eqb k t then more m else m) in *. destruct K as [[K1 K2] K3 K4 K5 K6 K7]. split; [split|..]; assumption.
  - split.
    + intros al s v k m a Ha. cbn. destruct (Nat.eqb k t); [|reflexivity]. unfold more, add_column. destruct (Nat.ltb _ _); reflexivity.
    + intros i k m. cbn. rewrite app_length. cbn. lia.
Qed.

Definition wsep : str := lit "|"%string.
Definition outcome_of {W R} (x : W * lmem nat nat * R * list (event str str str nat nat)) : R := snd (fst x).
Definition columns_after {W R} (x : W * lmem nat nat * R * list (event str str str nat nat)) : nat := hLen (lSlice (snd (fst (fst x)))).
Definition written {W R} (x : W * lmem nat nat * R * list (event str str str nat nat)) : list str :=
  flat_map (fun e => match eAct e with LCalled (CWrite s) _ => [s] | _ => [] end) (snd x).

(** A getter adds a column while an item is formatted: the row has a cell for
    each of the two columns there were, and is rejected by AlignFormattedItem. *)
Definition fmt (t : nat) eff := lrun (acting t eff) (FormatItemL exC (lit "x"%string)) 0%nat two.
Lemma format_more_example :
  outcome_of (fmt 1 more) = Ok [lit "x*"%string; lit "x**"%string] /\ columns_after (fmt 1 more) = 3%nat /\
  outcome_of (lrun (acting 99 more) (AlignFormattedItemL {| hArr := 0; hLen := 2 |}) 0%nat (snd (fst (fst (fmt 1 more))))) = Err (2, 3).
Proof. vm_compute. auto. Qed.
(** A getter, asked for the first column's value, renames the columns and
    replaces their getters: the text comes from the new getter and is recorded
    under the new name. *)
Lemma format_renamed_example :
  outcome_of (fmt 0 renamed) = Ok [lit "x**"%string; lit "x**"%string] /\
  acts (snd (fmt 0 renamed)) =
    [Called (CValue 1%nat (lit "x"%string)) (Ok (lit "x"%string)); Called (CFormat 2%nat (lit "x"%string) (lit "x"%string)) (Ok (lit "x**"%string)); Raised cB 3;
     Called (CValue 2%nat (lit "x"%string)) (Ok (lit "x"%string)); Called (CFormat 2%nat (lit "x"%string) (lit "x"%string)) (Ok (lit "x**"%string)); Raised cB 3].
Proof. vm_compute. auto. Qed.
Lemma basic_more_example :
  let x := lrun (acting 0 more) (FormatItemBasicL (lit "x"%string) wsep) 0%nat two in outcome_of x = Ok (lit "A|B"%string) /\ columns_after x = 3%nat.
Proof. vm_compute. auto. Qed.
Lemma align_more_example :
  let m := {| lCols := lCols two; lArrs := lArrs two; lSlice := lSlice two; lRows := [[cB; cA]]; lWidths := lWidths two |} in
  let x := lrun (acting 0 more) (AlignFormattedItemL {| hArr := 0; hLen := 2 |}) 0%nat m in
  Valid m /\ outcome_of x = Ok {| hArr := 0; hLen := 2 |} /\ columns_after x = 3%nat /\ row_in (snd (fst (fst x))) {| hArr := 0; hLen := 2 |} = [cB; cA].
Proof. split; [split; cbn; lia|]. vm_compute. auto. Qed.

(** Merging three items of two columns, one to a line.  Calls: Len 0; then for
    each item Get, two alignments and the write. *)
Definition mrg (t : nat) eff (compact : bool) := lrun (acting t eff) (mergeL V 9 exC 12 wsep compact) 0%nat two.
Lemma merge_more_example :
  (outcome_of (mrg 1 more false) = Some (Panic IndexOutOfRange) /\ written (mrg 1 more false) = []) /\
  (outcome_of (mrg 4 more false) = Some (Panic IndexOutOfRange) /\ written (mrg 4 more false) = [lit "* A
"%string]) /\
  (outcome_of (mrg 12 more false) = Some (Ok tt) /\ columns_after (mrg 12 more false) = 3%nat /\ written (mrg 12 more false) = [lit "* A
"%string; lit "** A
"%string; lit "*** A
"%string]).
Proof. vm_compute. auto 10. Qed.
Lemma merge_fewer_example :
  outcome_of (mrg 4 fewer false) = Some (Ok tt) /\ written (mrg 4 fewer false) = [lit "* A
"%string; lit "** 
"%string; lit "*** 
"%string].
Proof. vm_compute. auto. Qed.
Definition goodb (a : act str str str nat nat) : bool :=
  match a with
  | Called q a => match q return answer q -> bool with
      | CGet _ => fun a => match a with Ok row => Nat.eqb (List.length row) 3 | _ => false end
      | CAlign _ _ _ => fun a => match a with Panic _ => false | _ => true end
      | CLen => fun a => match a with Ok n => 0 <? n | _ => false end
      | CWrite _ => fun a => match a with Ok _ => true | _ => false end
      | _ => fun _ => true
      end a
  | _ => true end.
Lemma good_unblamed tr p : forallb goodb tr = true -> ~ Blame 3 tr p.
Proof.
  rewrite forallb_forall. intros K B. assert (last : forall tr' a, tr = tr' ++ [a] -> goodb a = true).
  { intros tr' a ->. apply K. apply in_or_app. right. left. reflexivity. }
  destruct B as [(tr' & al & s & w & e)|[(tr' & e)|[(tr' & i & e)|[(tr' & s & e)|[(_ & tr' & s & x & e)|(_ & i & row & Hin & Hl)]]]]];
    try (specialize (last _ _ e); discriminate).
  specialize (K _ Hin). apply Nat.eqb_eq in K. lia.
Qed.
Lemma good_counts tr : forallb goodb tr = true -> forall n, In (Called CLen (Ok n)) tr -> 0 < n.
Proof. rewrite forallb_forall. intros K n Hn. specialize (K _ Hn). apply Z.ltb_lt. exact K. Qed.
Lemma grown_refuted : exists (env : surroundings str str str nat nat nat) c maxWidth sep m0 w' m' p tr, OnlyAdds env /\ RowsKept env /\ Valid m0 /\
  lrun env (mergeL V 9 c maxWidth sep false) 0%nat m0 = (w', m', Some (Panic p), tr) /\ ~ Blame (hLen (lSlice m')) (acts tr) p.
Proof.
  exists (acting 4 more), exC, 12, wsep, two. do 4 eexists. split; [apply acting_adds|]. split; [apply acting_adds|]. split; [apply two_valid|].
  change (lrun (acting 4 more) (mergeL V 9 exC 12 wsep false) 0%nat two) with (mrg 4 more false). set (x := mrg 4 more false).
  assert (e1 : snd (fst x) = Some (Panic IndexOutOfRange)) by (vm_compute; reflexivity). assert (e2 : forallb goodb (acts (snd x)) = true) by (vm_compute; reflexivity).
  assert (e3 : hLen (lSlice (snd (fst (fst x)))) = 3%nat) by (vm_compute; reflexivity).
  split; [rewrite (split4 x), e1; reflexivity|]. pose proof (good_unblamed _ IndexOutOfRange e2) as K. rewrite <- e3 in K. exact K.
Qed.
(** Compact: two items to a line; a column added by the last write, by an
    alignment of the last item, or, too early, while measuring. *)
Lemma merge_compact_example :
  (outcome_of (mrg 25 more true) = Some (Ok tt) /\ columns_after (mrg 25 more true) = 3%nat /\ written (mrg 25 more true) = [lit "* A|*** A
"%string; lit "** A|
"%string]) /\ forallb goodb (acts (snd (mrg 25 more true))) = true /\
  (outcome_of (mrg 23 more true) = Some (Ok tt) /\ columns_after (mrg 23 more true) = 3%nat) /\
  (outcome_of (mrg 3 more true) = Some (Panic IndexOutOfRange) /\ written (mrg 3 more true) = []).
Proof. vm_compute. auto 12. Qed.
Lemma merge_blame_example : kreckoned (lWidths two) [kA; kBare] wsep mod 65536 <> 0.
Proof. vm_compute. discriminate. Qed.
(** Room in the array: the column is put there; no room: a new array. *)
Lemma add_example : hArr (lSlice (more two)) = 0%nat /\ hArr (lSlice (more (more two))) = 1%nat /\
  cols_now (more (more two)) = map Some [kA; kBare; kA; kA] /\ Valid (more (more two)).
Proof. split; [vm_compute; reflexivity|]. split; [vm_compute; reflexivity|]. split; [vm_compute; reflexivity|]. split; vm_compute; lia. Qed.
