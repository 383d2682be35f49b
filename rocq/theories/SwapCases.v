(** * SwapCases: tables replaced from within, by example. *)
From Coq Require Import Strings.String.
From Coq Require Import ZifyBool ZifyNat.
From Verif Require Import GoBase CacheProofs Runewidth Width Table Merge TableContract TableExamples MergeSpec
  Calls CallsSpec CallsCases Live LiveSpec LiveCases Swap SwapSpec SwapProofs SwapMerge.
Local Open Scope Z_scope.

(** As [acting] in LiveCases.v: the [t]-th call does [eff] to the memory. *)
Definition dealing (t : nat) (eff : smem nat nat -> smem nat nat) : objects str str str nat nat nat :=
  fun q k m0 =>
  let m := if Nat.eqb k t then eff m0 else m0 in
  match q return nat * smem nat nat * lanswer q with
  | CValue g item => (S k, m, Ok item)
  | CFormat g item value => (S k, m, Ok (value ++ stars g))
  | CString g name item => (S k, m, Ok name)
  | CAlign al s width => (S k, m, Ok s)
  | CLen => (S k, m, Ok 3)
  | CGet i => (S k, sset_rows m (sRows m ++ [[stars (S (Z.to_nat i)); cA; cB]]), Ok {| hArr := List.length (sRows m); hLen := 3 |})
  | CWrite _ => (S k, m, Ok tt)
  end.
(** [t.TableSpec = nil] *)
Definition nospec (m : smem nat nat) : smem nat nat :=
  {| sSpec := None; sMap := sMap m; sSpecs := sSpecs m; sMaps := sMaps m; sCols := sCols m; sArrs := sArrs m; sRows := sRows m |}.
(** [*t = *NewTable(t.TableSpec)] *)
Definition anew (m : smem nat nat) : smem nat nat :=
  {| sSpec := sSpec m; sMap := Some (List.length (sMaps m)); sSpecs := sSpecs m; sMaps := sMaps m ++ [wempty]; sCols := sCols m; sArrs := sArrs m; sRows := sRows m |}.
Definition same (m : smem nat nat) : smem nat nat := m.
Definition duo : smem nat nat :=
  {| sSpec := Some 0%nat; sMap := Some 0%nat; sSpecs := [{| hArr := 0; hLen := 2 |}]; sMaps := [wset (wset wempty cA 5) cB 5];
     sCols := [kA; kBare]; sArrs := [[Some 0%nat; Some 1%nat; None]]; sRows := [[cA; cB]] |}.
Definition blank : smem nat nat := sset_maps duo [wempty].

Definition result {A} (r : nat * smem nat nat * A * list (sevent str str str nat nat)) : A := snd (fst r).
Definition ending {A} (r : nat * smem nat nat * A * list (sevent str str str nat nat)) : smem nat nat := snd (fst (fst r)).
Definition lines_of (tr : list (sevent str str str nat nat)) : list str :=
  flat_map (fun x => match sAct x with SCalled (CWrite s) _ => [s] | _ => [] end) tr.
Definition now_width (m : smem nat nat) (name : str) : Z := width_in m (sMap m) name.

Definition sfmt t eff m := srun (dealing t eff) (FormatItemS exC (lit "x"%string)) 0%nat m.
Definition smrg md t eff compact := srun (dealing t eff) (mergeS md 9 exC 30 (lit "|"%string) compact) 0%nat duo.

(** Formatting. *)
Lemma format_cases :
  result (sfmt 99 same blank) = Ok [lit "x*"%string; lit "x**"%string] /\
  (now_width (ending (sfmt 99 same blank)) cA, now_width (ending (sfmt 99 same blank)) cB) = (2, 3) /\
  result (sfmt 1 nospec blank) = Ok [lit "x*"%string; lit "x**"%string] /\
  result (sfmt 1 anew blank) = Ok [lit "x*"%string; lit "x**"%string] /\
  (now_width (ending (sfmt 1 anew blank)) cA, now_width (ending (sfmt 1 anew blank)) cB) = (0, 0) /\
  (nth 0 (sMaps (ending (sfmt 1 anew blank))) wempty cA, nth 0 (sMaps (ending (sfmt 1 anew blank))) wempty cB) = (2, 3).
Proof. repeat split; vm_compute; reflexivity. Qed.

Lemma dealing_same (R : smem nat nat -> smem nat nat -> Prop) t eff1 eff2 :
  (forall m1 m2, R m1 m2 -> R (eff1 m1) (eff2 m2)) -> (forall m1 m2, R m1 m2 -> sRows m1 = sRows m2) ->
  (forall m1 m2 l, R m1 m2 -> R (sset_rows m1 l) (sset_rows m2 l)) -> DoSame R (dealing t eff1) (dealing t eff2).
Proof.
  intros HE HW HS q k m1 m2 HR. set (n1 := if Nat.eqb k t then eff1 m1 else m1). set (n2 := if Nat.eqb k t then eff2 m2 else m2).
  assert (HN : R n1 n2) by (unfold n1, n2; destruct (Nat.eqb k t); auto).
  destruct q; cbn; fold n1; fold n2; repeat split; auto.
  - rewrite (HW _ _ HN). reflexivity.
  - rewrite (HW _ _ HN). apply HS. exact HN.
Qed.
Lemma nospec_table t : DoSame SameButTable (dealing t nospec) (dealing t same).
Proof. apply dealing_same; unfold SameButTable; cbn; tauto. Qed.
Lemma nospec_spec t : DoSame SameButSpec (dealing t nospec) (dealing t same).
Proof. apply dealing_same; unfold SameButSpec, SameButTable; cbn; tauto. Qed.
Lemma dealing_raises t eff : (forall m, Raises m (eff m)) -> forall q w m, Raises m (snd (fst (dealing t eff q w m))).
Proof.
  intros HE q w m. assert (K : Raises m (if Nat.eqb w t then eff m else m)) by (destruct (Nat.eqb w t); [apply HE|apply raises_refl]).
  destruct q; cbn [dealing fst snd]; try exact K.
Qed.
Lemma nospec_gone t eff : (forall m, gone m = true -> gone (eff m) = true) -> StaysGone (dealing t eff).
Proof.
  intros HE q w m Hm. assert (K : gone (if Nat.eqb w t then eff m else m) = true) by (destruct (Nat.eqb w t); auto).
  destruct q; cbn [dealing fst snd]; exact K.
Qed.
Lemma anew_raises m : Raises m (anew m).
Proof.
  split; cbn [anew sMaps]; [rewrite app_length; cbn; lia|]. intros a name Ha. rewrite app_nth1 by exact Ha. lia.
Qed.

Lemma align_case :
  result (srun (dealing 0 nospec) (AlignFormattedItemS {| hArr := 0; hLen := 2 |}) 0%nat duo) = Ok {| hArr := 0; hLen := 2 |} /\
  map (fun x => match x with SLooked _ v => [v] | _ => [] end) (acts_of (snd (srun (dealing 0 nospec) (AlignFormattedItemS {| hArr := 0; hLen := 2 |}) 0%nat duo)))
  = map (fun x => match x with SLooked _ v => [v] | _ => [] end) (acts_of (snd (srun (dealing 0 same) (AlignFormattedItemS {| hArr := 0; hLen := 2 |}) 0%nat duo))) /\
  gone (ending (srun (dealing 0 nospec) (AlignFormattedItemS {| hArr := 0; hLen := 2 |}) 0%nat duo)) = true.
Proof. repeat split; vm_compute; reflexivity. Qed.

(** Merging: items of two columns, three of them. *)
Lemma merge_cases :
  result (smrg H 99 same false) = Some (Ok tt) /\ lines_of (snd (smrg H 99 same false)) = [lit "* A|** A"%string ++ [x0a]; lit "*** A|"%string ++ [x0a]] /\
  (* Get sets it to nil *)
  result (smrg H 4 nospec false) = Some (Panic NilDereference) /\ lines_of (snd (smrg H 4 nospec false)) = [] /\
  (* the last alignment of a line does *)
  result (smrg H 6 nospec false) = Some (Panic NilDereference) /\ lines_of (snd (smrg H 6 nospec false)) = [lit "* A|** A"%string ++ [x0a]] /\
  written_gone (snd (smrg H 6 nospec false)) = 1%nat /\
  (* the last alignment of all *)
  result (smrg H 10 nospec false) = Some (Ok tt) /\ written_gone (snd (smrg H 10 nospec false)) = 1%nat /\
  (* a compact merge in its search *)
  result (smrg V 3 nospec true) = Some (Panic NilDereference) /\ lines_of (snd (smrg V 3 nospec true)) = [].
Proof. repeat split; vm_compute; reflexivity. Qed.

(** The Get that sets it to nil, with what it returned. *)
Lemma plain_case : exists pre x, snd (smrg H 4 nospec false) = pre ++ x :: [] /\ isGet x = true /\ gone (sAfter x) = true.
Proof.
  exists (firstn 8 (snd (smrg H 4 nospec false))).
  destruct (skipn 8 (snd (smrg H 4 nospec false))) as [|x l] eqn:K; [exfalso; apply (f_equal (@List.length _)) in K; vm_compute in K; discriminate|].
  exists x. assert (Kl : List.length (skipn 8 (snd (smrg H 4 nospec false))) = 1%nat) by (vm_compute; reflexivity).
  assert (Kx : map (fun y => (isGet y, gone (sAfter y))) (skipn 8 (snd (smrg H 4 nospec false))) = [(true, true)]) by (vm_compute; reflexivity).
  rewrite K in Kl, Kx. cbn in Kx. injection Kx as K1 K2 _. destruct l; [|discriminate]. rewrite <- K, firstn_skipn. auto.
Qed.

Lemma forallb_Forall_gone (tr : list (sevent str str str nat nat)) : forallb (fun x => negb (gone (sAfter x))) tr = true -> Forall (fun x => gone (sAfter x) = false) tr.
Proof.
  intros K. rewrite forallb_forall in K. apply Forall_forall. intros x Hx. specialize (K x Hx). destruct (gone (sAfter x)); [discriminate|reflexivity].
Qed.

(** The table replaced by a new one while a merge runs: the rest of the cells are
    aligned to the width 0. *)
Lemma anew_case :
  Forall (fun x => gone (sAfter x) = false) (snd (smrg H 4 anew false)) /\ gone duo = false /\
  result (smrg H 4 anew false) = Some (Ok tt) /\
  flat_map (fun x => match sAct x with SCalled (CAlign _ _ w) _ => [w] | _ => [] end) (snd (smrg H 4 anew false)) = [5; 5; 0; 0; 0; 0].
Proof.
  split; [|repeat split; vm_compute; reflexivity]. apply forallb_Forall_gone. vm_compute. reflexivity.
Qed.

(** What FormatItem is for. *)
Lemma kept_refuted : exists t eff m0 w' m' texts tr,
  srun (dealing t eff) (FormatItemS exC (lit "x"%string)) 0%nat m0 = (w', m', Ok texts, tr) /\
  (forall q w m, Raises m (snd (fst (dealing t eff q w m)))) /\ gone m' = false /\
  exists name v, In (SRaised (sMap m0) name v) (acts_of tr) /\ now_width m' name < v.
Proof.
  exists 1%nat, anew, blank.
  destruct (sfmt 1 anew blank) as [[[w' m'] r] tr] eqn:K. pose proof format_cases as (_ & _ & _ & F1 & F2 & _). rewrite K in F1, F2. cbn [result ending fst snd] in F1, F2. subst r.
  exists w', m', [lit "x*"%string; lit "x**"%string], tr. split; [exact K|]. split; [apply dealing_raises, anew_raises|].
  assert (Kg : gone (ending (sfmt 1 anew blank)) = false) by (vm_compute; reflexivity). rewrite K in Kg. split; [exact Kg|].
  exists cA, 2. split.
  - assert (Kt : nth 2 (acts_of (snd (sfmt 1 anew blank))) (SLooked cA 0) = SRaised (sMap blank) cA 2) by (vm_compute; reflexivity).
    assert (Kn : (2 < List.length (acts_of (snd (sfmt 1 anew blank))))%nat) by (vm_compute; lia).
    rewrite <- Kt. rewrite K in Kn |- *. apply nth_In. exact Kn.
  - injection F2 as F2 _. rewrite F2. lia.
Qed.
