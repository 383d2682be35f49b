(** * ColourCases: coloured cells, and one whose colour is not taken back. *)
From Coq Require Import Strings.String.
From Verif Require Import GoBase Utf8 GraphemeSpec Runewidth ConditionSpec Width EscapeSpec TextSpec AlignSpec Table TableContract TableExamples TableOpsProofs
  Merge MergeSpec MergeExamples WrapSpec TemplateSpec TerminalSpec TerminalProofs TerminalCases ColourSpec ColourProofs.
From Coq Require Import ZifyBool ZifyNat.
Local Open Scope Z_scope.

Definition red (s : string) : str := coloured (lit "31"%string) (lit s).
Definition cRows : list (list str) :=
  [[red "ab"%string; lit "12"%string]; [lit "x"%string; red "3"%string]; [coloured (lit "1;32"%string) [xe6; x97; xa5]; lit "5"%string]].

Definition closed_b (s : str) : bool :=
  forallb (fun x => negb ((fst x =? RuneError) && (snd x =? 1))) (decode s)
  && match tMode (show exC home s) with Ground => true | _ => false end
  && match in_force (tStyle (show exC home s)) with [] => true | _ => false end.
Lemma closed_b_ok s : closed_b s = true -> Closed exC s.
Proof.
  unfold closed_b. intros H. apply andb_true_iff in H. destruct H as [H H3]. apply andb_true_iff in H. destruct H as [H1 H2].
  split; [|split].
  - unfold ValidUTF8. apply Forall_forall. intros x Hx K. rewrite forallb_forall in H1. specialize (H1 x Hx). subst x. cbn [fst snd] in H1.
    rewrite !Z.eqb_refl in H1. discriminate.
  - destruct (tMode (show exC home s)); congruence.
  - destruct (in_force (tStyle (show exC home s))); congruence.
Qed.
Lemma closed_items rows : forallb (forallb closed_b) rows = true -> ClosedItems exC (listOf rows).
Proof.
  intros H i row _ E1. unfold listOf, fiGet in E1. unfold at_index in E1. destruct (i <? 0); [discriminate|].
  destruct (nth_error rows (Z.to_nat i)) as [row'|] eqn:K; [|discriminate]. injection E1 as <-.
  rewrite forallb_forall in H. specialize (H row' (nth_error_In _ _ K)). apply Forall_forall. intros s Hs.
  rewrite forallb_forall in H. apply closed_b_ok, H, Hs.
Qed.
Lemma mBuilt : Forall (fun mc => match mc with Some col => BuiltIn exC col | None => True end) (Columns (tSpec mTable)).
Proof. constructor; [right; exists ALeft; reflexivity|constructor; [right; exists ARight; reflexivity|constructor]]. Qed.

Definition red_ : list (list Z) := [[51; 49]].
(** Two items in a line, the third in a second: the padding is bare, so is the
    text after a coloured cell. *)
Lemma colour_example :
  Forall (fun mc => match mc with Some col => BuiltIn exC col | None => True end) (Columns (tSpec mTable))
  /\ ClosedItems exC (listOf cRows) /\ Closed exC mSep
  /\ map (paint exC home) (written (merge H 9 exC mTable (fun _ => true) (listOf cRows) 26 mSep false))
     = [[(97, red_); (98, red_)] ++ bare [32; 32; 32; 32; 32; 49; 50; 32; 124] ++ bare [120; 32; 32; 32; 32; 32; 32; 32] ++ [(51, red_)];
        [(26085, [[49; 59; 51; 50]])] ++ bare [32; 32; 32; 32; 32; 32; 53; 32; 124]].
Proof.
  split; [exact mBuilt|]. split; [apply closed_items; vm_compute; reflexivity|].
  split; [apply closed_b_ok; vm_compute; reflexivity|]. vm_compute. reflexivity.
Qed.

Lemma align_example :
  Forall (fun mc => match mc with Some col => BuiltIn exC col | None => True end) (Columns (tSpec mTable))
  /\ (forall name, 0 <= Width mTable name < 65536) /\ Forall (Closed exC) [red "ab"%string; red "3"%string]
  /\ snd (AlignFormattedItem mTable [red "ab"%string; red "3"%string])
     = Ok [red "ab"%string ++ lit "    "%string; lit " "%string ++ red "3"%string].
Proof.
  split; [exact mBuilt|]. split; [exact mWidths|]. split; [|vm_compute; reflexivity].
  repeat (constructor; [apply closed_b_ok; vm_compute; reflexivity|]). constructor.
Qed.

(** A cell that sets red and does not take it back. *)
Definition open_red : str := attr "31"%string ++ lit "ab"%string.
Lemma leak_example : written (merge H 9 exC mTable (fun _ => true) (listOf [[open_red; lit "12"%string]; [lit "x"%string; lit "3"%string]]) 12 mSep false)
  = [open_red ++ lit "     12"%string ++ [x0a]; lit "x       3"%string ++ [x0a]].
Proof. vm_compute. reflexivity. Qed.

(** The padding, the cells after it and the whole next line are red. *)
Lemma leak_refuted : exists c (t : Table (list str) str str) (rows : list (list str)) sep, Reachable c
  /\ Forall (fun mc => match mc with Some col => BuiltIn c col | None => True end) (Columns (tSpec t))
  /\ Forall (Forall ValidUTF8) rows /\ Forall (Forall (fun s => tMode (show c home s) = Ground)) rows /\ Closed c sep
  /\ exists first second, written (merge H 9 c t (fun _ => true) (listOf rows) 12 sep false) = [first; second]
  /\ paint c home (first ++ second) <> paint c home first ++ paint c home second
  /\ paint c home second = bare [120; 32; 32; 32; 32; 32; 32; 32; 51]
  /\ Forall (fun x => snd x = [[51; 49]]) (paint c home (first ++ second)).
Proof.
  exists exC, mTable, [[open_red; lit "12"%string]; [lit "x"%string; lit "3"%string]], mSep.
  split; [apply r_fresh|]. split; [exact mBuilt|].
  split; [repeat constructor; vm_compute; discriminate|]. split; [repeat constructor; vm_compute; reflexivity|].
  split; [apply closed_b_ok; vm_compute; reflexivity|].
  eexists _, _. split; [exact leak_example|]. split; [vm_compute; discriminate|]. split; [vm_compute; reflexivity|].
  vm_compute. repeat constructor.
Qed.

Lemma next_example : ValidUTF8 open_red /\ tMode (show exC home open_red) = Ground /\ ~ Closed exC open_red
  /\ Closed exC (red "ab"%string) /\ Closed exC (open_red ++ attr "0;00"%string).
Proof.
  split; [repeat constructor; vm_compute; discriminate|]. split; [vm_compute; reflexivity|].
  split; [intros (_ & _ & K); vm_compute in K; discriminate|]. split; apply closed_b_ok; vm_compute; reflexivity.
Qed.
