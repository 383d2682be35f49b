(** * WeakRaceCases: the statements of C77 and executions meeting their hypotheses. *)
From Coq Require Import ZifyBool ZifyNat Strings.String.
From Verif Require Import GoBase Uniseg Runewidth ConditionSpec RunewidthProofs LutRace LutRaceSpec LutRaceProofs LutRaceCases
  WeakRace WeakRaceSpec WeakRaceProofs WeakRaceRuns WeakRaceHalts.
Local Open Scope Z_scope.
Opaque new_lut FullLut.

Section Statements.
Context {A : Type}.
Lemma made_before c (ps : list (lprog A)) y : Reachable c -> combinedLut c <> [] -> Forall OnlyDefault ps -> wexec (wstart c ps) y ->
  (forall v, ~ In (v, WDied) (cThreads y)) /\
  forall i p v a, nth_error ps i = Some p -> nth_error (cThreads y) i = Some (v, WAt (LRet a)) -> a = result (RuneWidth c) p.
Proof.
  intros Hc Hne HO X.
  assert (HP : Forall (SetsOnly (fun _ => True) (fun _ => True)) ps) by (apply Forall_forall; intros p _; apply sets_any).
  assert (HK : Forall (KeepsTable c) ps) by (eapply Forall_impl; [|exact HO]; unfold KeepsTable; destruct (combinedLut c); [contradiction|auto]).
  split; [intros v; exact (quiet_alive c _ _ Hc Logic.I Logic.I ps y v HP HK X)|]. intros i p v a Hp Ht.
  pose proof (quiet_widths c _ _ Hc Logic.I Logic.I ps y i p v a HP HK X Hp Ht) as K. apply (return_exact (steady c (fun _ => True) (fun _ => True))); [|exact K].
  intros r w. unfold steady, has. destruct (combinedLut c); [contradiction|auto].
Qed.
Lemma made_before_text c (ps : list (lprog A)) y i s (f : Z -> A) v a : Reachable c -> combinedLut c <> [] -> Forall OnlyDefault ps ->
  wexec (wstart c ps) y -> nth_error ps i = Some (stringWidthP s (fun w => LRet (f w))) ->
  nth_error (cThreads y) i = Some (v, WAt (LRet a)) -> a = f (StringWidth c s).
Proof.
  intros Hc Hne HO X Hp Ht. rewrite (proj2 (made_before c ps y Hc Hne HO X) i _ v a Hp Ht).
  rewrite <- result_stringWidth. unfold stringWidthP. destruct (iterate _ _); [|reflexivity]. rewrite !result_clusters. reflexivity.
Qed.
Lemma no_table c (E S : bool -> Prop) (ps : list (lprog A)) y : combinedLut c = [] -> E (EastAsianWidth c) -> S (StrictEmojiNeutral c) ->
  Forall (SetsOnly E S) ps -> Forall MakesNone ps -> wexec (wstart c ps) y ->
  (forall v, ~ In (v, WDied) (cThreads y)) /\
  forall i p v a, nth_error ps i = Some p -> nth_error (cThreads y) i = Some (v, WAt (LRet a)) -> MayReturn (answers c E S) p a.
Proof.
  intros e HE HS HP HO X.
  assert (Hc : Reachable c) by (destruct c as [l ea st]; cbn in e; subst l; constructor).
  assert (HK : Forall (KeepsTable c) ps) by (eapply Forall_impl; [|exact HO]; unfold KeepsTable; rewrite e; auto).
  split; [intros v; exact (quiet_alive c E S Hc HE HS ps y v HP HK X)|]. intros i p v a Hp Ht.
  pose proof (quiet_widths c E S Hc HE HS ps y i p v a HP HK X Hp Ht) as K.
  assert (W : forall q b, MayReturn (steady c E S) q b -> MayReturn (answers c E S) (A := A) q b).
  { intros q b. induction 1; econstructor; eauto. unfold steady, has in H. rewrite e in H. exact H. }
  apply W, K.
Qed.
Lemma no_table_exact c (ps : list (lprog A)) y i p v a : combinedLut c = [] ->
  Forall (SetsOnly (eq (EastAsianWidth c)) (eq (StrictEmojiNeutral c))) ps -> Forall MakesNone ps -> wexec (wstart c ps) y ->
  nth_error ps i = Some p -> nth_error (cThreads y) i = Some (v, WAt (LRet a)) -> a = result (RuneWidth c) p.
Proof.
  intros e HP HO X Hp Ht. apply (return_exact (answers c (eq (EastAsianWidth c)) (eq (StrictEmojiNeutral c)))).
  - intros r w. apply answer_exact. intros r'. destruct c as [l ea st]. cbn in e. subst l. reflexivity.
  - exact (proj2 (no_table c _ _ ps y e eq_refl eq_refl HP HO X) i p v a Hp Ht).
Qed.
End Statements.

(** ** Cases *)
Definition shared : Condition := plainCondition false false.
Definition ready : Condition := CreateLUT shared.
Lemma ready_reachable : Reachable ready.
Proof. apply r_lut, r_fresh. Qed.
Lemma ready_table : combinedLut ready <> [].
Proof.
  intros e. pose proof (CreateLUT_length shared (or_introl eq_refl)) as L. change (combinedLut (CreateLUT shared)) with (combinedLut ready) in L.
  rewrite e in L. pose proof FullLut_Z as Z0. rewrite <- L in Z0. discriminate Z0.
Qed.
Lemma ready_width r : RuneWidth ready r = RuneWidth shared r.
Proof. apply RuneWidth_CreateLUT. left. reflexivity. Qed.

(** Two goroutines measuring with a table made before; one also asks for it. *)
Definition measurer : lprog Z := LCreateDefault (LWidth 0x4E16 (fun w => LWidth 97 (fun v => LRet (w + v)))).
Lemma ready_example : Reachable ready /\ combinedLut ready <> [] /\ Forall OnlyDefault [measurer; LSetEA true (LWidth 0xA1 LRet)] /\
  (exists y v v', wexec (wstart ready [measurer; LSetEA true (LWidth 0xA1 LRet)]) y /\ cThreads y = [(v, WAt (LRet 3)); (v', WAt (LRet 1))]) /\
  RuneWidth (plainCondition true false) 0xA1 = 2.
Proof.
  split; [exact ready_reachable|]. split; [exact ready_table|].
  assert (HO : Forall OnlyDefault [measurer; LSetEA true (LWidth 0xA1 LRet)]) by (repeat constructor). split; [exact HO|]. split; [|reflexivity].
  destruct (weak_ends ready _ _ (we_refl (wstart ready [measurer; LSetEA true (LWidth 0xA1 LRet)]))) as (y & X & HF).
  destruct (made_before ready _ y ready_reachable ready_table HO X) as [HD HR].
  assert (L : List.length (cThreads y) = 2%nat).
  { clear HF HD HR. remember (wstart ready [measurer; LSetEA true (LWidth 0xA1 LRet)]) as s eqn:e. induction X as [|x y z X IH ST]; [subst; reflexivity|].
    rewrite <- (IH e). destruct ST; cbn [cThreads]; rewrite !app_length; reflexivity. }
  destruct (cThreads y) as [|[v t] [|[v' t'] [|]]] eqn:ey; try discriminate L. exists y, v, v'. split; [exact X|]. rewrite ey.
  inversion HF as [|? ? F1 F2]; subst. inversion F2 as [|? ? F3 _]; subst. cbn [snd] in *.
  assert (R : forall r w, RuneWidth shared r = w -> RuneWidth ready r = w) by (intros r w; rewrite ready_width; auto).
  destruct F1 as [[a ->]| ->]; [|exfalso; apply (HD v); left; reflexivity]. destruct F3 as [[a' ->]| ->]; [|exfalso; apply (HD v'); right; left; reflexivity].
  pose proof (HR 0%nat _ v a eq_refl eq_refl) as E1. pose proof (HR 1%nat _ v' a' eq_refl eq_refl) as E2.
  cbn [result measurer] in E1, E2. rewrite (R 0x4E16 2 eq_refl), (R 97 1 eq_refl) in E1. rewrite (R 0xA1 1 eq_refl) in E2. subst. reflexivity.
Qed.

(** Without a table, while a flag is changed. *)
Lemma flag_example : combinedLut shared = [] /\ Forall (SetsOnly (fun _ => True) (eq false)) [LWidth 0xA1 LRet; LSetEA true (LRet 0)] /\
  Forall MakesNone [LWidth 0xA1 LRet; LSetEA true (LRet 0)] /\
  forall w, w = 1 \/ w = 2 -> exists y v v', wexec (wstart shared [LWidth 0xA1 LRet; LSetEA true (LRet 0)]) y /\ cThreads y = [(v, WAt (LRet w)); (v', WAt (LRet 0))].
Proof.
  split; [reflexivity|]. split; [repeat constructor|]. split; [repeat constructor|]. intros w Hw.
  set (p := LWidth 0xA1 LRet). set (q := LSetEA true (LRet 0)).
  assert (X0 : wexec (wstart shared [p; q]) {| cLog := [(1%nat, WEA, 1)]; cArrs := 0; cThreads := [(view_of shared, WAt p); (write (view_of shared) WEA 1, WAt (LRet 0))] |}).
  { apply wexec_one. exact (ws_write [] 0 [(view_of shared, WAt p)] (view_of shared) (WAt q) [] WEA 1 (WAt (LRet 0)) eq_refl). }
  assert (X1 : forall log th, wexec {| cLog := log; cArrs := 0; cThreads := [(view_of shared, WAt p); th] |} {| cLog := log; cArrs := 0; cThreads := [(view_of shared, WAtEA 0xA1 (WToProg LRet)); th] |}).
  { intros log th. eapply we_step; [eapply we_step; [apply we_refl|]|].
    - exact (ws_local log 0 [] _ (WAt p) [th] _ eq_refl).
    - exact (ws_read log 0 [] _ (WAtLen 0xA1 (WToProg LRet)) [th] WLen _ 0 eq_refl (mr_own log 0 (view_of shared) WLen)). }
  exists {| cLog := [(1%nat, WEA, 1)]; cArrs := 0; cThreads := [(view_of shared, WAt (LRet w)); (write (view_of shared) WEA 1, WAt (LRet 0))] |}.
  exists (view_of shared), (write (view_of shared) WEA 1). destruct Hw as [-> | ->]; (split; [eapply we_step; [eapply we_step; [eapply wexec_trans; [exact X0|apply X1]|]|]|reflexivity]).
  - exact (ws_read _ 0 [] _ (WAtEA 0xA1 (WToProg LRet)) [_] WEA _ 0 eq_refl (mr_own _ 0 (view_of shared) WEA)).
  - exact (ws_read _ 0 [] _ (WAtStrict 0xA1 0 (WToProg LRet)) [_] WStrict _ 0 eq_refl (mr_own _ 0 (view_of shared) WStrict)).
  - apply (ws_read _ 0 [] _ (WAtEA 0xA1 (WToProg LRet)) [_] WEA _ 1 eq_refl). apply (mr_other _ _ _ _ 1%nat); [discriminate|left; reflexivity].
  - exact (ws_read _ 0 [] _ (WAtStrict 0xA1 1 (WToProg LRet)) [_] WStrict _ 0 eq_refl (mr_own _ 0 (view_of shared) WStrict)).
Qed.

(** What C61 promises of one maker, under sequential consistency, fails. *)
Lemma one_maker_refuted : Forall (SetsOnly (eq false) (eq false)) [LCreate (LRet 0); LWidth 97 LRet] /\ MakesOne (LCreate (LRet 0)) /\ MakesNone (LWidth 97 LRet) /\
  (exists y v v', wexec (wstart shared [LCreate (LRet 0); LWidth 97 LRet]) y /\ cThreads y = [(v, WAt (LRet 0)); (v', WAt (LRet 0))]) /\
  (exists y v v', wexec (wstart shared [LCreate (LRet 0); LWidth 97 LRet]) y /\ cThreads y = [(v, WAt (LRet 0)); (v', WDied)]) /\
  result (RuneWidth shared) (LWidth 97 LRet) = 1.
Proof.
  split; [repeat constructor|]. split; [repeat constructor|]. split; [repeat constructor|].
  split; [apply sees_zero; [reflexivity|lia]|]. split; [apply dies; [reflexivity|lia]|reflexivity].
Qed.

(** One goroutine that makes its table and measures. *)
Lemma alone_example : SetsOnly (eq false) (eq false) maker /\ (forall r, RuneWidth shared r = RuneWidth (plainCondition false false) r) /\
  exists y v, wexec (wstart shared [maker]) y /\ cThreads y = [(v, WAt (LRet 1))].
Proof.
  assert (HM : SetsOnly (eq false) (eq false) maker) by repeat constructor. split; [exact HM|]. split; [reflexivity|].
  destruct (weak_ends shared _ _ (we_refl (wstart shared [maker]))) as (y & X & HF).
  destruct (alone_run shared (r_fresh false false) (fun r => eq_refl) maker y HM X) as (v & t & e & _).
  destruct (alone_exact shared (r_fresh false false) (fun r => eq_refl) maker y v t HM X e) as [HD HR].
  exists y, v. split; [exact X|]. rewrite e in *. inversion HF as [|? ? F1 _]; subst. cbn [snd] in F1. destruct F1 as [[a ->]|F1]; [|contradiction].
  rewrite (HR a eq_refl). reflexivity.
Qed.
