(** * LutRaceCases: single goroutines, and executions that go wrong. *)
From Coq Require Import ZifyBool ZifyNat.
From Verif Require Import GoBase Uniseg Runewidth ConditionSpec RunewidthProofs LutRace LutRaceSpec LutRaceProofs.
Local Open Scope Z_scope.
Ltac Zify.zify_post_hook ::= Z.div_mod_to_equations.
Opaque new_lut FullLut.

Lemma tidy_mem_of c : Reachable c -> tidy (mem_of c).
Proof.
  intros H. pose proof FullLut_Z as FZ. destruct (Reachable_lut c H) as [e|e].
  - unfold tidy, mem_of. rewrite e. cbn. auto.
  - unfold tidy, mem_of. cbn [mArrs mHdr]. destruct (combinedLut c) as [|b l]; [cbn; auto|].
    split; [constructor; [exact e|constructor]|cbn [length]; lia].
Qed.
Lemma cond_of_mem_of c : cond_of (mem_of c) = c.
Proof. destruct c as [[|b l] ea st]; reflexivity. Qed.
Lemma hdr_mem_of c : mHdr (mem_of c) = match combinedLut c with [] => None | _ => Some 0%nat end.
Proof. reflexivity. Qed.

(** Alone, the steps compute the functions. *)
Lemma width_alone {A} m r (k : Z -> lprog A) : tidy m ->
  alone (m, AtProg (LWidth r k)) (m, AtProg (k (RuneWidth (cond_of m) r))).
Proof.
  intros T. pose proof (tidy_len m T) as TL. econstructor; [reflexivity|]. unfold ask, RuneWidth.
  destruct ((r <? 0) || (r >? 0x10FFFF)) eqn:Er; [constructor|]. cbn [cond_of combinedLut EastAsianWidth StrictEmojiNeutral].
  destruct (mHdr m) as [a|] eqn:e.
  - econstructor; [cbn [lstep]; rewrite e, TL; cbn [Z.ltb Z.compare]; reflexivity|].
    econstructor; [cbn [lstep]; rewrite e; reflexivity|]. rewrite TL. cbn [Z.ltb Z.compare].
    pose proof (tidy_arr m a T e) as La. rewrite e in La.
    econstructor; [|constructor]. cbn [lstep]. unfold at_index. rewrite !Z.shiftr_div_pow2 with (n := 1) by lia. change (2 ^ 1) with 2.
    replace (r / 2 <? 0) with false by lia. rewrite (nth_error_nth' _ 0); [reflexivity|].
    rewrite La. pose proof FullLut_Z as FZ. clear La TL. revert FZ. generalize FullLut as N. intros. lia.
  - econstructor; [cbn [lstep]; rewrite e; reflexivity|].
    econstructor; [reflexivity|]. econstructor; [reflexivity|]. constructor.
Qed.
Lemma default_alone {A} m (k : lprog A) : tidy m -> exists m', tidy m' /\
  alone (m, AtProg (LCreateDefault k)) (m', AtProg k) /\
  cond_of m' = (if 0 <? slen (combinedLut (cond_of m)) then cond_of m else CreateLUT (cond_of m)).
Proof.
  intros T. pose proof (tidy_len m T) as TL. cbn [cond_of combinedLut]. rewrite TL. destruct (mHdr m) as [a|] eqn:e.
  - exists m. split; auto. split; [|reflexivity]. econstructor; [reflexivity|].
    econstructor; [cbn [lstep]; rewrite e, TL; cbn [Z.ltb Z.compare]; reflexivity|]. constructor.
  - destruct (create_alone m k T) as (m' & T' & H & C). exists m'. split; auto. split; [|exact C].
    econstructor; [reflexivity|]. econstructor; [cbn [lstep]; rewrite e; reflexivity|]. exact H.
Qed.
Lemma program_alone {A} m (p : lprog A) : tidy m -> exists m' a, tidy m' /\ alone (m, AtProg p) (m', AtProg (LRet a)).
Proof.
  intros T. revert m T. induction p as [b|r k IH|k IH|k IH|b k IH|b k IH]; intros m T.
  - exists m, b. split; auto. constructor.
  - destruct (IH (RuneWidth (cond_of m) r) m T) as (m' & b & T' & H). exists m', b. split; auto.
    eapply alone_trans; [apply width_alone; auto|exact H].
  - destruct (create_alone m k T) as (m1 & T1 & H1 & _). destruct (IH m1 T1) as (m' & b & T' & H). exists m', b. split; auto.
    econstructor; [reflexivity|]. eapply alone_trans; eauto.
  - destruct (default_alone m k T) as (m1 & T1 & H1 & _). destruct (IH m1 T1) as (m' & b & T' & H). exists m', b. split; auto.
    eapply alone_trans; eauto.
  - destruct (IH {| mHdr := mHdr m; mArrs := mArrs m; mEA := b; mStrict := mStrict m |} T) as (m' & d & T' & H).
    exists m', d. split; auto. econstructor; [reflexivity|exact H].
  - destruct (IH {| mHdr := mHdr m; mArrs := mArrs m; mEA := mEA m; mStrict := b |} T) as (m' & d & T' & H).
    exists m', d. split; auto. econstructor; [reflexivity|exact H].
Qed.

(** ** Executions that go wrong *)
Ltac one b a := eapply (le_step _ _ b _ a).

(** A table is remade while a width is asked for. *)
Lemma remake_panics {A} c r (k : Z -> lprog A) (q : lprog A) : Reachable c -> combinedLut c <> [] -> 0 <= r <= 0x10FFFF ->
  exists m t, lexec (mem_of c, map AtProg [LWidth r k; LCreate q]) (m, [Died; t]).
Proof.
  intros Hc Hne Hr. pose proof (tidy_len _ (tidy_mem_of c Hc)) as TL. rewrite hdr_mem_of in TL.
  assert (e : mHdr (mem_of c) = Some 0%nat) by (rewrite hdr_mem_of; destruct (combinedLut c); congruence).
  assert (TL1 : slen (arr (mem_of c) (mHdr (mem_of c))) = 557056).
  { rewrite (tidy_len _ (tidy_mem_of c Hc)), e. reflexivity. }
  set (m := mem_of c) in *. exists (set_hdr m None), (AtLoop (Some 0%nat) 0 q).
  apply (le_step _ (set_hdr m None) [] (AtElem r None (ToProg k)) [AtLoop (Some 0%nat) 0 q]);
    [|cbn [lstep arr]; unfold at_index; destruct (_ <? 0); [reflexivity|];
      destruct (Z.to_nat _); reflexivity].
  apply (le_step _ (set_hdr m None) [] (AtTable r (ToProg k)) [AtLoop (Some 0%nat) 0 q]); [|reflexivity].
  apply (le_step _ m [AtTable r (ToProg k)] (AtDrop (Some 0%nat) q) []); [|reflexivity].
  apply (le_step _ m [AtTable r (ToProg k)] (AtTest (Some 0%nat) q) []);
    [|cbn [lstep]; rewrite TL1; reflexivity].
  apply (le_step _ m [AtTable r (ToProg k)] (AtTake q) []); [|cbn [lstep]; rewrite e; reflexivity].
  apply (le_step _ m [AtTable r (ToProg k)] (AtProg (LCreate q)) []); [|reflexivity].
  apply (le_step _ m [] (AtLen r (ToProg k)) [AtProg (LCreate q)]); [|cbn [lstep]; rewrite TL1; reflexivity].
  apply (le_step _ m [] (AtProg (LWidth r k)) [AtProg (LCreate q)]);
    [|cbn [lstep]; unfold ask; replace (_ || _) with false by lia; reflexivity].
  constructor.
Qed.

(** Each goroutine calls the package-level CreateLUT first. *)
Lemma both_default_panics {A} c r (k : Z -> lprog A) (q : lprog A) : Reachable c -> combinedLut c = [] -> 0 <= r <= 0x10FFFF ->
  exists m t, lexec (mem_of c, map AtProg [LCreateDefault (LWidth r k); LCreateDefault q]) (m, [Died; t]).
Proof.
  intros Hc Hn Hr. pose proof (tidy_mem_of c Hc) as T.
  assert (e : mHdr (mem_of c) = None) by (rewrite hdr_mem_of, Hn; reflexivity).
  destruct (create_alone (mem_of c) (LWidth r k) T) as (m & Tm & Al & Cm).
  assert (TLm : slen (arr m (mHdr m)) = 557056).
  { change (arr m (mHdr m)) with (combinedLut (cond_of m)). rewrite Cm. unfold slen.
    rewrite CreateLUT_length; [apply FullLut_Z|]. left. rewrite cond_of_mem_of. exact Hn. }
  assert (exists a, mHdr m = Some a) as (a & em).
  { pose proof (tidy_len m Tm) as TL. rewrite TLm in TL. destruct (mHdr m); [eauto|discriminate]. }
  exists (set_hdr m None), (AtLoop (Some a) 0 q).
  apply (le_step _ (set_hdr m None) [] (AtElem r None (ToProg k)) [AtLoop (Some a) 0 q]);
    [|cbn [lstep arr]; unfold at_index; destruct (_ <? 0); [reflexivity|];
      destruct (Z.to_nat _); reflexivity].
  apply (le_step _ (set_hdr m None) [] (AtTable r (ToProg k)) [AtLoop (Some a) 0 q]); [|reflexivity].
  apply (le_step _ m [AtTable r (ToProg k)] (AtDrop (Some a) q) []); [|reflexivity].
  apply (le_step _ m [AtTable r (ToProg k)] (AtTest (Some a) q) []);
    [|cbn [lstep]; rewrite TLm; reflexivity].
  apply (le_step _ m [AtTable r (ToProg k)] (AtTake q) []); [|cbn [lstep]; rewrite em; reflexivity].
  apply (le_step _ m [] (AtLen r (ToProg k)) [AtTake q]); [|cbn [lstep]; rewrite TLm; reflexivity].
  apply (le_step _ m [] (AtProg (LWidth r k)) [AtTake q]);
    [|cbn [lstep]; unfold ask; replace (_ || _) with false by lia; reflexivity].
  apply (alone_exec _ (mem_of c) (AtTake (LWidth r k)) m _ [] [AtTake q] Al). cbn [app].
  apply (le_step _ (mem_of c) [AtTake (LWidth r k)] (AtGuard q) []); [|cbn [lstep]; rewrite e; reflexivity].
  apply (le_step _ (mem_of c) [] (AtGuard (LWidth r k)) [AtGuard q]); [|cbn [lstep]; rewrite e; reflexivity].
  apply (le_step _ (mem_of c) [AtGuard (LWidth r k)] (AtProg (LCreateDefault q)) []); [|reflexivity].
  apply (le_step _ (mem_of c) [] (AtProg (LCreateDefault (LWidth r k))) [AtProg (LCreateDefault q)]); [|reflexivity].
  constructor.
Qed.

(** Two goroutines make the table, and there is none afterwards. *)
Lemma table_lost {A} c (p q : lprog A) : Reachable c -> combinedLut c = [] ->
  exists m, lexec (mem_of c, map AtProg [LCreateDefault p; LCreateDefault q]) (m, map AtProg [p; q]) /\
    combinedLut (cond_of m) = [].
Proof.
  intros Hc Hn. pose proof (tidy_mem_of c Hc) as T.
  assert (e : mHdr (mem_of c) = None) by (rewrite hdr_mem_of, Hn; reflexivity).
  destruct (create_alone (mem_of c) p T) as (m & Tm & Al & Cm).
  assert (TLm : slen (arr m (mHdr m)) = 557056).
  { change (arr m (mHdr m)) with (combinedLut (cond_of m)). rewrite Cm. unfold slen.
    rewrite CreateLUT_length; [apply FullLut_Z|]. left. rewrite cond_of_mem_of. exact Hn. }
  exists (set_hdr (set_hdr m None) None). split; [|reflexivity].
  apply (le_step _ (set_hdr m None) [AtProg p] (AtStore None q) []); [|reflexivity].
  apply (le_step _ (set_hdr m None) [AtProg p] (AtLoop None 0 q) []); [|reflexivity].
  apply (le_step _ m [AtProg p] (AtDrop None q) []); [|reflexivity].
  apply (le_step _ m [AtProg p] (AtTest None q) []); [|cbn [lstep]; rewrite TLm; reflexivity].
  apply (alone_exec _ (mem_of c) (AtTake p) m _ [] [AtTest None q] Al). cbn [app].
  apply (le_step _ (mem_of c) [AtTake p] (AtTake q) []); [|cbn [lstep]; rewrite e; reflexivity].
  apply (le_step _ (mem_of c) [AtTake p] (AtGuard q) []); [|cbn [lstep]; rewrite e; reflexivity].
  apply (le_step _ (mem_of c) [] (AtGuard p) [AtGuard q]); [|cbn [lstep]; rewrite e; reflexivity].
  apply (le_step _ (mem_of c) [AtGuard p] (AtProg (LCreateDefault q)) []); [|reflexivity].
  apply (le_step _ (mem_of c) [] (AtProg (LCreateDefault p)) [AtProg (LCreateDefault q)]); [|reflexivity].
  constructor.
Qed.

(** Both flags are changed between the two reads: the width is one that the
    condition never had. *)
Lemma torn_flags : exists m,
  lexec (mem_of (plainCondition true true), map AtProg [LWidth 0x1F321 LRet; LSetEA false (LSetStrict false (LRet 0))])
        (m, map AtProg [LRet 2; LRet 0]) /\
  RuneWidth (plainCondition true true) 0x1F321 = 1 /\ RuneWidth (plainCondition false true) 0x1F321 = 1 /\
  RuneWidth (plainCondition false false) 0x1F321 = 1.
Proof.
  set (c := plainCondition true true). set (m2 := {| mHdr := None; mArrs := []; mEA := false; mStrict := false |}).
  exists m2. split; [|vm_compute; auto].
  apply (le_step _ m2 [] (AtStrict 0x1F321 true (ToProg LRet)) [AtProg (LRet 0)]); [|vm_compute; reflexivity].
  apply (le_step _ {| mHdr := None; mArrs := []; mEA := false; mStrict := true |} [AtStrict 0x1F321 true (ToProg LRet)]
    (AtProg (LSetStrict false (LRet 0))) []); [|reflexivity].
  apply (le_step _ (mem_of c) [AtStrict 0x1F321 true (ToProg LRet)] (AtProg (LSetEA false (LSetStrict false (LRet 0)))) []); [|reflexivity].
  apply (le_step _ (mem_of c) [] (AtEA 0x1F321 (ToProg LRet)) [AtProg (LSetEA false (LSetStrict false (LRet 0)))]); [|reflexivity].
  apply (le_step _ (mem_of c) [] (AtLen 0x1F321 (ToProg LRet)) [AtProg (LSetEA false (LSetStrict false (LRet 0)))]); [|reflexivity].
  apply (le_step _ (mem_of c) [] (AtProg (LWidth 0x1F321 LRet)) [AtProg (LSetEA false (LSetStrict false (LRet 0)))]); [|reflexivity].
  constructor.
Qed.

(** ** A complete execution *)
Definition reader : lprog Z := LWidth 0x4E16 (fun w => LWidth 97 (fun v => LRet (w + v))).
Definition maker : lprog Z := LCreate (LWidth 0xA1 LRet).
Lemma race_example : Reachable (plainCondition true false) /\ combinedLut (plainCondition true false) = [] /\
  MakesNone reader /\ MakesOne maker /\ Forall (SetsOnly (eq true) (eq false)) [reader; maker] /\
  (exists m, lexec (mem_of (plainCondition true false), map AtProg [reader; maker]) (m, map AtProg [LRet 3; LRet 2])) /\
  result (RuneWidth (plainCondition true false)) reader = 3 /\ result (RuneWidth (plainCondition true false)) maker = 2.
Proof.
  assert (Hc : Reachable (plainCondition true false)) by constructor.
  split; auto. split; [reflexivity|]. split; [repeat constructor|]. split; [repeat constructor|]. split; [repeat constructor|].
  split; [|vm_compute; auto].
  set (c := plainCondition true false) in *.
  destruct (create_alone (mem_of c) (LWidth 0xA1 LRet) (tidy_mem_of c Hc)) as (m & T & Al & C). rewrite cond_of_mem_of in C.
  assert (W : forall r, RuneWidth (cond_of m) r = RuneWidth c r).
  { intros r. rewrite C. apply RuneWidth_CreateLUT. left. reflexivity. }
  exists m.
  assert (X : lexec (mem_of c, map AtProg [reader; maker]) (m, [AtEA 0x4E16 (ToProg (fun w => LWidth 97 (fun v => LRet (w + v)))); AtProg (LRet 2)])).
  { pose proof (width_alone m 0xA1 (@LRet Z) T) as A1. rewrite W in A1.
    replace (RuneWidth c 0xA1) with 2 in A1 by (vm_compute; reflexivity).
    apply (alone_exec _ m _ m _ [AtEA 0x4E16 (ToProg (fun w => LWidth 97 (fun v => LRet (w + v))))] [] A1).
    apply (alone_exec _ (mem_of c) _ m _ [AtEA 0x4E16 (ToProg (fun w => LWidth 97 (fun v => LRet (w + v))))] [] Al).
    apply (le_step _ (mem_of c) [AtEA 0x4E16 (ToProg (fun w => LWidth 97 (fun v => LRet (w + v))))] (AtProg maker) []); [|reflexivity].
    apply (le_step _ (mem_of c) [] (AtLen 0x4E16 (ToProg (fun w => LWidth 97 (fun v => LRet (w + v))))) [AtProg maker]); [|reflexivity].
    apply (le_step _ (mem_of c) [] (AtProg reader) [AtProg maker]); [|reflexivity]. constructor. }
  pose proof (width_alone m 97 (fun v => LRet (2 + v)) T) as A2. rewrite W in A2.
  replace (RuneWidth c 97) with 1 in A2 by (vm_compute; reflexivity).
  apply (alone_exec _ m _ m _ [] [AtProg (LRet 2)] A2).
  assert (F : mEA m = true /\ mStrict m = false).
  { assert (EastAsianWidth (cond_of m) = true /\ StrictEmojiNeutral (cond_of m) = false) as H by (rewrite C; split; reflexivity). exact H. }
  destruct F as [F1 F2].
  apply (le_step _ m [] (AtStrict 0x4E16 true (ToProg (fun w => LWidth 97 (fun v => LRet (w + v))))) [AtProg (LRet 2)]);
    [|cbn [lstep]; rewrite F2; cbn [give]; replace (RuneWidth_tables true false 0x4E16) with 2 by (vm_compute; reflexivity); reflexivity].
  apply (le_step _ m [] (AtEA 0x4E16 (ToProg (fun w => LWidth 97 (fun v => LRet (w + v))))) [AtProg (LRet 2)]);
    [|cbn [lstep]; rewrite F1; reflexivity].
  exact X.
Qed.

(** One goroutine alone, from the memory holding [c]. *)
Lemma alone_functions {A} c r (k : Z -> lprog A) (q : lprog A) : Reachable c ->
  lexec (mem_of c, [AtProg (LWidth r k)]) (mem_of c, [AtProg (k (RuneWidth c r))]) /\
  (exists m, lexec (mem_of c, [AtProg (LCreate q)]) (m, [AtProg q]) /\ cond_of m = CreateLUT c) /\
  (exists m, lexec (mem_of c, [AtProg (LCreateDefault q)]) (m, [AtProg q]) /\
     cond_of m = if 0 <? slen (combinedLut c) then c else CreateLUT c).
Proof.
  intros Hc. pose proof (tidy_mem_of c Hc) as T. split; [|split].
  - pose proof (width_alone (mem_of c) r k T) as W. rewrite cond_of_mem_of in W.
    apply (alone_exec _ _ _ _ _ [] [] W). constructor.
  - destruct (create_alone (mem_of c) q T) as (m & _ & H & C). rewrite cond_of_mem_of in C. exists m. split; auto.
    apply (alone_exec _ _ _ _ _ [] [] H).
    apply (le_step _ (mem_of c) [] (AtProg (LCreate q)) []); [constructor|reflexivity].
  - destruct (default_alone (mem_of c) q T) as (m & _ & H & C). rewrite cond_of_mem_of in C. exists m. split; auto.
    apply (alone_exec _ _ _ _ _ [] [] H). constructor.
Qed.
Lemma string_exact {A} c (ps : list (lprog A)) m ts i s (f : Z -> A) a : Reachable c ->
  (forall r, RuneWidth c r = RuneWidth (plainCondition (EastAsianWidth c) (StrictEmojiNeutral c)) r) ->
  Forall (SetsOnly (eq (EastAsianWidth c)) (eq (StrictEmojiNeutral c))) ps ->
  lexec (mem_of c, map AtProg ps) (m, ts) -> nth_error ps i = Some (stringWidthP s (fun w => LRet (f w))) ->
  nth_error ts i = Some (AtProg (LRet a)) -> a = f (StringWidth c s).
Proof.
  intros Hc H HS X Hp Ht. rewrite (widths_exact c ps m ts i _ a Hc H HS X Hp Ht).
  rewrite <- result_stringWidth. unfold stringWidthP. destruct (iterate _ _); [|reflexivity].
  rewrite !result_clusters. reflexivity.
Qed.
