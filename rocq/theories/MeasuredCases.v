(** * MeasuredCases: concrete runs for MeasuredSpec. *)
From Coq Require Import Strings.String.
From Verif Require Import GoBase Runewidth ConditionSpec Width AlignSpec Table TableContract Merge MergeSpec MergeLayout ReadSpec Cached CachedSpec MeasuredSpec MeasuredProofs.
Local Open Scope Z_scope.

(** Runs one goroutine that evicts nothing. *)
Fixpoint crun {A} (c : Condition) (m : cache) (p : wprog A) : cache * list str * A :=
  match p with
  | WRet a => (m, [], a)
  | WCall s k => let r := visualWidth c (fun _ => true) m s in crun c (snd r) (k (fst r))
  | Write txt k => let '(m', out, a) := crun c m (k true) in (m', txt :: out, a)
  end.
Lemma crun_cached {A} c (p : wprog A) : forall m n, cached c (fun _ => true) m n p (fst (fst (crun c m p))) (snd (fst (crun c m p))) (snd (crun c m p)).
Proof.
  induction p as [a|s k IH|txt k IH]; intros m n; cbn [crun].
  - constructor.
  - apply k_call with (fun _ => true). apply IH.
  - specialize (IH true m (S n)). destruct (crun c m (k true)) as [[m' out] a]. cbn [fst snd] in *.
    exact (k_write c (fun _ => true) m n txt k m' out a IH).
Qed.
Lemma cached_drifting {A} c ok m n (p : wprog A) m' out a : Uints m -> cached c ok m n p m' out a -> drifting ok m n p out a.
Proof.
  intros HU HC. revert HU. induction HC as [m n a|m n s k keep m' out a HC IH|m n txt k m' out a HC IH|m n p keep m' out a HC IH]; intros HU.
  - constructor.
  - apply dr_call with c keep. apply IH. apply visualWidth_uint. exact HU.
  - constructor. exact (IH HU).
  - assert (HU' : Uints (cache_evict keep m)) by (intros s v Hi; apply filter_In in Hi; exact (HU s v (proj1 Hi))).
    apply dr_other with (cache_evict keep m); [exact HU'|exact (IH HU')].
Qed.

(** One column of width 2, with an exclamation mark that is one column wide, and
    two columns wide in East Asian mode. *)
Definition mark : str := [xc2; xa1].
Definition mCol : PColumn unit unit str :=
  {| pcGetter := None; pcAlignment := Some alignLeftP; pcName := lit "n"%string; pcTitle := []; pcShortTitle := [] |}.
Definition mTable : PTable unit unit str := {| ptColumns := [Some mCol]; ptWidth := Some (wset wempty (lit "n"%string) 2) |}.
Definition mRows : list (list str) := [[mark]; [lit "bb"%string]].
Definition mItems : PItems str :=
  {| piLen := 2; piGet := fun i => match nth_error mRows (Z.to_nat i) with Some r => Ret (Ok r) | None => Ret (Panic IndexOutOfRange) end |}.
Lemma mPrint : CanPrint mTable [mCol] [ALeft] mItems mRows.
Proof.
  split; [reflexivity| | | |].
  - constructor; [left; reflexivity|constructor].
  - split; [reflexivity|]. intros i row Hr. cbn [piGet mItems]. rewrite Nat2Z.id, Hr. reflexivity.
  - repeat constructor.
  - intros col [<-|[]]. change (0 <= 2 < 65536). split; [discriminate|reflexivity].
Qed.
Definition mSep : str := lit "|"%string.
Definition mMerge : wprog (status str) := mergeP H 9 mTable mItems 2 mSep false.
Definition narrow : Condition := plainCondition false true.
Definition wide : Condition := plainCondition true true.
(** The cache after the mark was measured in the narrow mode. *)
Definition mCache : cache := snd (visualWidth narrow (fun _ => true) [] mark).

Lemma mCache_uints : Uints mCache.
Proof. apply visualWidth_uint. intros s v []. Qed.
Lemma mRun : crun wide mCache mMerge = ([(lit "bb"%string, 2); (mark, 1)], [mark ++ [space; x0a]; lit "bb"%string ++ [x0a]], Finished).
Proof. vm_compute. reflexivity. Qed.
Lemma mFresh : crun wide [] mMerge = ([(lit "bb"%string, 2); (mark, 2)], [mark ++ [x0a]; lit "bb"%string ++ [x0a]], Finished).
Proof. vm_compute. reflexivity. Qed.
Lemma mWidths : vwidth wide mark = 2 /\ vwidth wide (lit "bb"%string) = 2 /\ vwidth wide (mark ++ [space]) = 3 /\ vwidth narrow mark = 1.
Proof. vm_compute. repeat split. Qed.
Lemma mReckoned : reckonedP mTable [mCol] mSep mod 65536 <> 0.
Proof. change (3 mod 65536 <> 0). rewrite Z.mod_small; [discriminate|split; [discriminate|reflexivity]]. Qed.

Lemma mCached : cached wide (fun _ => true) mCache 0 mMerge [(lit "bb"%string, 2); (mark, 1)] [mark ++ [space; x0a]; lit "bb"%string ++ [x0a]] Finished.
Proof. pose proof (crun_cached wide mMerge mCache 0) as K. rewrite mRun in K. exact K. Qed.
Lemma mDrift : drifting (fun _ => true) mCache 0 mMerge [mark ++ [space; x0a]; lit "bb"%string ++ [x0a]] Finished.
Proof. exact (cached_drifting _ _ _ _ _ _ _ _ mCache_uints mCached). Qed.
Lemma straight_refuted : exists (t : PTable unit unit str) cols als items rows c c' sep m' line line',
  CanPrint t cols als items rows /\ (forall col row s, In col cols -> In row rows -> In s row -> vwidth c' s = widthP t (pcName col))
  /\ cached c' (fun _ => true) (snd (visualWidth c (fun _ => true) [] mark)) 0 (mergeP H 9 t items 2 sep false) m'
       [line ++ [x0a]; line' ++ [x0a]] Finished
  /\ vwidth c' line <> vwidth c' line'.
Proof.
  destruct mWidths as (W1 & W2 & W3 & W4).
  exists mTable, [mCol], [ALeft], mItems, mRows, narrow, wide, mSep. eexists. exists (mark ++ [space]), (lit "bb"%string).
  split; [exact mPrint|]. split; [|split; [exact mCached|rewrite W3, W2; discriminate]].
  intros col row s [<-|[]] [<-|[<-|[]]] [<-|[]]; [exact W1|exact W2].
Qed.

(** A column that shows the item itself. *)
Definition sCol : PColumn str str str :=
  {| pcGetter := Some {| pgValue := fun i => Ret (Ok i); pgValueString := fun _ i => Ret (Ok i); pgFormat := fun _ v => Ret (Ok v) |};
     pcAlignment := None; pcName := lit "n"%string; pcTitle := []; pcShortTitle := [] |}.
Definition sTable : PTable str str str := {| ptColumns := [Some sCol]; ptWidth := Some wempty |}.
Lemma sQuiet : ptWidth sTable <> None /\ Quiet sTable mark [mark]
  /\ forall w, 0 < w < 65536 -> exists t', may (formatItemP sTable mark) (t', Ok [mark]) /\ widthP t' (lit "n"%string) = w.
Proof.
  split; [discriminate|]. split.
  - constructor; [|constructor]. do 3 eexists. repeat split; reflexivity.
  - intros w Hw. exists {| ptColumns := [Some sCol]; ptWidth := Some (wset wempty (lit "n"%string) w) |}. split; [|reflexivity].
    apply may_call with w; [split; [apply Z.lt_le_incl|]; apply Hw|]. unfold raiseP. change (widthP sTable (pcName sCol)) with 0.
    destruct (Z.gtb_spec w 0) as [_|L]; [constructor|exfalso; apply (Z.lt_irrefl 0), Z.lt_le_trans with w; [apply Hw|exact L]].
Qed.
Lemma mAlign : may (alignItemP mTable [mark]) ([mark ++ [space]], Ok [mark ++ [space]]).
Proof. apply may_call with 1; [split; [discriminate|reflexivity]|]. constructor. Qed.
Lemma mLegible : Marks x7c mSep /\ LegibleRows x7c 1 mRows.
Proof.
  split; [split; [left; reflexivity|split; [discriminate|]]; intros [K|[]]; discriminate K|].
  repeat constructor; try discriminate; intros K; repeat (destruct K as [K|K]; [discriminate K|]); destruct K.
Qed.
