(** * PropCached: the table functions on the shared width cache (C50). *)
From Coq Require Import Strings.String.
From Verif Require Import GoBase Runewidth ConditionSpec Width Table Merge Cached CachedSpec CachedProofs CachedExamples.
Local Open Scope Z_scope.

(** ** C50: goroutines sharing the cache *)

Theorem C50_goroutines : forall A c (work : list (wprog A * (nat -> bool))) n m gs i p ok g,
  gexec c (started work) n (m, gs) -> nth_error work i = Some (p, ok) -> nth_error gs i = Some g ->
  exists more a, effect (vwidth c) ok 0 p = (gOut g ++ more, a)
    /\ forall b, gAt g = GRun (WRet b) -> more = [] /\ b = a.
Proof. intros A c. exact (gresults c). Qed.
Print Assumptions C50_goroutines.

Theorem C50_bounded : forall A c (work : list (wprog A * (nat -> bool))) n m gs, gexec c (started work) n (m, gs) ->
  (n <= list_sum (map (fun '(p, ok) => length_of (vwidth c) ok 0 p) work))%nat.
Proof. intros A c. exact (gbounded c). Qed.
Print Assumptions C50_bounded.

Theorem C50_finishes : forall A c (work : list (wprog A * (nat -> bool))) n m gs, gexec c (started work) n (m, gs) ->
  exists n' m' gs', gexec c (started work) n' (m', gs') /\ Forall (fun g : goroutine A => exists b, gAt g = GRun (WRet b)) gs'.
Proof. intros A c. exact (gfinishes c). Qed.
Print Assumptions C50_finishes.

Theorem C50_sequential : forall A c ok n (p : wprog A) m' out a, cached c ok [] n p m' out a ->
  effect (vwidth c) ok n p = (out, a).
Proof. intros A c ok n p m' out a H. exact (proj1 (cached_effect c ok [] n p m' out a H (Forall_nil _))). Qed.
Print Assumptions C50_sequential.

Theorem C50_alignments : forall c s n, value (vwidth c) (alignLeftP s n) = AlignmentLeft c s n
  /\ value (vwidth c) (alignRightP s n) = AlignmentRight c s n
  /\ value (vwidth c) (alignCenterP s n) = AlignmentCenter c s n.
Proof. intros. repeat split; reflexivity. Qed.
Print Assumptions C50_alignments.

Theorem C50_format_item : forall Item Val E c (t : PTable Item Val E) t' item, IsPlain (vwidth c) t t' ->
  exists t1, FormatItem c t' item = (t1, snd (value (vwidth c) (formatItemP t item)))
    /\ IsPlain (vwidth c) (fst (value (vwidth c) (formatItemP t item))) t1 /\ tSpec t1 = tSpec t'.
Proof. intros Item Val E c. exact (FormatItem_value c). Qed.
Print Assumptions C50_format_item.

Theorem C50_format_basic : forall Item Val E c (t : PTable Item Val E) t' item sep, IsPlain (vwidth c) t t' ->
  FormatItemBasic t' item sep = value (vwidth c) (formatBasicP t item sep).
Proof. intros Item Val E c. exact (FormatItemBasic_value c). Qed.
Print Assumptions C50_format_basic.

Theorem C50_align_item : forall Item Val E c (t : PTable Item Val E) t' row, IsPlain (vwidth c) t t' ->
  AlignFormattedItem t' row = value (vwidth c) (alignItemP t row).
Proof. intros Item Val E c. exact (AlignFormattedItem_value c). Qed.
Print Assumptions C50_align_item.

Theorem C50_header : forall Item Val E c (t : PTable Item Val E) t' sep, IsPlain (vwidth c) t t' ->
  FormatHeader (E := E) c t' sep = value (vwidth c) (headerP t sep).
Proof. intros Item Val E c. exact (FormatHeader_value c). Qed.
Print Assumptions C50_header.

Theorem C50_merging : forall Item Val E c work n m gs i ok g fuel (t : PTable Item Val E) t' items mw sep compact p r,
  IsPlain (vwidth c) t t' ->
  p = mergeHP fuel t items mw sep compact /\ r = MergeRowsHorizontal fuel c t' ok (plainItems (vwidth c) items) mw sep compact
  \/ p = mergeVP fuel t items mw sep compact /\ r = MergeRowsVertical fuel c t' ok (plainItems (vwidth c) items) mw sep compact ->
  gexec c (started work) n (m, gs) -> nth_error work i = Some (p, ok) -> nth_error gs i = Some g ->
  (exists more, written r = gOut g ++ more) /\ forall st, gAt g = GRun (WRet st) -> written r = gOut g /\ stop r = st.
Proof. intros Item Val E. exact (@merge_goroutine Item Val E). Qed.
Print Assumptions C50_merging.

(** Two goroutines merge rows of one table at the same time. *)
Example C50_example : (exists n m gs, gexec (plainCondition false true) (started [(exP, fun _ => true); (exP, fun _ => true)]) n (m, gs)
    /\ Forall (fun g : goroutine (status str) => exists b, gAt g = GRun (WRet b)) gs)
  /\ (exists t', IsPlain (vwidth (plainCondition false true)) exPTable t')
  /\ effect (vwidth (plainCondition false true)) (fun _ => true) 0 exP = ([lit "x y|x y"%string ++ [x0a]], Finished)
  /\ length_of (vwidth (plainCondition false true)) (fun _ => true) 0 exP = 25%nat.
Proof.
  split; [exact (gfinishes _ _ _ _ _ (ge_refl _ _))|]. split; [|vm_compute; auto].
  exists {| tSpec := {| ColumnByName := None; TimeFormat := []; Columns := map (option_map (plainColumn (vwidth (plainCondition false true)))) (ptColumns exPTable) |};
     columnWidth := ptWidth exPTable |}. split; reflexivity.
Qed.
