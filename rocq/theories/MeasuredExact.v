(** * MeasuredExact: everything that plain merging may print according to
    MeasuredSpec is printed in some run. *)
From Verif Require Import GoBase Runewidth Width AlignSpec Table TableContract TableOpsProofs Merge MergeSpec MergeLayout MergeRender MergeSearch Cached CachedSpec MeasuredSpec MeasuredProofs.
From Coq Require Import ZifyBool ZifyNat.
Local Open Scope Z_scope.

Lemma may_bind {A B} (p : prog A) (f : A -> prog B) a b : may p a -> may (f a) b -> may (bind p f) b.
Proof. induction 1 as [a|s k w a Hw Ha IH]; intros Hb; [exact Hb|]. cbn [bind]. apply may_call with w; [exact Hw|]. apply IH, Hb. Qed.
Lemma may_pbind {E A B} (p : prog (outcome E A)) (f : A -> prog (outcome E B)) a b : may p (Ok a) -> may (f a) b -> may (pbind p f) b.
Proof. intros Ha Hb. unfold pbind. apply may_bind with (Ok a); assumption. Qed.
Lemma unsure_first {A B} ok n (p : prog A) (f : A -> wprog B) a out b : may p a -> unsure ok n (f a) out b -> unsure ok n (first p f) out b.
Proof. induction 1 as [a|s k w a Hw Ha IH]; intros Hb; [exact Hb|]. cbn [first]. apply un_call with w; [exact Hw|]. apply IH, Hb. Qed.

Section Types.
Context {Item Val E : Type}.
Implicit Types (t : PTable Item Val E) (cols : list (PColumn Item Val E)) (items : PItems E) (rows : list (list str)).

Lemma cells_may (getWidth : Z -> Z -> outcome E Z) item k cols : forall als ws (i : nat) xs,
  Aligns als cols -> Forall (fun w => 0 <= w < 65536) ws -> (i + length cols <= length item)%nat ->
  (forall j w, nth_error ws j = Some w -> getWidth (Z.of_nat (i + j)) k = Ok w) ->
  CellsMay als ws (skipn i item) xs -> may (cellsP getWidth (map Some cols) item (Z.of_nat i) k) (Ok xs).
Proof.
  induction cols as [|col cols IH]; intros als ws i xs HA HR Hi Hw HC.
  - inversion HA; subst. inversion HC; subst. constructor.
  - inversion HA as [|a ? als' ? Ha HA']; subst. cbn [map cellsP].
    destruct (nth_error item i) as [s|] eqn:Es; [|apply nth_error_None in Es; cbn in Hi; lia].
    assert (EQ : skipn i item = s :: skipn (S i) item).
    { clear -Es. revert item Es. induction i as [|i IH]; intros [|y item] Es; try discriminate Es; [injection Es as ->; reflexivity|exact (IH item Es)]. }
    rewrite EQ in HC. inversion HC as [|? ? w ws' ? ? n x xs' Hn Hx HC']; subst. inversion HR as [|? ? HR1 HR2]; subst.
    rewrite (index_nat _ _ _ Es). pose proof (Hw 0%nat w eq_refl) as Hw0. rewrite Nat.add_0_r in Hw0. rewrite Hw0.
    replace (match pcAlignment col with Some f => f | None => alignLeftP end) with (alignP a) by (destruct Ha as [->|[-> ->]]; reflexivity).
    apply may_bind with x; [apply align_may; [exact HR1|]; exists n; split; assumption|].
    replace (Z.of_nat i + 1) with (Z.of_nat (S i)) by lia. apply may_pbind with xs'; [|constructor].
    apply (IH als' ws' (S i) xs' HA' HR2); [cbn in Hi; lia| |exact HC'].
    intros j w' Hj. replace (S i + j)%nat with (i + S j)%nat by lia. apply Hw. exact Hj.
Qed.

Section Printing.
Context {t : PTable Item Val E} {cols : list (PColumn Item Val E)} {als : list alignment} {items : PItems E} {rows : list (list str)}.
Hypothesis HP : CanPrint t cols als items rows.

Lemma groups_may getWidth W g (p : nat -> nat) (P : Z -> Z) : Reads getWidth (length cols) g W -> InRange W g ->
  (forall k, P (Z.of_nat k) = Z.of_nat (p k)) -> forall n s bs, (s + n <= g)%nat ->
  BlocksMay als W s (picks p (seq s n) rows) bs ->
  may (groupsP (piLen items) P (renderP t items getWidth) (map Z.of_nat (seq s n)))
    (Ok (bs ++ if (length (picks p (seq s n) rows) <? n)%nat then [[]] else [])).
Proof.
  intros HR HI Hpos. pose proof (items_len HP) as HN.
  induction n as [|n IH]; intros s bs Hs HB; [inversion HB; subst; constructor|].
  cbn [seq map groupsP picks] in *. rewrite Hpos, HN.
  destruct (nth_error rows (p s)) as [row|] eqn:Er.
  - pose proof (nth_some_lt _ _ _ Er). destruct (Z.geb_spec (Z.of_nat (p s)) (Z.of_nat (length rows))); [lia|].
    inversion HB as [|? ? ? xs bs' HC HB']; subst. apply may_pbind with (TableContract.join [space] xs).
    + destruct HP as [Hc Ha [Hn Hg] Hl _]. unfold renderP. rewrite (Hg (p s) row Er). cbn [pbind bind].
      rewrite Hc. destruct (HR s ltac:(lia)) as [HL HW]. rewrite Forall_forall in Hl. specialize (Hl row (nth_error_In _ _ Er)).
      apply may_pbind with xs; [|constructor]. change 0%Z with (Z.of_nat 0).
      exact (cells_may getWidth row (Z.of_nat s) cols als (W s) 0 xs Ha (HI s ltac:(lia)) Hl HW HC).
    + rewrite <- HN. apply may_pbind with (bs' ++ if (length (picks p (seq (S s) n) rows) <? n)%nat then [[]] else []); [apply IH; [lia|exact HB']|]. constructor.
  - apply nth_error_None in Er. destruct (Z.geb_spec (Z.of_nat (p s)) (Z.of_nat (length rows))); [|lia]. inversion HB; subst. constructor.
Qed.

Lemma lines_may (line : Z -> prog (outcome E str)) ls : forall n out,
  Forall2 (fun i x => exists txt, x = txt ++ [x0a] /\ may (line i) (Ok txt)) ls out ->
  unsure (fun _ => true) n (linesP line ls) out Finished.
Proof.
  induction ls as [|i ls IH]; intros n out HF; inversion HF as [|? ? ? ? (txt & -> & Ht) HF']; subst; [constructor|]. cbn [linesP].
  eapply unsure_first; [exact Ht|]. cbn beta iota. match goal with |- unsure ?ok n (Write ?x ?k) (_ :: ?o) _ => apply (un_write ok n x k o) end. apply IH, HF'.
Qed.

Theorem plain_exact m fuel maxWidth sep out : reckonedP t cols sep mod 65536 <> 0 ->
  (unsure (fun _ => true) 0 (mergeP m fuel t items maxWidth sep false) out Finished <->
   MayPrint als sep m rows (Z.to_nat (estimateP t cols sep maxWidth)) (fun _ => recordedP t cols) out).
Proof.
  intros Hr. set (g0 := Z.to_nat (estimateP t cols sep maxWidth)).
  assert (Hg0 : (1 <= g0)%nat) by (unfold g0, estimateP; lia).
  assert (Eg0 : estimateP t cols sep maxWidth = Z.of_nat g0) by (unfold g0, estimateP; lia). split.
  - intros Hu. destruct (merge_may HP m fuel maxWidth sep false out Finished Hr Hu) as [(K & _)|(_ & g & W & _ & _ & HM & [[K ->]|(K & _)])]; [discriminate K| |discriminate K].
    replace g0 with g by lia. exact HM.
  - intros (lines & HL & HF). rewrite (layout_is m g0 rows lines Hg0 HL) in HF.
    enough (K : unsure (fun _ => true) 0 (emitP t items sep (Z.of_nat g0) (getWidthP_default t) (zpos m (Z.of_nat g0))) out Finished).
    { destruct m; cbn [mergeP]; unfold mergeHP, mergeVP; rewrite (estimateP_ok HP);
      (destruct (Z.eqb_spec (reckonedP t cols sep mod 65536) 0) as [Z0|_]; [contradiction|]); rewrite Eg0; exact K. }
    unfold emitP. rewrite (items_len HP), lineCountOf_nat by exact Hg0. set (L := lineCount (length rows) g0) in *.
    apply lines_may. unfold layout_lines in HF. fold L in HF. rewrite (zrange_nat L).
    assert (Line : forall l txt, LineMay als sep (fun _ => recordedP t cols) g0 (picks (pos m g0 L l) (seq 0 g0) rows) txt ->
      exists x, txt = x ++ [x0a] /\ may (pbind (groupsP (Z.of_nat (length rows)) (zpos m (Z.of_nat g0) (Z.of_nat L) (Z.of_nat l)) (renderP t items (getWidthP_default t)) (zrange (Z.of_nat g0)))
        (fun blocks => Ret (Ok (join sep blocks)))) (Ok x)).
    { intros l txt (bs & HB & ->). eexists. split; [reflexivity|]. rewrite zrange_nat, <- (items_len HP). eapply may_pbind.
      - apply (groups_may (getWidthP_default t) (fun _ => recordedP t cols) g0 (pos m g0 L l) _ (readsP_default HP g0) (range_default HP g0)); [|lia|exact HB].
        intros k. destruct m; cbn [zpos pos]; lia.
      - constructor. }
    clear HL. revert out HF. generalize (seq 0 L). intros ls. induction ls as [|l ls IH]; intros out HF; cbn [map] in *; inversion HF as [|? ? ? ? HF1 HF2]; subst; [constructor|].
    cbn [map]. constructor; [exact (Line _ _ HF1)|apply IH, HF2].
Qed.
End Printing.
End Types.
