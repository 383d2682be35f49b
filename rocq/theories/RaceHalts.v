(** * RaceHalts: goroutines sharing a Condition or a Table come to an end. *)
From Coq Require Import ZifyBool ZifyNat.
From Verif Require Import GoBase Uniseg Runewidth ConditionSpec RunewidthProofs LutRace LutRaceSpec LutRaceProofs LutRaceCases
  Table TableRace TableRaceSpec.
Local Open Scope Z_scope.

(** ** Lists of goroutines *)
Section Lists.
Context {T : Type} (R : T -> T -> Prop).
Definition moves (ys xs : list T) : Prop :=
  exists before x y after, xs = before ++ x :: after /\ ys = before ++ y :: after /\ R y x.
Lemma moves_acc xs : Forall (Acc R) xs -> Acc moves xs.
Proof.
  induction 1 as [|x xs Hx _ IH].
  - constructor. intros ys (b & x & y & a & H & _). destruct b; discriminate H.
  - revert xs IH. induction Hx as [x Hx IHx]. intros xs Hxs. induction Hxs as [xs Hxs IHxs].
    constructor. intros ys (b & u & v & a & H & -> & HR). destruct b as [|u' b]; cbn in H; injection H as E1 E2; subst; cbn.
    + apply IHx; [exact HR|]. constructor. exact Hxs.
    + apply IHxs. exists b, u, v, a. repeat split. exact HR.
Qed.
End Lists.

Lemma acc_no_run {T} (R : T -> T -> Prop) x : Acc R x -> forall f : nat -> T, f O = x -> (forall n, R (f (S n)) (f n)) -> False.
Proof.
  induction 1 as [x _ IH]. intros f H0 Hs. apply (IH (f 1%nat)) with (f := fun n => f (S n)); [rewrite <- H0; apply Hs|reflexivity|intros n; apply Hs].
Qed.

(** ** A Condition *)
Section Lut.
Context {A : Type}.
Definition short (m : mem) : Prop := Forall (fun l => (length l <= FullLut)%nat) (mArrs m).
Definition step_from (t' t : lstate A) : Prop := exists m m', short m /\ lstep m t = Some (m', t').

Lemma short_arr m h : short m -> (length (arr m h) <= FullLut)%nat.
Proof.
  intros H. destruct h as [a|]; cbn [arr length]; [|apply Nat.le_0_l].
  destruct (nth_in_or_default a (mArrs m) []) as [X| ->]; [|cbn [length]; apply Nat.le_0_l].
  exact (proj1 (Forall_forall _ _) H _ X).
Qed.
Lemma short_step m (t : lstate A) m' t' : short m -> lstep m t = Some (m', t') -> short m'.
Proof.
  intros H. assert (W : forall lut i v, short (set_elem m lut i v)).
  { intros [a|] i v; cbn [set_elem]; [|exact H]. unfold short. cbn [mArrs]. apply Forall_set_nth; [exact H|].
    rewrite set_nth_length. exact (short_arr m (Some a) H). }
  assert (N : short {| mHdr := mHdr m; mArrs := mArrs m ++ [new_lut]; mEA := mEA m; mStrict := mStrict m |}).
  { unfold short. cbn [mArrs]. apply Forall_app. split; [exact H|]. constructor; [rewrite new_lut_length; apply Nat.le_refl|constructor]. }
  destruct t as [p| | | | | | | | | | | | | |]; cbn [lstep]; try (destruct p); try (destruct at_index);
    intros Q; try discriminate Q; try (injection Q as <- <-; first [exact H|apply W|exact N|exact H]).
Qed.

Ltac next H := let m := fresh "m" in let m' := fresh "m'" in let S := fresh "S" in let Q := fresh "Q" in
  constructor; intros t' (m & m' & S & Q); cbn [lstep] in Q.
Lemma dead_acc : Acc step_from Died.
Proof. next H. discriminate Q. Qed.
Lemma width_acc c : (forall w, Acc step_from (give c w)) -> forall r, Acc step_from (AtLen r c).
Proof.
  intros H r.
  assert (S1 : forall ea, Acc step_from (AtStrict r ea c)). { intros ea. next H. injection Q as _ <-. apply H. }
  assert (S2 : Acc step_from (AtEA r c)). { next H. injection Q as _ <-. apply S1. }
  assert (S3 : forall lut, Acc step_from (AtElem r lut c)).
  { intros lut. next H. destruct at_index; injection Q as _ <-; [apply H|apply dead_acc]. }
  assert (S4 : Acc step_from (AtTable r c)). { next H. injection Q as _ <-. apply S3. }
  next H. injection Q as _ <-. destruct (0 <? _); assumption.
Qed.
Lemma loop_acc k : Acc step_from (AtProg k) -> forall n lut i, (FullLut - i <= n)%nat -> Acc step_from (AtLoop lut i k).
Proof.
  intros H.
  assert (S0 : forall lut, Acc step_from (AtStore lut k)). { intros lut. next H. injection Q as _ <-. exact H. }
  induction n as [|n IH]; intros lut i L.
  - next H. injection Q as _ <-. destruct (Nat.ltb_spec i (length (arr m lut))) as [X|X]; [|apply S0].
    exfalso. pose proof (short_arr m lut S) as Y. clear S0 H. generalize dependent FullLut. intros N L Y. lia.
  - next H. injection Q as _ <-. destruct (Nat.ltb_spec i (length (arr m lut))) as [X|X]; [|apply S0].
    assert (L' : (FullLut - Datatypes.S i <= n)%nat) by (clear IH S0 H X; generalize dependent FullLut; intros N L; lia).
    apply width_acc. intros w. cbn [give]. apply width_acc. intros w'. cbn [give].
    clear X S m m'. next H. injection Q as _ <-. apply IH, L'.
Qed.
Lemma make_acc k : Acc step_from (AtProg k) -> Acc step_from (AtTake k).
Proof.
  intros H. pose proof (fun lut => loop_acc k H FullLut lut 0 (Nat.le_sub_l _ _)) as L. clear H.
  generalize dependent FullLut. intros.
  next H. injection Q as _ <-. clear S m'. next H. injection Q as _ <-. destruct (negb _); next H; injection Q as _ <-; apply L.
Qed.
Lemma prog_acc p : Acc step_from (AtProg p).
Proof.
  induction p as [a|r k IH|k IH|k IH|b k IH|b k IH].
  - next H. discriminate Q.
  - next H. injection Q as _ <-. unfold ask. destruct ((r <? 0) || (r >? 0x10FFFF))%bool; [apply IH|apply width_acc; exact IH].
  - next H. injection Q as _ <-. apply make_acc, IH.
  - next H. injection Q as _ <-. clear S m'. next H. injection Q as _ <-. destruct (0 <? _); [exact IH|apply make_acc, IH].
  - next H. injection Q as _ <-. exact IH.
  - next H. injection Q as _ <-. exact IH.
Qed.

Lemma short_start c : Reachable c -> short (mem_of c).
Proof.
  intros Hc. destruct (tidy_mem_of c Hc) as (H & _). unfold short. eapply Forall_impl; [|exact H]. cbn. intros l ->. apply Nat.le_refl.
Qed.
Lemma system_acc x : short (fst x) -> Forall (Acc step_from) (snd x) -> Acc (fun y x => goes_on x y) x.
Proof.
  destruct x as [m ts]. cbn [fst snd]. intros S F. apply moves_acc in F. revert m S. induction F as [ts _ IH]. intros m S.
  constructor. intros y (m1 & b & t & a & m' & t' & e & Q & ->). injection e as <- ->.
  apply IH; [|exact (short_step m t m' t' S Q)]. exists b, t, t', a. repeat split. exists m, m'. split; [exact S|exact Q].
Qed.
Lemma start_acc c (ps : list (lprog A)) : Reachable c -> Acc (fun y x => goes_on x y) (mem_of c, map AtProg ps).
Proof.
  intros Hc. apply system_acc; cbn [fst snd]; [exact (short_start c Hc)|].
  apply Forall_forall. intros t X. apply in_map_iff in X. destruct X as (p & <- & _). apply prog_acc.
Qed.
Theorem lut_halts c (ps : list (lprog A)) : Reachable c ->
  ~ exists f, f O = (mem_of c, map AtProg ps) /\ forall n, goes_on (f n) (f (S n)).
Proof. intros Hc (f & H0 & Hs). exact (acc_no_run _ _ (start_acc c ps Hc) f H0 Hs). Qed.

Definition over (t : lstate A) : Prop := ended t \/ t = Died.
Lemma over_or_step m (t : lstate A) : over t \/ exists m' t', lstep m t = Some (m', t').
Proof.
  destruct t as [p| | | | | | | | | | | | | |]; [destruct p as [a| | | | |]; [left; left; exists a; reflexivity|..]|..]; cbn [lstep];
    try (right; eexists; eexists; reflexivity).
  - right. destruct at_index; eexists; eexists; reflexivity.
  - left. right. reflexivity.
Qed.
Lemma all_over_or_step m (ts : list (lstate A)) : Forall over ts \/ exists y, goes_on (m, ts) y.
Proof.
  induction ts as [|t ts [IH|IH]]; [left; constructor|..].
  - destruct (over_or_step m t) as [O|(m' & t' & Q)]; [left; constructor; assumption|]. right. exists (m', t' :: ts), m, [], t, ts, m', t'. repeat split. exact Q.
  - right. destruct IH as (y & m1 & b & u & a & m' & u' & e & Q & ->). injection e as <- ->.
    exists (m', t :: b ++ u' :: a), m, (t :: b), u, a, m', u'. repeat split. exact Q.
Qed.
Lemma exec_goes x y z : lexec (A := A) x y -> goes_on y z -> lexec x z.
Proof. intros X (m & b & t & a & m' & t' & -> & Q & ->). exact (le_step _ _ _ _ _ _ _ X Q). Qed.
Lemma acc_ends x : Acc (fun y x => goes_on (A := A) x y) x -> exists m' ts', lexec x (m', ts') /\ Forall over ts'.
Proof.
  intros H. assert (G : forall s, lexec s x -> exists m' ts', lexec s (m', ts') /\ Forall over ts'); [|exact (G x (le_refl x))].
  induction H as [[m ts] _ IH]. intros s X. destruct (all_over_or_step m ts) as [O|(y & Y)].
  - exists m, ts. split; assumption.
  - exact (IH y Y s (exec_goes _ _ _ X Y)).
Qed.
Lemma exec_acc x y : lexec (A := A) x y -> Acc (fun y x => goes_on x y) x -> Acc (fun y x => goes_on x y) y.
Proof.
  induction 1 as [x|x m b t a m' t' _ IH Q]; [exact (fun h => h)|]. intros H. apply (Acc_inv (IH H)).
  exists m, b, t, a, m', t'. repeat split. exact Q.
Qed.
Theorem lut_ends c (ps : list (lprog A)) m ts : Reachable c -> lexec (mem_of c, map AtProg ps) (m, ts) ->
  exists m' ts', lexec (m, ts) (m', ts') /\ Forall (fun t => ended t \/ t = Died) ts'.
Proof. intros Hc X. exact (acc_ends _ (exec_acc _ _ X (start_acc c ps Hc))). Qed.
End Lut.

(** ** A Table *)
Section Tables.
Context {A : Type}.
Definition next_of (t' t : sprog A) : Prop := exists m m' more, sstep m t = Some (m', t', more).
Lemma sprog_acc t : Acc next_of t.
Proof.
  induction t as [a|name k IH|name w p IH|name w p IH]; constructor; intros t' (m & m' & more & Q); cbn [sstep] in Q.
  - discriminate Q.
  - injection Q as _ <- _. apply IH.
  - injection Q as _ <- _. destruct (w >? m name); [|exact IH]. constructor. intros t'' (m2 & m2' & more2 & Q). injection Q as _ <- _. exact IH.
  - injection Q as _ <- _. exact IH.
Qed.
Theorem table_halts m0 (ts0 : list (sprog A)) : ~ exists f, f O = (m0, ts0) /\ forall n, moves_on (f n) (f (S n)).
Proof.
  intros (f & H0 & Hs). refine (acc_no_run (moves next_of) (snd (f O)) _ (fun n => snd (f n)) eq_refl _).
  - apply moves_acc, Forall_forall. intros t _. apply sprog_acc.
  - intros n. destruct (Hs n) as (m & b & t & a & m' & t' & more & -> & Q & ->). cbn [snd]. exists b, t, t', a. repeat split. exists m, m', more. exact Q.
Qed.
End Tables.
