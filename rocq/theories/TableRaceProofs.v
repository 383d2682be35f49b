(** * TableRaceProofs: executions of goroutines sharing one Table. *)
From Coq Require Import ZifyBool ZifyNat Permutation.
From Verif Require Import GoBase CacheProofs Runewidth Width AlignSpec Table TableContract TableOpsProofs TableRace TableRaceSpec.
Local Open Scope Z_scope.

(** ** Programs without pending writes *)
Inductive Clean {A} : sprog A -> Prop :=
| cl_ret a : Clean (SRet a)
| cl_get name k : (forall w, Clean (k w)) -> Clean (SGet name k)
| cl_check name w p : Clean p -> Clean (SCheck name w p).

Lemma steps_clean {Item Val E A} cols (p : cprog Item E A) : Clean (steps (Val := Val) cols p).
Proof.
  assert (U : forall l q, Clean q -> Clean (updateS (A := A) l q)).
  { induction l as [|[n w] l IH]; cbn; auto. intros. constructor. auto. }
  assert (F : forall c item cs done k, (forall r, Clean (k r)) -> Clean (formatS (Val := Val) (A := A) (E := E) (Item := Item) c cs item done k)).
  { intros c item. induction cs as [|[col|] cs IH]; intros done k H; cbn [formatS]; auto.
    destruct (colGetter col); auto. destruct (getValue _ _); auto. destruct (getFormat _ _ _); auto. constructor. auto. }
  assert (L : forall cs done todo k, (forall r, Clean (k r)) -> Clean (alignS_loop (Item := Item) (Val := Val) (E := E) (A := A) cs done todo k)).
  { induction cs as [|[col|] cs IH]; intros done [|s todo] k H; cbn [alignS_loop]; auto.
    destruct (colAlignment col); auto. constructor. auto. }
  assert (H' : forall c sep cs acc k, (forall r, Clean (k r)) -> Clean (headerS (Item := Item) (Val := Val) (E := E) (A := A) c cs sep acc k)).
  { intros c sep. induction cs as [|[col|] cs IH]; intros acc k H; cbn [headerS]; auto. constructor. auto. }
  assert (T : forall cs w k, (forall r, Clean (k r)) -> Clean (tableWidthS_loop (Item := Item) (Val := Val) (E := E) (A := A) cs w k)).
  { induction cs as [|[col|] cs IH]; intros w k H; cbn [tableWidthS_loop]; auto. constructor. auto. }
  induction p; cbn [steps]; auto.
  - constructor.
  - constructor. auto.
  - unfold alignS. destruct (negb _); auto.
  - apply T. auto.
Qed.

Section Race.
Context {A : Type}.
Notation sprog := (sprog A).

(** A goroutine: no pending write, or one whose width has been compared. *)
Definition fair (seen : list (str * Z)) (t : sprog) : Prop :=
  Clean t \/ exists name w p, t = SPut name w p /\ Clean p /\ In (name, w) seen.
Lemma fair_more seen more t : fair seen t -> fair (seen ++ more) t.
Proof. intros [H|(n & w & p & e & H & I)]; [left; auto|right; exists n, w, p; rewrite in_app_iff; auto]. Qed.

Lemma sstep_fair m t m' t' more seen : fair seen t -> sstep m t = Some (m', t', more) -> fair (seen ++ more) t'.
Proof.
  intros [H|(n & w & p & -> & H & I)] S; cbn [sstep] in S.
  - destruct H as [a|n k H|n w p H]; cbn [sstep] in S; try discriminate; injection S as <- <- <-.
    + left. auto.
    + destruct (w >? m n); [right|left; auto]. exists n, w, p. rewrite in_app_iff. cbn. auto.
  - injection S as <- <- <-. left. auto.
Qed.

Lemma exec_fair P m0 ts0 m ts seen : Forall (@Clean A) ts0 -> sexec P m0 ts0 m ts seen -> Forall (fair seen) ts.
Proof.
  intros C X. induction X as [|m before t after seen m' t' more X IH HP S].
  - eapply Forall_impl; [|exact C]. intros t H. left. exact H.
  - rewrite Forall_app, Forall_cons_iff in *. destruct IH as (B & T & Af).
    repeat split; [eapply Forall_impl; [|exact B]| |eapply Forall_impl; [|exact Af]]; try (intros; apply fair_more; assumption).
    eapply sstep_fair; eauto.
Qed.

(** Every width in the map was compared, or there from the start. *)
Lemma exec_bounds P m0 ts0 m ts seen name : Forall (@Clean A) ts0 -> sexec P m0 ts0 m ts seen ->
  m name = m0 name \/ In (name, m name) seen.
Proof.
  intros C X. induction X as [|m before t after seen m' t' more X IH HP S]; auto.
  pose proof (exec_fair _ _ _ _ _ _ C X) as F. rewrite Forall_app, Forall_cons_iff in F. destruct F as (_ & F & _).
  rewrite in_app_iff. destruct t as [a|n k|n w p|n w p]; cbn [sstep] in S; try discriminate; injection S as <- <- <-; try tauto.
  destruct F as [F|(n1 & w1 & p1 & e & _ & I)]; [inversion F|]. injection e as <- <- <-.
  unfold wset. destruct (str_eqb_spec name n) as [->|]; tauto.
Qed.

(** ** One at a time *)
Definition pending (name : str) (ts : list sprog) : Prop := exists w p, In (SPut name w p) ts.

Definition shown (m0 : wmap) (seen : list (str * Z)) (name : str) (w : Z) : Prop := w = m0 name \/ In (name, w) seen.

(** Where the goroutine that moved stands: itself, or elsewhere. *)
Lemma in_moved (t t' u : sprog) before after : In u (before ++ t' :: after) -> u = t' \/ In u (before ++ t :: after).
Proof. rewrite !in_app_iff. cbn. intuition auto. Qed.

Lemma nth_mid {T} (b : list T) x a : nth_error (b ++ x :: a) (length b) = Some x.
Proof. rewrite nth_error_app2, Nat.sub_diag by lia. reflexivity. Qed.
Lemma nth_other {T} (b : list T) x y a i : i <> length b -> nth_error (b ++ x :: a) i = nth_error (b ++ y :: a) i.
Proof.
  intros H. destruct (Nat.lt_ge_cases i (length b)).
  - rewrite !nth_error_app1 by auto. reflexivity.
  - rewrite !nth_error_app2 by auto. destruct (i - length b)%nat eqn:e; [lia|reflexivity].
Qed.

Definition settled (m0 m : wmap) (ts : list sprog) (seen : list (str * Z)) (name : str) : Prop :=
  (~ pending name ts /\ IsMax (shown m0 seen name) (m name)) \/
  (exists i w p, nth_error ts i = Some (SPut name w p) /\
     (forall j w' p', nth_error ts j = Some (SPut name w' p') -> j = i) /\
     m name < w /\ shown m0 seen name (m name) /\ IsMax (shown m0 seen name) w).

Lemma shown_more m0 seen more name w : shown m0 seen name w -> shown m0 (seen ++ more) name w.
Proof. unfold shown. rewrite in_app_iff. tauto. Qed.
Lemma shown_nil m0 seen name w : shown m0 (seen ++ []) name w <-> shown m0 seen name w.
Proof. rewrite app_nil_r. reflexivity. Qed.

(** The other goroutines' pending writes stay. *)
Lemma settled_still m0 m m' before t t' after seen name : m' name = m name ->
  (forall w p, t <> SPut name w p) -> (forall w p, t' <> SPut name w p) ->
  settled m0 m (before ++ t :: after) seen name -> settled m0 m' (before ++ t' :: after) seen name.
Proof.
  intros Em H H' [[N M]|(i & w & p & Ei & U & Lt & S & M)].
  - left. rewrite Em. split; auto. intros (w & p & I). apply (in_moved t) in I. destruct I as [I|I]; [exact (H' w p (eq_sym I))|].
    apply N. exists w, p. exact I.
  - right. exists i, w, p. rewrite Em.
    assert (Hi : i <> length before). { intros ->. rewrite nth_mid in Ei. injection Ei as Ei. exact (H w p Ei). }
    split; [rewrite (nth_other before t' t); auto|]. split; auto.
    intros j w' p' Ej. destruct (Nat.eq_dec j (length before)) as [->|Hj].
    + rewrite nth_mid in Ej. injection Ej as Ej. destruct (H' w' p' Ej).
    + rewrite (nth_other before t' t) in Ej by auto. eauto.
Qed.

Lemma exec_settled name m0 ts0 m ts seen : Forall (@Clean A) ts0 -> sexec (one_at_a_time name) m0 ts0 m ts seen ->
  one_at_a_time name m ts -> settled m0 m ts seen name.
Proof.
  intros C X. induction X as [|m before t after seen m' t' more X IH HP S]; intros HP'.
  - left. split.
    + intros (w & p & I). rewrite Forall_forall in C. specialize (C _ I). inversion C.
    + split; [left; reflexivity|]. intros x [->|[]]. lia.
  - specialize (IH HP). pose proof (exec_fair _ _ _ _ _ _ C X) as F.
    rewrite Forall_app, Forall_cons_iff in F. destruct F as (_ & F & _).
    destruct t as [a|n k|n w p|n w p]; cbn [sstep] in S; try discriminate; injection S as <- <- <-.
    + destruct F as [F|(n1 & w1 & p1 & e & _)]; [|discriminate]. inversion F as [|? ? CK|]; subst.
      rewrite app_nil_r. apply (settled_still m0 m m before (SGet n k) (k (m n)) after); auto; try discriminate.
      intros w p e. specialize (CK (m n)). rewrite e in CK. inversion CK.
    + destruct F as [F|(n1 & w1 & p1 & e & _)]; [|discriminate]. inversion F as [| |? ? ? CP]; subst.
      assert (NP : forall w' p', p <> SPut name w' p') by (intros w' p' ->; inversion CP).
      destruct (str_eqb_spec n name) as [->|Hn].
      2:{ (* another name *)
        assert (K : settled m0 m (before ++ (if w >? m n then SPut n w p else p) :: after) seen name).
        { apply (settled_still m0 m m before (SCheck n w p) _ after); auto; try discriminate.
          intros w' p'. destruct (w >? m n); [intros e; congruence|auto]. }
        assert (SE : forall x, shown m0 (seen ++ [(n, w)]) name x <-> shown m0 seen name x).
        { intros x. unfold shown. rewrite in_app_iff. cbn. intuition congruence. }
        destruct K as [[N M]|(i & w0 & p0 & Ei & U & Lt & Sm & M)].
        - left. split; auto. apply (IsMax_ext (shown m0 seen name)); auto. intros; symmetry; apply SE.
        - right. exists i, w0, p0. repeat split; auto; try (apply SE; auto; fail); try (apply SE; apply M).
          intros x Hx. apply M. apply SE. exact Hx. }
      assert (SE : forall x, shown m0 (seen ++ [(name, w)]) name x <-> shown m0 seen name x \/ x = w).
      { intros x. unfold shown. rewrite in_app_iff. cbn. intuition congruence. }
      destruct (Z.gtb_spec w (m name)) as [G|G].
      * (* becomes pending: no other may be *)
        destruct IH as [[N M]|(i & w0 & p0 & Ei & U & Lt & Sm & M)].
        -- right. exists (length before), w, p. split; [apply nth_mid|]. split; [|split; [lia|split]].
           ++ intros j w' p' Ej. destruct (Nat.eq_dec j (length before)) as [|Hj]; auto.
              rewrite (nth_other before (SPut name w p) (SCheck name w p)) in Ej by auto.
              exfalso. apply N. exists w', p'. eapply nth_error_In. exact Ej.
           ++ apply SE. left. apply M.
           ++ split; [apply SE; auto|]. intros x Hx. apply SE in Hx. destruct Hx as [Hx| ->]; [|lia].
              destruct M as [_ M]. specialize (M x Hx). lia.
        -- exfalso. assert (Hi : i <> length before). { intros ->. rewrite nth_mid in Ei. discriminate. }
           apply Hi. apply (HP' i (length before) w0 w p0 p); [|apply nth_mid].
           rewrite (nth_other before (SPut name w p) (SCheck name w p)); auto.
      * assert (K : settled m0 m (before ++ p :: after) seen name).
        { apply (settled_still m0 m m before (SCheck name w p) _ after); auto; discriminate. }
        destruct K as [[N M]|(i & w0 & p0 & Ei & U & Lt & Sm & M)].
        -- left. split; auto. split; [apply SE; left; apply M|]. intros x Hx. apply SE in Hx.
           destruct Hx as [Hx| ->]; [apply M; auto|lia].
        -- right. exists i, w0, p0. repeat split; auto; try (apply SE; auto; fail); try (apply SE; left; apply M).
           intros x Hx. apply SE in Hx. destruct Hx as [Hx| ->]; [apply M; auto|lia].
    + (* the write *)
      destruct F as [F|(n1 & w1 & p1 & e & CP & I)]; [inversion F|]. injection e as <- <- <-.
      assert (NP : forall w' p', p <> SPut name w' p') by (intros w' p' ->; inversion CP).
      rewrite app_nil_r. destruct (str_eqb_spec n name) as [->|Hn].
      * destruct IH as [[N M]|(i & w0 & p0 & Ei & U & Lt & Sm & M)].
        -- exfalso. apply N. exists w, p. apply in_elt.
        -- assert (i = length before) as -> by (symmetry; eapply U; apply nth_mid).
           rewrite nth_mid in Ei. injection Ei as <- <-.
           left. split.
           ++ intros (w' & p' & I'). apply In_nth_error in I'. destruct I' as (j & Ej).
              destruct (Nat.eq_dec j (length before)) as [->|Hj].
              ** rewrite nth_mid in Ej. injection Ej as Ej. exact (NP _ _ Ej).
              ** rewrite (nth_other before p (SPut name w p)) in Ej by auto. apply Hj. eauto.
           ++ rewrite wset_same. exact M.
      * apply (settled_still m0 m _ before (SPut n w p) p after); auto; [|congruence].
        apply wset_other. congruence.
Qed.

Lemma exec_exact name m0 ts0 m ts seen : Forall (@Clean A) ts0 -> sexec (one_at_a_time name) m0 ts0 m ts seen ->
  (forall w p, ~ In (SPut name w p) ts) -> IsMax (shown m0 seen name) (m name).
Proof.
  intros C X N. assert (O : one_at_a_time name m ts).
  { intros i j w w' p p' Hi _. apply nth_error_In in Hi. destruct (N _ _ Hi). }
  destruct (exec_settled name m0 ts0 m ts seen C X O) as [[_ M]|(i & w & p & Ei & _)]; auto.
  apply nth_error_In in Ei. destruct (N _ _ Ei).
Qed.

(** ** Results do not depend on the widths where no width is read *)
Inductive Ends : sprog -> A -> Prop :=
| en_ret a : Ends (SRet a) a
| en_get name k w a : Ends (k w) a -> Ends (SGet name k) a
| en_check name w p a : Ends p a -> Ends (SCheck name w p) a
| en_put name w p a : Ends p a -> Ends (SPut name w p) a.
Lemma sstep_ends m t m' t' more a : sstep m t = Some (m', t', more) -> Ends t' a -> Ends t a.
Proof.
  destruct t as [b|n k|n w p|n w p]; cbn [sstep]; intros S; try discriminate; injection S as <- <- <-; intros H.
  - econstructor; eauto.
  - destruct (w >? m n); [inversion H; subst|]; constructor; auto.
  - constructor; auto.
Qed.
Lemma exec_ends P m0 ts0 m ts seen i t a : sexec P m0 ts0 m ts seen -> nth_error ts i = Some t -> Ends t a ->
  exists t0, nth_error ts0 i = Some t0 /\ Ends t0 a.
Proof.
  intros X. revert t. induction X as [|m before t1 after seen m' t' more X IH HP S]; intros t Hi Ht; eauto.
  destruct (Nat.eq_dec i (length before)) as [->|Hn].
  - rewrite nth_mid in Hi. injection Hi as <-. apply (IH t1); [apply nth_mid|eapply sstep_ends; eauto].
  - rewrite (nth_other before t' t1) in Hi by auto. eauto.
Qed.
End Race.
