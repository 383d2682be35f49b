(** * WeakRaceProofs: executions without sequential consistency. *)
From Coq Require Import ZifyBool ZifyNat.
From Verif Require Import GoBase Uniseg Runewidth ConditionSpec RunewidthProofs LutRace LutRaceSpec LutRaceProofs WeakRace WeakRaceSpec.
Local Open Scope Z_scope.
Ltac Zify.zify_post_hook ::= Z.div_mod_to_equations.
Opaque FullLut new_lut.

Lemma lutLen_is : lutLen = 557056.
Proof. reflexivity. Qed.
Lemma shiftr1 r : Z.shiftr r 1 = r / 2.
Proof. rewrite Z.shiftr_div_pow2 by lia. reflexivity. Qed.

Lemma word_eqb_spec x y : word_eqb x y = true <-> x = y.
Proof.
  destruct x, y; cbn; split; intros X; try discriminate; try reflexivity.
  - apply andb_true_iff in X. destruct X as [X Y]. apply Z.eqb_eq in X, Y. subst. reflexivity.
  - injection X as -> ->. rewrite !Z.eqb_refl. reflexivity.
Qed.
Lemma write_same v l x : write v l x l = x.
Proof. unfold write. rewrite (proj2 (word_eqb_spec l l) eq_refl). reflexivity. Qed.
Lemma write_other v l x l' : l <> l' -> write v l x l' = v l'.
Proof.
  intros H. unfold write. destruct (word_eqb l l') eqn:E; [|reflexivity]. apply word_eqb_spec in E. contradiction.
Qed.
Lemma write_cases v l x l' : (l' = l /\ write v l x l' = x) \/ (l' <> l /\ write v l x l' = v l').
Proof.
  unfold write. destruct (word_eqb l l') eqn:E.
  - left. apply word_eqb_spec in E. auto.
  - right. split; [|reflexivity]. intros ->. rewrite (proj2 (word_eqb_spec l l) eq_refl) in E. discriminate.
Qed.

(** ** Executions keep what is right for every word and every goroutine *)
Section Invariant.
Context {A : Type}.
(** [VR n l x]: [x] is right for the word [l] when there are [n] arrays. *)
Variable VR : Z -> word -> Z -> Prop.
(** [SR n p v t]: a goroutine with program [p] is right. *)
Variable SR : Z -> lprog A -> view -> wstate A -> Prop.
Hypothesis VR_more : forall n l x, VR n l x -> VR (n + 1) l x.
Hypothesis SR_more : forall n p v t, SR n p v t -> SR (n + 1) p v t.
Definition view_right (n : Z) (v : view) : Prop := forall l, VR n l (v l).
Definition log_right (n : Z) (log : list (nat * word * Z)) : Prop := Forall (fun e => VR n (snd (fst e)) (snd e)) log.
Hypothesis act_right : forall n p v t, view_right n v -> SR n p v t ->
  match wact t with
  | WNothing => True
  | WLocal t' => SR n p v t'
  | WRead l f => forall x, VR n l x -> SR n p v (f x)
  | WWrite l x t' => VR n l x /\ SR n p (write v l x) t'
  | WAlloc f => 0 <= n -> SR (n + 1) p v (f (n + 1))
  end.

Definition config_right (ps : list (lprog A)) (x : wconfig A) : Prop :=
  0 <= cArrs x /\ log_right (cArrs x) (cLog x)
  /\ Forall2 (fun p t => view_right (cArrs x) (fst t) /\ SR (cArrs x) p (fst t) (snd t)) ps (cThreads x).

Lemma may_read_right n log i v l x : log_right n log -> view_right n v -> may_read log i v l x -> VR n l x.
Proof.
  intros HL HV [|j y _ Hin]; [apply HV|]. unfold log_right in HL. rewrite Forall_forall in HL. exact (HL _ Hin).
Qed.

Lemma step_config ps x y : config_right ps x -> wstep x y -> config_right ps y.
Proof.
  intros (H0 & HL & HT) HS. destruct HS as [log n before v t after t' Ha|log n before v t after l f x Ha Hr|log n before v t after l x t' Ha|log n before v t after f Ha];
    cbn [cArrs cLog cThreads] in *; apply Forall2_split in HT; destruct HT as (pb & p & pc & -> & Hb & [Hv Ht] & Hc); cbn [fst snd] in *;
    pose proof (act_right n p v t Hv Ht) as K; rewrite Ha in K.
  - split; [exact H0|]. split; [exact HL|]. apply Forall2_app; [exact Hb|constructor; auto].
  - split; [exact H0|]. split; [exact HL|]. apply Forall2_app; [exact Hb|constructor; auto]. split; auto. apply K. eapply may_read_right; eauto.
  - destruct K as [K1 K2]. split; [exact H0|]. split; [constructor; auto|]. apply Forall2_app; [exact Hb|constructor; auto]. split; auto.
    intros l'. cbn [fst]. destruct (write_cases v l x l') as [[-> ->]|[_ ->]]; auto.
  - specialize (K H0). split; [cbn [cArrs]; lia|]. cbn [cArrs cLog cThreads].
    assert (HM : forall q r, Forall2 (fun p (t : view * wstate A) => view_right n (fst t) /\ SR n p (fst t) (snd t)) q r ->
      Forall2 (fun p (t : view * wstate A) => view_right (n + 1) (fst t) /\ SR (n + 1) p (fst t) (snd t)) q r).
    { intros q r. apply Forall2_keep. intros a b [Q1 Q2]. split; [intros l; apply VR_more, Q1|apply SR_more, Q2]. }
    split; [eapply Forall_impl; [|exact HL]; intros e; apply VR_more|].
    apply Forall2_app; [apply HM, Hb|constructor; [|apply HM, Hc]]. split; [intros l; apply VR_more, Hv|exact K].
Qed.

Lemma exec_config ps x y : config_right ps x -> wexec x y -> config_right ps y.
Proof. intros Z0 X. revert Z0. induction X as [|x y z X IH ST]; intros Z0; [exact Z0|]. exact (step_config ps y z (IH Z0) ST). Qed.
End Invariant.

Ltac ands := repeat match goal with X : _ /\ _ |- _ => destruct X end; repeat match goal with |- _ /\ _ => split end.
(** ** Widths *)
Section Widths.
Context {A : Type} (F : Z -> Z -> Prop) (E S : bool -> Prop).

Definition a_length (x : Z) : Prop := x = 0 \/ x = lutLen.
Definition VRw (n : Z) (l : word) (x : Z) : Prop :=
  match l with
  | WPtr => 0 <= x <= n
  | WLen => a_length x
  | WElem a i => forall r, 0 <= r -> r / 2 = i -> F r (nibble x r)
  | WEA => E (negb (x =? 0))
  | WStrict => S (negb (x =? 0))
  end.
Definition slice (n p m : Z) : Prop := 0 <= p <= n /\ a_length m.
Definition wcaller_right (n : Z) (p : lprog A) (r : Z) (c : wcaller A) : Prop :=
  match c with
  | WToProg k => forall w, F r w -> leads F E S p (k w)
  | WToX0 q m i k => r = i * 2 /\ 0 <= i < m /\ slice n q m /\ leads F E S p k
  | WToX1 q m i x0 k => r = i * 2 + 1 /\ 0 <= i < m /\ slice n q m /\ F (i * 2) x0 /\ leads F E S p k
  end.
Definition SRw (n : Z) (p : lprog A) (v : view) (t : wstate A) : Prop :=
  match t with
  | WAt q => leads F E S p q
  | WAtLen r c | WAtTablePtr r c | WAtEA r c => 0 <= r <= 0x10FFFF /\ wcaller_right n p r c
  | WAtTableLen r q c | WAtElem r q c => 0 <= r <= 0x10FFFF /\ 0 <= q <= n /\ wcaller_right n p r c
  | WAtStrict r ea c => 0 <= r <= 0x10FFFF /\ E (negb (ea =? 0)) /\ wcaller_right n p r c
  | WAtGuard k | WAtTakePtr k | WAtMake k => leads F E S p k
  | WAtTakeLen q k => 0 <= q <= n /\ leads F E S p k
  | WAtTest q m k | WAtDropPtr q m k | WAtDropLen q m k | WAtStorePtr q m k => slice n q m /\ leads F E S p k
  | WAtLoop q m i k => 0 <= i /\ slice n q m /\ leads F E S p k
  | WAtWrite q m i x0 x1 k => 0 <= i < m /\ slice n q m /\ F (i * 2) x0 /\ F (i * 2 + 1) x1 /\ leads F E S p k
  | WAtStoreLen m k => a_length m /\ leads F E S p k
  | WDied => True
  end.

Lemma slice_more n q m : slice n q m -> slice (n + 1) q m.
Proof. unfold slice. intros [? ?]. split; [lia|auto]. Qed.
Lemma VRw_more n l x : VRw n l x -> VRw (n + 1) l x.
Proof. destruct l; cbn; auto. lia. Qed.
Lemma wcaller_more n p r c : wcaller_right n p r c -> wcaller_right (n + 1) p r c.
Proof. destruct c; cbn [wcaller_right]; auto; intros Z0; ands; auto using slice_more. Qed.
Lemma SRw_more n p v t : SRw n p v t -> SRw (n + 1) p v t.
Proof.
  pose proof (wcaller_more n p) as WC. pose proof (slice_more n) as SM.
  destruct t; cbn [SRw]; auto; intros Z0; ands; auto; lia.
Qed.

Hypothesis F_zero : forall r, F r 0.
Hypothesis F_tables : forall r ea st, 0 <= r <= 0x10FFFF -> E ea -> S st -> F r (RuneWidth_tables ea st r).
Hypothesis F_range : forall r w, F r w -> w = 0 \/ w = 1 \/ w = 2.
Lemma wgive_right n p v r c w : 0 <= r <= 0x10FFFF -> wcaller_right n p r c -> F r w -> SRw n p v (wgive c w).
Proof.
  intros Hr C Fw. destruct c; cbn [wgive SRw wcaller_right] in *.
  - auto.
  - destruct C as (-> & B & W & L). pose proof lutLen_is. ands; auto; destruct W as [W1 [W2|W2]]; lia.
  - destruct C as (-> & B & W & F0 & L). auto.
Qed.

Lemma nibble_entry i x0 x1 : F (i * 2) x0 -> F (i * 2 + 1) x1 -> forall r, 0 <= r -> r / 2 = i ->
  F r (nibble (Z.lor (u8 x0) (u8 (Z.shiftl (u8 x1) 4))) r).
Proof.
  clear F_zero F_tables. intros H0 H1 r Hr Hi. unfold nibble. rewrite land1_mod.
  destruct (lut_entry_get x0 x1 (F_range _ _ H0) (F_range _ _ H1)) as [G0 G1]. unfold lut_entry in G0, G1.
  assert (r mod 2 = 0 \/ r mod 2 = 1) as [em|em] by lia; rewrite em.
  - rewrite G0. replace r with (i * 2) by lia. exact H0.
  - rewrite G1. replace r with (i * 2 + 1) by lia. exact H1.
Qed.

Lemma actw_right n p v t : view_right VRw n v -> SRw n p v t ->
  match wact t with
  | WNothing => True
  | WLocal t' => SRw n p v t'
  | WRead l f => forall x, VRw n l x -> SRw n p v (f x)
  | WWrite l x t' => VRw n l x /\ SRw n p (write v l x) t'
  | WAlloc f => 0 <= n -> SRw (n + 1) p v (f (n + 1))
  end.
Proof.
  intros HV T. pose proof lutLen_is as HN.
  destruct t as [[a|r k|k|k|b k|b k]|r c|r c|r q c|r q c|r c|r ea c|k|k|q k|q m k|q m k|q m k|k|q m i k|q m i x0 x1 k|q m k|m k|];
    cbn [wact]; auto.
  - cbn [SRw] in T. pose proof (leads_width F E S p r k T) as LW. unfold wask. destruct ((r <? 0) || (r >? 0x10FFFF)) eqn:Er.
    + cbn [wgive SRw]. apply LW, F_zero.
    + cbn [SRw wcaller_right]. split; [lia|auto].
  - destruct T as [T1 T2]. inversion T1; subst. split; auto. intros a Ha. apply T2. constructor; auto.
  - destruct T as [T1 T2]. inversion T1; subst. split; auto. intros a Ha. apply T2. constructor; auto.
  - destruct T as [T1 T2]. inversion T1; subst. split; [cbn; destruct b; assumption|]. split; auto. intros a Ha. apply T2. constructor; auto.
  - destruct T as [T1 T2]. inversion T1; subst. split; [cbn; destruct b; assumption|]. split; auto. intros a Ha. apply T2. constructor; auto.
  - intros x Hx. destruct (0 <? x); exact T.
  - intros x Hx. cbn [SRw VRw] in *. tauto.
  - intros x Hx. destruct (_ <? x); [exact T|exact Logic.I].
  - destruct T as (Hr & Hq & C). destruct (q =? 0); [exact Logic.I|]. intros x Hx. cbn [VRw] in Hx. rewrite shiftr1 in Hx.
    apply (wgive_right n p v r); auto. apply Hx; [lia|reflexivity].
  - intros x Hx. cbn [SRw VRw] in *. tauto.
  - destruct T as (Hr & He & C). intros x Hx. apply (wgive_right n p v r); auto.
  - intros x Hx. destruct (0 <? x); exact T.
  - intros x Hx. cbn [SRw VRw] in *. tauto.
  - intros x Hx. cbn [SRw VRw] in *. unfold slice. tauto.
  - intros x Hx. destruct (negb _); [exact T|]. cbn [SRw] in *. tauto.
  - cbn [SRw VRw] in *. destruct T as [[T1 T2] T3]. unfold slice. repeat split; auto; try lia; apply T3.
  - cbn [SRw VRw] in *. destruct T as [[T1 T2] T3]. unfold slice, a_length. repeat split; auto; try lia; apply T3.
  - intros Hn. cbn [SRw] in *. unfold slice, a_length. repeat split; auto; try lia; apply T.
  - cbn [SRw] in *. destruct T as (Hi & Hs & L). destruct (Z.ltb_spec i m).
    + cbn [SRw wcaller_right]. destruct Hs as [Hs1 Hs2]. unfold a_length in Hs2. repeat split; auto; try lia; try apply L.
    + split; auto.
  - cbn [SRw] in *. destruct T as (Hi & Hs & F0 & F1 & L). destruct (q =? 0); [exact Logic.I|]. split.
    + cbn [VRw]. apply nibble_entry; auto.
    + cbn [SRw]. repeat split; auto; try lia; try apply L; apply Hs.
  - cbn [SRw VRw] in *. destruct T as [[T1 T2] L]. auto.
Qed.
End Widths.

Lemma of_bool_eq b : negb (of_bool b =? 0) = b.
Proof. destruct b; reflexivity. Qed.
Lemma lut_length c : Reachable c -> combinedLut c <> [] -> slen (combinedLut c) = lutLen.
Proof.
  intros Hc Hne. destruct (Reachable_lut c Hc) as [|K]; [contradiction|]. unfold slen. rewrite K, FullLut_Z. reflexivity.
Qed.
Lemma nibble_0 r : nibble 0 r = 0.
Proof. unfold nibble. rewrite Z.shiftr_0_l. reflexivity. Qed.
Lemma view_elem c r : Reachable c -> combinedLut c <> [] -> 0 <= r -> nibble (view_of c (WElem 1 (r / 2))) r = RuneWidth c r.
Proof.
  intros Hc Hne Hr. cbn [view_of]. rewrite Z.eqb_refl. destruct (Z.leb_spec r 0x10FFFF).
  - apply table_nibble; [lia|exact Hne].
  - rewrite nth_overflow.
    + rewrite nibble_0. unfold RuneWidth. replace ((r <? 0) || (r >? 0x10FFFF)) with true by lia. reflexivity.
    + pose proof (lut_length c Hc Hne) as L. rewrite lutLen_is in L. unfold slen in L. lia.
Qed.

Section Start.
Context {A : Type} (c : Condition) (E S : bool -> Prop).
Hypothesis Hc : Reachable c.
Hypothesis HE : E (EastAsianWidth c).
Hypothesis HS : S (StrictEmojiNeutral c).

Lemma nil_cases {T} (l : list T) {X} (a b : X) : (l = [] /\ match l with [] => a | _ => b end = a) \/ (l <> [] /\ match l with [] => a | _ => b end = b).
Proof. destruct l; [left; auto|right; split; [discriminate|reflexivity]]. Qed.

Lemma start_view n : match combinedLut c with [] => 0 | _ => 1 end <= n -> view_right (VRw (answers_or_zero c E S) E S) n (view_of c).
Proof.
  intros Hn l. destruct l as [| |a i| |]; cbn [VRw].
  - cbn [view_of]. destruct (combinedLut c); lia.
  - cbn [view_of]. pose proof (lut_length c Hc) as L. unfold a_length. destruct (combinedLut c); [left; reflexivity|right; apply L; discriminate].
  - intros r Hr Hi. destruct (Z.eqb_spec a 1) as [->|Ha].
    + destruct (combinedLut c) as [|x l] eqn:El.
      * left. cbn [view_of]. rewrite El. destruct (Z.to_nat i); apply nibble_0.
      * right. left. rewrite <- Hi. apply view_elem; auto. rewrite El. discriminate.
    + left. cbn [view_of]. rewrite (proj2 (Z.eqb_neq a 1) Ha). apply nibble_0.
  - cbn [view_of]. rewrite of_bool_eq. exact HE.
  - cbn [view_of]. rewrite of_bool_eq. exact HS.
Qed.
Lemma start_config ps : Forall (SetsOnly E S) ps ->
  config_right (VRw (answers_or_zero c E S) E S) (SRw (A := A) (answers_or_zero c E S) E S) ps (wstart c ps).
Proof.
  intros H. unfold config_right, wstart. cbn [cArrs cLog cThreads]. split; [destruct (combinedLut c); lia|]. split; [constructor|].
  induction H as [|p ps Hp H IH]; cbn [map]; constructor; [|exact IH]. cbn [fst snd]. split; [apply start_view; lia|].
  cbn [SRw]. split; auto.
Qed.
Lemma run_config ps y : Forall (SetsOnly E S) ps -> wexec (wstart c ps) y ->
  config_right (VRw (answers_or_zero c E S) E S) (SRw (A := A) (answers_or_zero c E S) E S) ps y.
Proof.
  intros H X. eapply exec_config; [..|apply start_config, H|exact X].
  - apply VRw_more.
  - apply SRw_more.
  - apply actw_right.
    + intros r. left. reflexivity.
    + intros r ea st Hr He Hs. right. apply answers_tables; auto.
    + intros r w [->|K]; [auto|]. eapply answers_range; eauto.
Qed.

Lemma Forall2_at {X Y} (R : X -> Y -> Prop) xs ys i x y : Forall2 R xs ys -> nth_error xs i = Some x -> nth_error ys i = Some y -> R x y.
Proof.
  intros H. revert i. induction H; intros [|i] HX HY; try discriminate; cbn in *; [congruence|eauto].
Qed.
Lemma Forall2_snd {X Y} (R : X -> Y -> Prop) xs ys i y : Forall2 R xs ys -> nth_error ys i = Some y -> exists x, nth_error xs i = Some x /\ R x y.
Proof.
  intros H. revert i. induction H as [|x0 y0 xs ys XY H IH]; intros [|i] HY; try discriminate; cbn in *.
  - injection HY as <-. eauto.
  - apply IH, HY.
Qed.

Lemma weak_widths ps y i p v a : Forall (SetsOnly E S) ps -> wexec (A := A) (wstart c ps) y ->
  nth_error ps i = Some p -> nth_error (cThreads y) i = Some (v, WAt (LRet a)) -> MayReturn (answers_or_zero c E S) p a.
Proof.
  intros H X Hp Ht. destruct (run_config ps y H X) as (_ & _ & T). pose proof (Forall2_at _ _ _ _ _ _ T Hp Ht) as [_ [_ K]].
  apply K. constructor.
Qed.

Lemma weak_touches ps y i v t a j : Forall (SetsOnly E S) ps -> wexec (A := A) (wstart c ps) y ->
  nth_error (cThreads y) i = Some (v, t) -> touches t a j -> 1 <= a <= cArrs y /\ 0 <= j < 0x110000 / 2.
Proof.
  intros H X Ht HT. destruct (run_config ps y H X) as (_ & _ & T). destruct (Forall2_snd _ _ _ _ _ T Ht) as (p & _ & _ & K).
  cbn [fst snd] in K. change (0x110000 / 2) with lutLen. pose proof lutLen_is as HN. clear X T Ht.
  destruct HT as [[f HT]|(x & t' & HT)]; destruct t as [[]| | | | | | | | | | | | | | | | | |]; cbn [wact] in HT; try discriminate;
    match type of HT with context [?q =? 0] => destruct (Z.eqb_spec q 0) end; try discriminate; injection HT; intros; subst; cbn [SRw] in K.
  - destruct K as (Hr & Hq & _). rewrite shiftr1. lia.
  - destruct K as (Hi & [Hs1 Hs2] & _). unfold a_length in Hs2. lia.
Qed.
End Start.

(** ** A table made before the goroutines are started, or none at all *)
Section Quiet.
Context {A : Type} (F : Z -> Z -> Prop) (E S : bool -> Prop) (tab : bool).
Hypothesis F_out : forall r, (r <? 0) || (r >? 0x10FFFF) = true -> F r 0.
Hypothesis F_tables : tab = false -> forall r ea st, 0 <= r <= 0x10FFFF -> E ea -> S st -> F r (RuneWidth_tables ea st r).
Definition VRq (n : Z) (l : word) (x : Z) : Prop :=
  match l with
  | WPtr => x = if tab then 1 else 0
  | WLen => x = if tab then lutLen else 0
  | WElem a i => tab = true -> a = 1 -> forall r, 0 <= r <= 0x10FFFF -> r / 2 = i -> F r (nibble x r)
  | WEA => E (negb (x =? 0))
  | WStrict => S (negb (x =? 0))
  end.
Definition keeps_table (p : lprog A) : Prop := if tab then OnlyDefault p else MakesNone p.
Definition qcaller (p : lprog A) (r : Z) (c : wcaller A) : Prop :=
  match c with WToProg k => forall w, F r w -> leads F E S p (k w) /\ keeps_table (k w) | _ => False end.
Definition SRq (n : Z) (p : lprog A) (v : view) (t : wstate A) : Prop :=
  match t with
  | WAt q => leads F E S p q /\ keeps_table q
  | WAtLen r c => 0 <= r <= 0x10FFFF /\ qcaller p r c
  | WAtTablePtr r c => tab = true /\ 0 <= r <= 0x10FFFF /\ qcaller p r c
  | WAtTableLen r q c | WAtElem r q c => tab = true /\ q = 1 /\ 0 <= r <= 0x10FFFF /\ qcaller p r c
  | WAtEA r c => tab = false /\ 0 <= r <= 0x10FFFF /\ qcaller p r c
  | WAtStrict r ea c => tab = false /\ 0 <= r <= 0x10FFFF /\ E (negb (ea =? 0)) /\ qcaller p r c
  | WAtGuard k => tab = true /\ leads F E S p k /\ keeps_table k
  | _ => False
  end.
Lemma qgive n p v r c w : qcaller p r c -> F r w -> SRq n p v (wgive c w).
Proof. intros C Fw. destruct c; [exact (C w Fw)|contradiction|contradiction]. Qed.
Lemma keeps_width r k w : keeps_table (LWidth r k) -> keeps_table (k w).
Proof. unfold keeps_table. destruct tab; intros K; inversion K; subst; auto. Qed.
Lemma leads_ea p b k : leads F E S (A := A) p (LSetEA b k) -> E b /\ leads F E S p k.
Proof. intros [T1 T2]. inversion T1; subst. split; auto. split; auto. intros a Ha. apply T2. constructor; auto. Qed.
Lemma leads_strict p b k : leads F E S (A := A) p (LSetStrict b k) -> S b /\ leads F E S p k.
Proof. intros [T1 T2]. inversion T1; subst. split; auto. split; auto. intros a Ha. apply T2. constructor; auto. Qed.
Lemma leads_default p k : leads F E S (A := A) p (LCreateDefault k) -> leads F E S p k.
Proof. intros [T1 T2]. inversion T1; subst. split; auto. intros a Ha. apply T2. constructor; auto. Qed.

Lemma actq_right n p v t : view_right VRq n v -> SRq n p v t ->
  match wact t with
  | WNothing => True
  | WLocal t' => SRq n p v t'
  | WRead l f => forall x, VRq n l x -> SRq n p v (f x)
  | WWrite l x t' => VRq n l x /\ SRq n p (write v l x) t'
  | WAlloc f => 0 <= n -> SRq (n + 1) p v (f (n + 1))
  end.
Proof.
  intros HV T. pose proof lutLen_is as HN.
  destruct t as [[a|r k|k|k|b k|b k]|r c|r c|r q c|r q c|r c|r ea c|k|k|q k|q m k|q m k|q m k|k|q m i k|q m i x0 x1 k|q m k|m k|];
    cbn [wact]; auto; cbn [SRq] in T; try contradiction.
  - destruct T as [L K]. pose proof (leads_width F E S p r k L) as LW. pose proof (keeps_width r k) as KW.
    unfold wask. destruct ((r <? 0) || (r >? 0x10FFFF)) eqn:Er.
    + cbn [wgive SRq]. auto.
    + cbn [SRq qcaller]. split; [lia|auto].
  - destruct T as [_ K]. unfold keeps_table in K. destruct tab; inversion K.
  - destruct T as [L K]. apply leads_default in L. unfold keeps_table in K. destruct tab eqn:Et; inversion K; subst. cbn [SRq]. unfold keeps_table. rewrite Et. auto.
  - destruct T as [L K]. apply leads_ea in L. destruct L as [Eb L]. cbn [VRq SRq]. rewrite of_bool_eq. repeat split; auto; try apply L.
    unfold keeps_table in *. destruct tab; inversion K; auto.
  - destruct T as [L K]. apply leads_strict in L. destruct L as [Eb L]. cbn [VRq SRq]. rewrite of_bool_eq. repeat split; auto; try apply L.
    unfold keeps_table in *. destruct tab; inversion K; auto.
  - intros x Hx. cbn [VRq] in Hx. subst x. destruct T.
    assert (HB : (0 <? (if tab then lutLen else 0)) = tab) by (destruct tab; reflexivity). rewrite HB. destruct tab eqn:Et; cbn [SRq]; auto.
  - intros x Hx. cbn [VRq] in Hx. subst x. destruct T as (Et & T). rewrite Et. cbn [SRq]. auto.
  - intros x Hx. cbn [VRq] in Hx. subst x. destruct T as (Et & -> & Hr & C). rewrite Et. rewrite shiftr1. replace (r / 2 <? lutLen) with true by lia. cbn [SRq]. auto.
  - destruct T as (Et & -> & Hr & C). cbn [Z.eqb]. intros x Hx. cbn [VRq] in Hx. rewrite shiftr1 in Hx. apply (qgive n p v r); auto. apply Hx; auto.
  - intros x Hx. cbn [SRq VRq] in *. tauto.
  - destruct T as (Et & Hr & He & C). intros x Hx. apply (qgive n p v r); auto.
  - intros x Hx. cbn [VRq] in Hx. subst x. destruct T as (Et & L & K). rewrite Et. cbn. auto.
Qed.
Lemma SRq_alive n p v : ~ SRq n p v WDied.
Proof. exact (fun x => x). Qed.
End Quiet.

Section QuietStart.
Context {A : Type} (c : Condition) (E S : bool -> Prop).
Hypothesis Hc : Reachable c.
Hypothesis HE : E (EastAsianWidth c).
Hypothesis HS : S (StrictEmojiNeutral c).
Definition has : bool := match combinedLut c with [] => false | _ => true end.
Definition steady (r w : Z) : Prop :=
  if has then w = RuneWidth c r else answers c E S r w.

Lemma keeps_same (p : lprog A) : KeepsTable c p -> keeps_table has p.
Proof. unfold KeepsTable, keeps_table, has. destruct (combinedLut c); auto. Qed.
Lemma steady_out r : (r <? 0) || (r >? 0x10FFFF) = true -> steady r 0.
Proof. intros H. unfold steady. destruct has; [|apply answers_out, H]. unfold RuneWidth. rewrite H. reflexivity. Qed.

Lemma quiet_run (ps : list (lprog A)) y : Forall (SetsOnly E S) ps -> Forall (KeepsTable c) ps -> wexec (wstart c ps) y ->
  config_right (VRq steady E S has) (SRq steady E S has) ps y.
Proof.
  intros HP HK X. eapply exec_config; [..|exact X].
  - intros n l x. exact (fun H => H).
  - intros n p v t. exact (fun H => H).
  - apply actq_right; [apply steady_out|]. intros Et r ea st Hr He Hs. unfold steady. rewrite Et. apply answers_tables; auto.
  - unfold config_right, wstart. cbn [cArrs cLog cThreads]. split; [destruct (combinedLut c); lia|]. split; [constructor|].
    clear X. induction ps as [|p ps IH]; cbn [map]; [constructor|]. inversion HP; inversion HK; subst. constructor; [|auto]. cbn [fst snd]. split.
    + intros l. destruct l as [| |a i| |]; cbn [VRq].
      * unfold has. cbn [view_of]. destruct (combinedLut c); reflexivity.
      * pose proof (lut_length c Hc) as L. unfold has. cbn [view_of]. destruct (combinedLut c); [reflexivity|apply L; discriminate].
      * intros Et -> r Hr <-. unfold steady. rewrite Et. apply view_elem; auto; [|lia]. intros e. unfold has in Et. rewrite e in Et. discriminate.
      * cbn [view_of]. rewrite of_bool_eq. exact HE.
      * cbn [view_of]. rewrite of_bool_eq. exact HS.
    + cbn [SRq]. split; [split; auto|apply keeps_same; assumption].
Qed.
Lemma quiet_alive (ps : list (lprog A)) y v : Forall (SetsOnly E S) ps -> Forall (KeepsTable c) ps -> wexec (wstart c ps) y ->
  ~ In (v, WDied) (cThreads y).
Proof.
  intros HP HK X Hin. destruct (quiet_run ps y HP HK X) as (_ & _ & T). apply In_nth_error in Hin. destruct Hin as [i Hi].
  destruct (Forall2_snd _ _ _ _ _ T Hi) as (p & _ & _ & K). exact K.
Qed.
Lemma quiet_widths (ps : list (lprog A)) y i p v a : Forall (SetsOnly E S) ps -> Forall (KeepsTable c) ps -> wexec (wstart c ps) y ->
  nth_error ps i = Some p -> nth_error (cThreads y) i = Some (v, WAt (LRet a)) -> MayReturn steady p a.
Proof.
  intros HP HK X Hp Ht. destruct (quiet_run ps y HP HK X) as (_ & _ & T).
  pose proof (Forall2_at _ _ _ _ _ _ T Hp Ht) as [_ [[_ K] _]]. apply K. constructor.
Qed.
End QuietStart.
