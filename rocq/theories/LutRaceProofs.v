(** * LutRaceProofs: executions of goroutines sharing a Condition. *)
From Coq Require Import ZifyBool ZifyNat.
From Verif Require Import GoBase Uniseg Runewidth ConditionSpec RunewidthProofs LutRace LutRaceSpec.
Local Open Scope Z_scope.
Ltac Zify.zify_post_hook ::= Z.div_mod_to_equations.

(** ** Lists *)
Lemma set_nth_length {T} (l : list T) i v : length (set_nth l i v) = length l.
Proof. revert i. induction l; destruct i; cbn; auto. Qed.
Lemma nth_set_nth {T} (l : list T) i j v d : nth j (set_nth l i v) d =
  if (Nat.eqb i j && Nat.ltb i (length l))%bool then v else nth j l d.
Proof.
  revert i j. induction l as [|x l IH]; intros i j.
  - destruct i, j; cbn; rewrite ?andb_false_r; reflexivity.
  - destruct i, j; cbn [set_nth nth length]; try reflexivity. rewrite IH. reflexivity.
Qed.
Lemma Forall_mid {T} (P : T -> Prop) a x b y : Forall P (a ++ x :: b) -> P y -> Forall P (a ++ y :: b).
Proof. rewrite !Forall_app, !Forall_cons_iff. tauto. Qed.
Lemma Forall_the_mid {T} (P : T -> Prop) a x b : Forall P (a ++ x :: b) -> P x.
Proof. rewrite Forall_app, Forall_cons_iff. tauto. Qed.
Lemma Forall_imp {T} (P Q : T -> Prop) l : (forall x, P x -> Q x) -> Forall P l -> Forall Q l.
Proof. intros H. apply Forall_impl, H. Qed.

Lemma new_lut_length : length new_lut = FullLut.
Proof. unfold new_lut. rewrite repeat_length. reflexivity. Qed.
Lemma full_eq : Z.to_nat (0x110000 / 2) = FullLut.
Proof. reflexivity. Qed.
Opaque new_lut FullLut.

Lemma some_pair {X Y} (a c : X) (b d : Y) : Some (a, b) = Some (c, d) -> c = a /\ d = b.
Proof. intros H. injection H as -> ->. auto. Qed.

(** ** Widths never come out wrong *)
Definition nibble (b r : Z) : Z := Z.land (Z.shiftr b (Z.land r 1 * 4)) 3.

Section Widths.
Context {A : Type} (N : nat) (F : Z -> Z -> Prop) (E S : bool -> Prop).
Hypothesis HN : Z.of_nat N = 557056.
Hypothesis HL : Forall (fun l => length l = N) [new_lut].
Lemma index_in r : 0 <= r <= 0x10FFFF -> (Z.to_nat (r / 2) < N)%nat.
Proof. lia. Qed.
Hypothesis F_out : forall r, (r <? 0) || (r >? 0x10FFFF) = true -> F r 0.
Hypothesis F_tables : forall r ea st, 0 <= r <= 0x10FFFF -> E ea -> S st -> F r (RuneWidth_tables ea st r).
Hypothesis F_range : forall r w, F r w -> w = 0 \/ w = 1 \/ w = 2.

(** The first [n] elements are right. *)
Definition right (l : list Z) (n : nat) : Prop :=
  forall r, 0 <= r -> (Z.to_nat (r / 2) < n)%nat -> F r (nibble (nth (Z.to_nat (r / 2)) l 0) r).
Definition whole (m : mem) (h : option nat) (n : nat) : Prop :=
  match h with None => True | Some a => (a < length (mArrs m))%nat /\ right (nth a (mArrs m) []) n end.
Definition mem_right (m : mem) : Prop :=
  Forall (fun l => length l = N) (mArrs m) /\ whole m (mHdr m) N /\ E (mEA m) /\ S (mStrict m).

(** Memory changes keep what is right. *)
Definition keeps (m m' : mem) : Prop :=
  forall h n, (n <= N)%nat -> whole m h n -> whole m' h n.
Lemma whole_le m h n n' : (n' <= n)%nat -> whole m h n -> whole m h n'.
Proof. destruct h; cbn; auto. intros H [B R]. split; auto. intros r Hr Hn. apply R; lia. Qed.

(** Programs still to run: what they may return, the whole one may. *)
Definition leads (p q : lprog A) : Prop := SetsOnly E S q /\ forall a, MayReturn F q a -> MayReturn F p a.

Definition caller_right (m : mem) (p : lprog A) (r : Z) (c : caller A) : Prop :=
  match c with
  | ToProg k => forall w, F r w -> leads p (k w)
  | ToX0 lut i k => r = Z.of_nat i * 2 /\ (i < N)%nat /\ whole m lut i /\ leads p k
  | ToX1 lut i x0 k => r = Z.of_nat i * 2 + 1 /\ (i < N)%nat /\ whole m lut i /\ F (Z.of_nat i * 2) x0 /\ leads p k
  end.
Definition state_right (m : mem) (p : lprog A) (t : lstate A) : Prop :=
  match t with
  | AtProg q => leads p q
  | AtLen r c | AtTable r c | AtEA r c => 0 <= r <= 0x10FFFF /\ caller_right m p r c
  | AtElem r lut c => 0 <= r <= 0x10FFFF /\ whole m lut N /\ caller_right m p r c
  | AtStrict r ea c => 0 <= r <= 0x10FFFF /\ E ea /\ caller_right m p r c
  | AtGuard k | AtTake k | AtMake k => leads p k
  | AtTest lut k | AtDrop lut k | AtStore lut k => whole m lut N /\ leads p k
  | AtLoop lut i k => (i <= N)%nat /\ whole m lut i /\ leads p k
  | AtWrite lut i x0 x1 k => (i < N)%nat /\ whole m lut i /\ F (Z.of_nat i * 2) x0 /\ F (Z.of_nat i * 2 + 1) x1 /\ leads p k
  | Died => True
  end.

Lemma keeps_refl m m' : mArrs m = mArrs m' -> keeps m m'.
Proof. intros H h n _. unfold whole. rewrite H. auto. Qed.
Lemma caller_keeps m m' p r c : keeps m m' -> caller_right m p r c -> caller_right m' p r c.
Proof.
  intros K. destruct c; cbn; auto.
  - intros (e & L & W & H). split; auto. split; auto. split; auto. apply K; [apply Nat.lt_le_incl, L|exact W].
  - intros (e & L & W & H). split; auto. split; auto. split; auto. apply K; [apply Nat.lt_le_incl, L|exact W].
Qed.
Lemma state_keeps m m' p t : keeps m m' -> state_right m p t -> state_right m' p t.
Proof.
  intros K. pose proof (fun r c => caller_keeps m m' p r c K) as KC.
  destruct t; cbn [state_right]; auto; try (intros; intuition auto; fail).
  - intros (B & L). split; [lia|]. destruct L as [W L]. split; [apply K; [lia|auto]|auto].
Qed.

Lemma F_nibble i x0 x1 r : F (Z.of_nat i * 2) x0 -> F (Z.of_nat i * 2 + 1) x1 -> 0 <= r -> Z.to_nat (r / 2) = i ->
  F r (nibble (lut_entry x0 x1) r).
Proof.
  intros H0 H1 Hr e. unfold nibble. rewrite land1_mod.
  destruct (lut_entry_get x0 x1 (F_range _ _ H0) (F_range _ _ H1)) as [G0 G1].
  assert (r mod 2 = 0 \/ r mod 2 = 1) as [em|em] by lia; rewrite em.
  - rewrite G0. replace r with (Z.of_nat i * 2) by lia. exact H0.
  - rewrite G1. replace r with (Z.of_nat i * 2 + 1) by lia. exact H1.
Qed.

(** Writing a right entry. *)
Lemma write_keeps m lut i x0 x1 : Forall (fun l => length l = N) (mArrs m) -> (i < N)%nat ->
  F (Z.of_nat i * 2) x0 -> F (Z.of_nat i * 2 + 1) x1 ->
  keeps m (set_elem m lut i (lut_entry x0 x1)) /\
  Forall (fun l => length l = N) (mArrs (set_elem m lut i (lut_entry x0 x1))) /\
  (whole m lut i -> whole (set_elem m lut i (lut_entry x0 x1)) lut (Datatypes.S i)).
Proof.
  intros L Hi H0 H1. destruct lut as [a|]; cbn [set_elem]; [|repeat split; auto; intros h n _; auto].
  assert (LA : (a < length (mArrs m))%nat -> length (nth a (mArrs m) []) = N).
  { intros Ha. rewrite Forall_forall in L. apply L. apply nth_In, Ha. }
  split; [|split].
  - intros [b|] n Hn; cbn [whole mArrs]; auto. intros [B R]. rewrite set_nth_length. split; auto.
    rewrite nth_set_nth. destruct (Nat.eqb_spec a b) as [<-|]; cbn [andb]; auto.
    destruct (Nat.ltb_spec a (length (mArrs m))); auto.
    intros r Hr Hlt. rewrite nth_set_nth.
    destruct (Nat.eqb_spec i (Z.to_nat (r / 2))) as [e|]; cbn [andb]; [|apply R; auto].
    destruct (Nat.ltb_spec i (length (nth a (mArrs m) []))); [|apply R; auto].
    apply (F_nibble i); auto.
  - cbn [mArrs]. rewrite Forall_forall in *. intros l Hl. apply (In_nth _ _ []) in Hl.
    destruct Hl as (j & Hj & <-). rewrite set_nth_length in Hj. rewrite nth_set_nth.
    destruct (Nat.eqb a j && _)%bool eqn:Ea; [|apply L, nth_In, Hj].
    rewrite set_nth_length. apply LA. lia.
  - cbn [whole mArrs]. intros [B R]. rewrite set_nth_length. split; auto.
    rewrite nth_set_nth, Nat.eqb_refl. destruct (Nat.ltb_spec a (length (mArrs m))); [|lia]. cbn [andb].
    intros r Hr Hlt. rewrite nth_set_nth.
    destruct (Nat.eqb_spec i (Z.to_nat (r / 2))) as [e|]; cbn [andb]; [|apply R; auto; lia].
    destruct (Nat.ltb_spec i (length (nth a (mArrs m) []))); [apply (F_nibble i); auto|].
    rewrite LA in *; lia.
Qed.

Lemma give_right m p r c w : 0 <= r <= 0x10FFFF -> caller_right m p r c -> F r w -> state_right m p (give c w).
Proof.
  intros Hr C Fw. pose proof HN as FZ. destruct c; cbn [give state_right caller_right] in *.
  - auto.
  - destruct C as (e & B & W & L). subst r. split; [lia|]. auto.
  - destruct C as (e & B & W & F0 & L). subst r. auto.
Qed.

Lemma leads_width p r k : leads p (LWidth r k) -> forall w, F r w -> leads p (k w).
Proof.
  intros [SO M] w Fw. inversion SO; subst. split; auto. intros a H. apply M. econstructor; eauto.
Qed.

Lemma make_keeps m l : keeps m {| mHdr := mHdr m; mArrs := mArrs m ++ [l]; mEA := mEA m; mStrict := mStrict m |}.
Proof.
  intros [a|] n _; cbn [whole mArrs]; auto. intros [B R]. rewrite app_length. split; [lia|].
  rewrite app_nth1 by auto. exact R.
Qed.

Lemma step_right m p t m' t' : mem_right m -> state_right m p t -> lstep m t = Some (m', t') ->
  mem_right m' /\ state_right m' p t' /\ keeps m m'.
Proof.
  intros M T H. pose proof HN as FZ. destruct M as (ML & MH & ME & MS).
  assert (M : mem_right m) by (repeat split; auto).
  assert (KR : keeps m m) by (apply keeps_refl; reflexivity).
  destruct t as [[a|r k|k|k|b k|b k]|r c|r c|r lut c|r c|r ea c|k|k|lut k|lut k|k|lut i k|lut i x0 x1 k|lut k|];
    cbn [lstep] in H; try discriminate H.
  - apply some_pair in H; destruct H as [-> ->]. split; [auto|]. split; [|auto]. pose proof (leads_width p r k T) as LW.
    unfold ask. destruct ((r <? 0) || (r >? 0x10FFFF)) eqn:Er.
    + cbn [give state_right]. apply LW, F_out, Er.
    + cbn [state_right caller_right]. split; [lia|auto].
  - apply some_pair in H; destruct H as [-> ->]. split; [auto|]. split; [|auto]. destruct T as [T1 T2]. inversion T1; subst.
    split; auto. intros a Ha. apply T2. constructor; auto.
  - apply some_pair in H; destruct H as [-> ->]. split; [auto|]. split; [|auto]. destruct T as [T1 T2]. inversion T1; subst.
    split; auto. intros a Ha. apply T2. constructor; auto.
  - apply some_pair in H; destruct H as [-> ->]. destruct T as [T1 T2]. inversion T1; subst. split; [|split].
    + repeat split; auto.
    + split; auto. intros a Ha. apply T2. constructor; auto.
    + apply keeps_refl; reflexivity.
  - apply some_pair in H; destruct H as [-> ->]. destruct T as [T1 T2]. inversion T1; subst. split; [|split].
    + repeat split; auto.
    + split; auto. intros a Ha. apply T2. constructor; auto.
    + apply keeps_refl; reflexivity.
  - apply some_pair in H; destruct H as [-> ->]. split; [auto|]. split; [|auto]. destruct (0 <? _); exact T.
  - apply some_pair in H; destruct H as [-> ->]. split; [auto|]. split; [|auto]. destruct T. repeat split; auto; lia.
  - destruct T as (Hr & W & C). unfold at_index in H. rewrite Z.shiftr_div_pow2 in H by lia. change (2 ^ 1) with 2 in H.
    destruct (r / 2 <? 0) eqn:En; [apply some_pair in H; destruct H as [-> ->]; repeat split; auto|].
    destruct (nth_error _ _) as [b|] eqn:Eb; apply some_pair in H; destruct H as [-> ->]; [|repeat split; auto].
    split; [auto|]. split; [|auto]. apply give_right with (r := r); auto.
    destruct lut as [a|]; cbn [arr] in Eb; [|destruct (Z.to_nat (r / 2)); discriminate Eb].
    destruct W as [B R]. apply nth_error_nth with (d := 0) in Eb. rewrite <- Eb. apply R; [apply Hr|apply index_in, Hr].
  - apply some_pair in H; destruct H as [-> ->]. split; [auto|]. split; [|auto]. destruct T. repeat split; auto; lia.
  - apply some_pair in H; destruct H as [-> ->]. split; [auto|]. split; [|auto]. destruct T as (Hr & Ea & C).
    apply give_right with (r := r); auto.
  - apply some_pair in H; destruct H as [-> ->]. split; [auto|]. split; [|auto]. destruct (0 <? _); exact T.
  - apply some_pair in H; destruct H as [-> ->]. split; [auto|]. split; [|auto]. split; auto.
  - apply some_pair in H; destruct H as [-> ->]. split; [auto|]. split; [|auto]. destruct T. destruct (negb _); [split|]; auto.
  - apply some_pair in H; destruct H as [-> ->]. destruct T as [W L]. split; [|split].
    + repeat split; auto.
    + cbn [state_right]. split; [lia|]. split; auto. apply whole_le with (n := N); [lia|].
      unfold whole, set_hdr in *. exact W.
    + apply keeps_refl; reflexivity.
  - apply some_pair in H; destruct H as [-> ->]. pose proof (make_keeps m new_lut) as K. split; [|split; auto].
    + split; [|split; [|auto]]; cbn [mArrs mHdr].
      * rewrite Forall_app. split; auto.
      * apply K; auto.
    + cbn [state_right whole mArrs]. split; [lia|]. split; auto. rewrite app_length. cbn [length]. split; [lia|].
      intros r _ Hlt. lia.
  - apply some_pair in H; destruct H as [-> ->]. split; [auto|]. split; [|auto]. destruct T as (Hi & W & L).
    assert (LA : forall a, lut = Some a -> length (arr m lut) = N).
    { intros a ->. cbn [arr]. rewrite Forall_forall in ML. apply ML. apply nth_In. apply W. }
    destruct (Nat.ltb_spec i (length (arr m lut))).
    + assert (i < N)%nat. { destruct lut; [rewrite (LA _ eq_refl) in *; auto|cbn in *; lia]. }
      cbn [state_right caller_right]. repeat split; auto; try lia; apply L.
    + cbn [state_right]. split; auto. destruct lut; [|exact I]. rewrite (LA _ eq_refl) in *.
      apply whole_le with (n := i); auto.
  - apply some_pair in H; destruct H as [-> ->]. destruct T as (Hi & W & F0 & F1 & L).
    destruct (write_keeps m lut i x0 x1 ML Hi F0 F1) as (K & KL & KW).
    change (Z.lor (u8 x0) (u8 (Z.shiftl (u8 x1) 4))) with (lut_entry x0 x1).
    split; [|split; auto].
    + split; auto. assert (e : mHdr (set_elem m lut i (lut_entry x0 x1)) = mHdr m) by (destruct lut; reflexivity).
      assert (e2 : mEA (set_elem m lut i (lut_entry x0 x1)) = mEA m) by (destruct lut; reflexivity).
      assert (e3 : mStrict (set_elem m lut i (lut_entry x0 x1)) = mStrict m) by (destruct lut; reflexivity).
      unfold mem_right. rewrite e, e2, e3. split; auto.
    + cbn [state_right]. split; [lia|]. split; auto.
  - apply some_pair in H; destruct H as [-> ->]. destruct T as [W L]. split; [|split; auto].
    repeat split; auto.
Qed.

Definition all_right (ps : list (lprog A)) (x : mem * list (lstate A)) : Prop :=
  mem_right (fst x) /\ Forall2 (state_right (fst x)) ps (snd x).
Lemma Forall2_split {X Y} (R : X -> Y -> Prop) xs b y c : Forall2 R xs (b ++ y :: c) ->
  exists xb x xc, xs = xb ++ x :: xc /\ Forall2 R xb b /\ R x y /\ Forall2 R xc c.
Proof.
  intros H. apply Forall2_app_inv_r in H. destruct H as (xb & rest & H1 & H2 & ->).
  inversion H2; subst. eauto 8.
Qed.
Lemma Forall2_keep {X Y} (R R' : X -> Y -> Prop) xs ys : (forall x y, R x y -> R' x y) -> Forall2 R xs ys -> Forall2 R' xs ys.
Proof. intros H. induction 1; constructor; auto. Qed.

Lemma exec_right ps x y : all_right ps x -> lexec x y -> all_right ps y.
Proof.
  intros H X. induction X as [|x m before t after m' t' X IH Hs]; auto.
  specialize (IH H). destruct IH as [M T]. cbn [fst snd] in *.
  apply Forall2_split in T. destruct T as (xb & p & xc & -> & Hb & Ht & Hc).
  destruct (step_right m p t m' t' M Ht Hs) as (M' & T' & K). split; auto. cbn [fst snd].
  apply Forall2_app; [|constructor; auto]; eapply Forall2_keep; try eassumption; intros; eapply state_keeps; eauto.
Qed.
End Widths.

Lemma RuneWidth_plain ea st r : 0 <= r <= 0x10FFFF -> RuneWidth (plainCondition ea st) r = RuneWidth_tables ea st r.
Proof. intros H. unfold RuneWidth. replace ((r <? 0) || (r >? 0x10FFFF)) with false by lia. reflexivity. Qed.

Section Start.
Context {A : Type} (c : Condition) (E S : bool -> Prop).
Hypothesis Hc : Reachable c.

Lemma answers_out r : (r <? 0) || (r >? 0x10FFFF) = true -> answers c E S r 0.
Proof. intros H. left. unfold RuneWidth. rewrite H. reflexivity. Qed.
Lemma answers_tables r ea st : 0 <= r <= 0x10FFFF -> E ea -> S st -> answers c E S r (RuneWidth_tables ea st r).
Proof. intros H He Hs. right. exists ea, st. rewrite RuneWidth_plain; auto. Qed.
Lemma answers_range r w : answers c E S r w -> w = 0 \/ w = 1 \/ w = 2.
Proof.
  intros [->|(ea & st & _ & _ & ->)]; apply Reachable_range; auto. constructor.
Qed.
Lemma new_lut_len : Forall (fun l => length l = FullLut) [new_lut].
Proof. constructor; [apply new_lut_length|constructor]. Qed.

Lemma table_nibble r : 0 <= r <= 0x10FFFF -> combinedLut c <> [] ->
  nibble (nth (Z.to_nat (r / 2)) (combinedLut c) 0) r = RuneWidth c r.
Proof.
  intros H N. unfold RuneWidth. replace ((r <? 0) || (r >? 0x10FFFF)) with false by lia.
  replace (0 <? slen (combinedLut c)) with true.
  - rewrite Z.shiftr_div_pow2 with (n := 1) by lia. reflexivity.
  - destruct (combinedLut c); [congruence|]. unfold slen. cbn [length]. lia.
Qed.
Lemma mem_of_right : E (EastAsianWidth c) -> S (StrictEmojiNeutral c) -> mem_right FullLut (answers c E S) E S (mem_of c).
Proof.
  intros He Hs. pose proof table_nibble as TN. pose proof FullLut_Z as FZ. destruct (Reachable_lut c Hc) as [e|e].
  - unfold mem_right, mem_of. rewrite e. cbn. auto.
  - assert (Hne : combinedLut c <> []).
    { intros X. rewrite X in e. rewrite <- e in FZ. discriminate FZ. }
    unfold mem_right, mem_of. cbn [mArrs mHdr mEA mStrict].
    destruct (combinedLut c) as [|b l] eqn:El; [congruence|]. split; [repeat constructor; auto|]. split; auto.
    cbn [whole mArrs length nth]. split; [lia|]. intros r Hr Hlt. left. apply TN; auto.
    revert Hlt FZ. generalize FullLut as N. intros. lia.
Qed.
Lemma start_right ps : E (EastAsianWidth c) -> S (StrictEmojiNeutral c) -> Forall (SetsOnly E S) ps ->
  all_right (A := A) FullLut (answers c E S) E S ps (mem_of c, map AtProg ps).
Proof.
  intros He Hs H. split; [apply mem_of_right; auto|]. cbn [snd fst]. induction H; cbn [map]; constructor; auto.
  cbn [state_right]. split; auto.
Qed.
Lemma run_right ps m ts : E (EastAsianWidth c) -> S (StrictEmojiNeutral c) -> Forall (SetsOnly E S) ps ->
  lexec (A := A) (mem_of c, map AtProg ps) (m, ts) -> all_right FullLut (answers c E S) E S ps (m, ts).
Proof.
  intros He Hs H X. eapply exec_right; [..|exact X].
  - apply FullLut_Z.
  - apply new_lut_len.
  - apply answers_out.
  - apply answers_tables.
  - apply answers_range.
  - apply start_right; auto.
Qed.

Lemma widths ps m ts i p a : E (EastAsianWidth c) -> S (StrictEmojiNeutral c) -> Forall (SetsOnly E S) ps ->
  lexec (A := A) (mem_of c, map AtProg ps) (m, ts) -> nth_error ps i = Some p ->
  nth_error ts i = Some (AtProg (LRet a)) -> MayReturn (answers c E S) p a.
Proof.
  intros He Hs H X Hp Ht. destruct (run_right ps m ts He Hs H X) as [_ T]. cbn [fst snd] in T.
  clear H X. revert i Hp Ht. induction T as [|x y xs ys XY T IH]; intros [|i] Hp Ht; try discriminate; cbn in *.
  - injection Hp as ->. injection Ht as ->. destruct XY as [_ L]. apply L. constructor.
  - eauto.
Qed.
End Start.

Lemma answer_exact c r w : (forall r, RuneWidth c r = RuneWidth (plainCondition (EastAsianWidth c) (StrictEmojiNeutral c)) r) ->
  answers c (eq (EastAsianWidth c)) (eq (StrictEmojiNeutral c)) r w -> w = RuneWidth c r.
Proof. intros H [->|(ea & st & <- & <- & ->)]; auto. Qed.
Lemma return_exact {A} (F : Z -> Z -> Prop) f (p : lprog A) a : (forall r w, F r w -> w = f r) ->
  MayReturn F p a -> a = result f p.
Proof. intros H. induction 1; cbn [result]; auto. rewrite <- (H r w); auto. Qed.

Lemma widths_exact {A} c (ps : list (lprog A)) m ts i p a : Reachable c ->
  (forall r, RuneWidth c r = RuneWidth (plainCondition (EastAsianWidth c) (StrictEmojiNeutral c)) r) ->
  Forall (SetsOnly (eq (EastAsianWidth c)) (eq (StrictEmojiNeutral c))) ps ->
  lexec (mem_of c, map AtProg ps) (m, ts) -> nth_error ps i = Some p ->
  nth_error ts i = Some (AtProg (LRet a)) -> a = result (RuneWidth c) p.
Proof.
  intros Hc H HS X Hp Ht. 
  apply (return_exact (answers c (eq (EastAsianWidth c)) (eq (StrictEmojiNeutral c)))).
  - intros r w Hw. apply answer_exact; auto.
  - apply (widths c _ _ Hc ps m ts i p a); auto.
Qed.

Lemma result_cluster {A} c rs ch (k : Z -> lprog A) : result (RuneWidth c) (clusterP ch rs k) =
  result (RuneWidth c) (k (cluster_width_from c ch rs)).
Proof.
  revert ch. induction rs as [|r rs IH]; intros ch; cbn [clusterP result cluster_width_from]; auto.
  cbv zeta. destruct (RuneWidth c r >? 0); auto.
Qed.
Lemma result_clusters {A} c gs width (k : Z -> lprog A) : result (RuneWidth c) (clustersP width gs k) =
  result (RuneWidth c) (k (fold_left (fun w g => w + cluster_width c g) gs width)).
Proof.
  revert width. induction gs as [|g gs IH]; intros width; cbn [clustersP fold_left]; auto.
  rewrite result_cluster, IH. reflexivity.
Qed.
Lemma result_stringWidth c s : result (RuneWidth c) (stringWidthP s LRet) = StringWidth c s.
Proof.
  unfold stringWidthP, StringWidth, StringWidth_go. destruct (iterate _ _) as [gs|]; [|reflexivity].
  rewrite result_clusters. cbn [result]. generalize 0 at 1 2. induction gs as [|g gs IH]; intros z; cbn; auto.
Qed.

(** ** No panic *)
Lemma sets_any {A} (p : lprog A) : SetsOnly (fun _ => True) (fun _ => True) p.
Proof. induction p; constructor; auto. Qed.

Section NoPanic.
Context {A : Type} (c : Condition).
Hypothesis Hc : Reachable c.
Definition T1 : bool -> Prop := fun _ => True.
Definition good (ps : list (lprog A)) x := all_right FullLut (answers c T1 T1) T1 T1 ps x.
Lemma good_run ps m ts : lexec (mem_of c, map AtProg ps) (m, ts) -> good ps (m, ts).
Proof.
  intros X. apply run_right; auto; try exact Logic.I. apply Forall_forall. intros p _. apply sets_any.
Qed.

Definition mem_good (m : mem) : Prop := mem_right FullLut (answers c T1 T1) T1 T1 m.
Lemma hdr_length m a : mem_good m -> mHdr m = Some a -> length (arr m (mHdr m)) = FullLut.
Proof.
  intros (L & W & _) e. rewrite e in *. cbn [arr whole] in *. rewrite Forall_forall in L. apply L. apply nth_In, W.
Qed.
Lemma hdr_pos m : mem_good m -> (0 <? slen (arr m (mHdr m))) = match mHdr m with None => false | Some _ => true end.
Proof.
  intros M. pose proof FullLut_Z as FZ. destruct (mHdr m) as [a|] eqn:e; [|reflexivity].
  pose proof (hdr_length m a M e) as L. rewrite e in L. unfold slen. rewrite L, FZ. reflexivity.
Qed.
Lemma hdr_nonzero m : mem_good m -> (slen (arr m (mHdr m)) =? 0) = match mHdr m with None => true | Some _ => false end.
Proof.
  intros M. pose proof FullLut_Z as FZ. destruct (mHdr m) as [a|] eqn:e; [|reflexivity].
  pose proof (hdr_length m a M e) as L. rewrite e in L. unfold slen. rewrite L, FZ. reflexivity.
Qed.

(** An element of a whole table can be read. *)
Lemma elem_read m r h : mem_good m -> 0 <= r <= 0x10FFFF -> whole (answers c T1 T1) m (Some h) FullLut ->
  exists b, at_index (arr m (Some h)) (Z.shiftr r 1) = Some b.
Proof.
  intros (L & _) Hr [B _]. cbn [arr]. unfold at_index. rewrite Z.shiftr_div_pow2 by lia. change (2 ^ 1) with 2.
  replace (r / 2 <? 0) with false by lia. destruct (nth_error _ _) eqn:En; [eauto|].
  apply nth_error_None in En. rewrite Forall_forall in L. rewrite L in En by (apply nth_In, B).
  pose proof FullLut_Z as FZ. revert En FZ. generalize FullLut as N. intros. lia.
Qed.

(** Goroutines that make no table themselves; [b]: there is a table. *)
Definition calm (b : bool) (P : lprog A -> Prop) (t : lstate A) : Prop :=
  match t with
  | AtProg p => P p
  | AtLen _ (ToProg k) | AtEA _ (ToProg k) | AtStrict _ _ (ToProg k) => forall w, P (k w)
  | AtTable _ (ToProg k) => b = true /\ forall w, P (k w)
  | AtElem _ (Some _) (ToProg k) => b = true /\ forall w, P (k w)
  | AtGuard k => b = true /\ P k
  | _ => False
  end.
Definition present (m : mem) : bool := match mHdr m with None => false | Some _ => true end.

Definition tame (b : bool) (P : lprog A -> Prop) : Prop :=
  (forall r k, P (LWidth r k) -> forall w, P (k w)) /\ (forall k, ~ P (LCreate k)) /\
  (forall k, P (LCreateDefault k) -> b = true /\ P k) /\
  (forall e k, P (LSetEA e k) -> P k) /\ (forall e k, P (LSetStrict e k) -> P k).
Lemma tame_none : tame false MakesNone.
Proof. repeat split; intros; try intro X; match goal with H : MakesNone _ |- _ => inversion H; subst; auto end. Qed.
Lemma tame_default : tame true OnlyDefault.
Proof. repeat split; intros; try intro X; match goal with H : OnlyDefault _ |- _ => inversion H; subst; auto end. Qed.

Lemma calm_step m p t m' t' P : tame (present m) P -> mem_good m -> state_right FullLut (answers c T1 T1) T1 T1 m p t ->
  calm (present m) P t -> lstep m t = Some (m', t') -> calm (present m) P t' /\ mHdr m' = mHdr m.
Proof.
  intros (TW & TC & TD & TE & TS) M R C H. pose proof (hdr_pos m M) as HP. fold (present m) in HP.
  destruct t as [[a|r k|k|k|b k|b k]|r [k|? ? k|? ? ? k]|r [k|? ? k|? ? ? k]|r [h|] [k|? ? k|? ? ? k]|r [k|? ? k|? ? ? k]|
    r ea [k|? ? k|? ? ? k]|k|k|lut k|lut k|k|lut i k|lut i x0 x1 k|lut k|];
    cbn [calm] in C; try contradiction C; cbn [lstep] in H; try discriminate H.
  - apply some_pair in H; destruct H as [-> ->]. split; auto. unfold ask. destruct (_ || _); cbn [give calm]; eauto.
  - apply TC in C. contradiction.
  - apply some_pair in H; destruct H as [-> ->]. split; [|reflexivity]. exact (TD k C).
  - apply some_pair in H; destruct H as [-> ->]. split; auto. cbn [calm]. eauto.
  - apply some_pair in H; destruct H as [-> ->]. split; auto. cbn [calm]. eauto.
  - apply some_pair in H; destruct H as [-> ->]. split; auto. rewrite HP. destruct (present m) eqn:e; cbn [calm]; auto.
  - apply some_pair in H; destruct H as [-> ->]. split; auto. unfold present in *. destruct (mHdr m); cbn [calm]; auto.
    destruct C; discriminate.
  - destruct R as (Hr & W & _). destruct (elem_read m r h M Hr W) as (b & e). rewrite e in H.
    apply some_pair in H; destruct H as [-> ->]. split; auto. cbn [give calm]. apply C.
  - apply some_pair in H; destruct H as [-> ->]. split; auto.
  - apply some_pair in H; destruct H as [-> ->]. split; auto. cbn [give calm]. apply C.
  - apply some_pair in H; destruct H as [-> ->]. split; auto. rewrite HP. destruct C as [e C]. rewrite e. exact C.
Qed.

Lemma calm_alive b P t : calm b P t -> t <> Died.
Proof. intros H ->. exact H. Qed.

Lemma Forall2_middle {X Y} (R : X -> Y -> Prop) xs b y z : Forall2 R xs (b ++ y :: z) -> exists x, In x xs /\ R x y.
Proof.
  intros H. destruct (Forall2_split R xs b y z H) as (xb & x & xc & -> & _ & H2 & _). exists x. split; auto.
  apply in_elt.
Qed.

(** With a table, and only package-level calls. *)
Lemma calm_run ps m ts : combinedLut c <> [] -> Forall OnlyDefault ps ->
  lexec (mem_of c, map AtProg ps) (m, ts) -> mHdr m <> None /\ Forall (calm true OnlyDefault) ts.
Proof.
  intros Hne HP X. remember (mem_of c, map AtProg ps) as x eqn:Ex. remember (m, ts) as y eqn:Ey.
  revert m ts Ey. induction X as [|x m1 before t after m' t' X IH Hs]; intros m ts Ey.
  - subst x. injection Ey as <- <-. split.
    + cbn [mem_of mHdr]. destruct (combinedLut c); congruence.
    + apply Forall_map. exact HP.
  - injection Ey as <- <-. destruct (IH Ex _ _ eq_refl) as [N C]. subst x.
    destruct (good_run ps _ _ X) as [M R]. cbn [fst snd] in *.
    destruct (Forall2_middle _ _ _ _ _ R) as (p & _ & Rt).
    assert (P : present m1 = true) by (unfold present; destruct (mHdr m1); congruence).
    pose proof (calm_step m1 p t m' t' OnlyDefault) as K. rewrite P in K.
    destruct (K tame_default M Rt (Forall_the_mid _ _ _ _ C) Hs) as [C' e]. rewrite e. split; auto.
    eapply Forall_mid; eauto.
Qed.

(** The goroutine making the first table. *)
Definition making (t : lstate A) : Prop :=
  match t with
  | AtProg p => MakesOne p
  | AtLen _ (ToProg k) | AtEA _ (ToProg k) | AtStrict _ _ (ToProg k) => forall w, MakesOne (k w)
  | AtLen _ (ToX0 lut _ k) | AtEA _ (ToX0 lut _ k) | AtStrict _ _ (ToX0 lut _ k)
  | AtLen _ (ToX1 lut _ _ k) | AtEA _ (ToX1 lut _ _ k) | AtStrict _ _ (ToX1 lut _ _ k)
  | AtLoop lut _ k | AtWrite lut _ _ _ k | AtStore lut k => lut <> None /\ OnlyDefault k
  | AtGuard k | AtTake k | AtTest _ k | AtMake k => OnlyDefault k
  | _ => False
  end.
Lemma making_step m t m' t' : mHdr m = None -> making t -> lstep m t = Some (m', t') ->
  (mHdr m' = None /\ making t') \/ (mHdr m' <> None /\ calm true OnlyDefault t').
Proof.
  intros N C H.
  destruct t as [[a|r k|k|k|b k|b k]|r [k|? ? k|? ? ? k]|r [k|? ? k|? ? ? k]|r [h|] [k|? ? k|? ? ? k]|r [k|? ? k|? ? ? k]|
    r ea [k|? ? k|? ? ? k]|k|k|lut k|lut k|k|lut i k|lut i x0 x1 k|lut k|];
    cbn [making] in C; try contradiction C; cbn [lstep] in H; try discriminate H; try rewrite N in H; cbn [arr slen length] in H;
    apply some_pair in H; destruct H as [-> ->]; try (match type of C with MakesOne _ => inversion C; subst end); try (left; split; [first [exact N|reflexivity]|]; cbn; auto; fail).
  - left. split; auto. unfold ask. destruct (_ || _); cbn [give making]; auto.
  - left. split; [reflexivity|]. cbn [making]. split; [discriminate|exact C].
  - left. split; [exact N|]. destruct (Nat.ltb _ _); exact C.
  - left. split; [|exact C]. destruct lut; exact N.
  - right. cbn [set_hdr mHdr calm]. exact C.
Qed.

Lemma calm_more t : calm false MakesNone t -> calm true OnlyDefault t.
Proof.
  assert (X : forall p : lprog A, MakesNone p -> OnlyDefault p) by (induction 1; constructor; auto).
  destruct t as [p|r [k|? ? k|? ? ? k]|r [k|? ? k|? ? ? k]|r [h|] [k|? ? k|? ? ? k]|r [k|? ? k|? ? ? k]|
    r ea [k|? ? k|? ? ? k]|k|k|lut k|lut k|k|lut i k|lut i x0 x1 k|lut k|]; cbn [calm]; auto; intros []; discriminate || auto.
Qed.

Lemma making_run ps1 p ps2 m ts : combinedLut c = [] -> MakesOne p -> Forall MakesNone (ps1 ++ ps2) ->
  lexec (mem_of c, map AtProg (ps1 ++ p :: ps2)) (m, ts) ->
  (mHdr m = None /\ exists b t a, ts = b ++ t :: a /\ making t /\ Forall (calm false MakesNone) (b ++ a)) \/
  (mHdr m <> None /\ Forall (calm true OnlyDefault) ts).
Proof.
  intros Hn Hp HP X. remember (mem_of c, map AtProg (ps1 ++ p :: ps2)) as x eqn:Ex. remember (m, ts) as y eqn:Ey.
  revert m ts Ey. induction X as [|x m1 before t after m' t' X IH Hs]; intros m ts Ey.
  - subst x. injection Ey as <- <-. left. split.
    + cbn [mem_of mHdr]. rewrite Hn. reflexivity.
    + exists (map AtProg ps1), (AtProg p), (map AtProg ps2). rewrite map_app. cbn [map]. split; auto. split; auto.
      rewrite <- map_app. apply Forall_map. exact HP.
  - injection Ey as <- <-. specialize (IH Ex _ _ eq_refl). subst x.
    destruct (good_run _ _ _ X) as [M R]. cbn [fst snd] in *.
    destruct (Forall2_middle _ _ _ _ _ R) as (q & _ & Rt).
    destruct IH as [[N (b & t1 & a & e & C1 & C2)]|[N C]].
    + assert (P : present m1 = false) by (unfold present; rewrite N; reflexivity).
      apply app_eq_app in e. destruct e as (l & [[e1 e2]|[e1 e2]]).
      * destruct l as [|y l].
        { cbn [app] in e2. injection e2 as <- <-. rewrite app_nil_r in e1. subst b.
          destruct (making_step m1 t1 m' t' N C1 Hs) as [[N' C']|[N' C']]; [left|right]; split; auto.
          - exists before, t', a. auto.
          - apply Forall_app. apply Forall_app in C2. destruct C2 as [B1 B2].
            split; [|constructor; [exact C'|]]; apply (Forall_imp (calm false MakesNone)); auto using calm_more. }
        { cbn [app] in e2. injection e2 as -> ->. subst before. 
          pose proof (calm_step m1 q t m' t' MakesNone) as K. rewrite P in K.
          rewrite !Forall_app, Forall_cons_iff in C2. destruct C2 as (B1 & B2 & B3 & B4).
          destruct (K tame_none M Rt B3 Hs) as [C' e]. left. rewrite e. split; auto.
          exists b, y, (l ++ t' :: after). split; [rewrite <- app_assoc; reflexivity|]. split; auto.
          rewrite !Forall_app, Forall_cons_iff. auto. }
      * destruct l as [|y l].
        { cbn [app] in e2. injection e2 as -> ->. rewrite app_nil_r in e1. subst b.
          destruct (making_step m1 t1 m' t' N C1 Hs) as [[N' C']|[N' C']]; [left|right]; split; auto.
          - exists before, t', a. auto.
          - apply Forall_app. apply Forall_app in C2. destruct C2 as [B1 B2].
            split; [|constructor; [exact C'|]]; apply (Forall_imp (calm false MakesNone)); auto using calm_more. }
        { cbn [app] in e2. injection e2 as <- ->. subst b. 
          pose proof (calm_step m1 q t m' t' MakesNone) as K. rewrite P in K.
          rewrite !Forall_app, Forall_cons_iff in C2. destruct C2 as ((B1 & B2 & B3) & B4).
          destruct (K tame_none M Rt B2 Hs) as [C' e]. left. rewrite e. split; auto.
          exists (before ++ t' :: l), t1, a. split; [rewrite <- app_assoc; reflexivity|]. split; auto.
          rewrite !Forall_app, Forall_cons_iff. auto. }
    + right. assert (P : present m1 = true) by (unfold present; destruct (mHdr m1); congruence).
      pose proof (calm_step m1 q t m' t' OnlyDefault) as K. rewrite P in K.
      destruct (K tame_default M Rt (Forall_the_mid _ _ _ _ C) Hs) as [C' e]. rewrite e. split; auto.
      eapply Forall_mid; eauto.
Qed.

Lemma making_alive t : making t -> t <> Died.
Proof. intros H ->. exact H. Qed.
Lemma no_panic_one ps1 p ps2 m ts : combinedLut c = [] -> MakesOne p -> Forall MakesNone (ps1 ++ ps2) ->
  lexec (mem_of c, map AtProg (ps1 ++ p :: ps2)) (m, ts) -> ~ In (@Died A) ts.
Proof.
  intros Hn Hp HP X I. destruct (making_run ps1 p ps2 m ts Hn Hp HP X) as [[N (b & t & a & e & C1 & C2)]|[N C]].
  - subst ts. rewrite Forall_forall in C2. apply in_elt_inv in I. destruct I as [I|I].
    + exact (making_alive _ C1 (eq_sym I)).
    + exact (calm_alive _ _ _ (C2 _ I) eq_refl).
  - rewrite Forall_forall in C. exact (calm_alive _ _ _ (C _ I) eq_refl).
Qed.
Lemma no_panic_default ps m ts : combinedLut c <> [] -> Forall OnlyDefault ps ->
  lexec (mem_of c, map AtProg ps) (m, ts) -> ~ In (@Died A) ts.
Proof.
  intros Hn HP X I. destruct (calm_run ps m ts Hn HP X) as [N C].
  rewrite Forall_forall in C. exact (calm_alive _ _ _ (C _ I) eq_refl).
Qed.
End NoPanic.

(** ** Running alone *)
Inductive alone {A} : mem * lstate A -> mem * lstate A -> Prop :=
| al_refl x : alone x x
| al_step m t m' t' y : lstep m t = Some (m', t') -> alone (m', t') y -> alone (m, t) y.
Lemma alone_trans {A} (x y z : mem * lstate A) : alone x y -> alone y z -> alone x z.
Proof. induction 1; auto. intros. econstructor; eauto. Qed.
Lemma alone_exec {A} x (m : mem) (t : lstate A) m' t' b a : alone (m, t) (m', t') ->
  lexec x (m, b ++ t :: a) -> lexec x (m', b ++ t' :: a).
Proof.
  intros H. remember (m, t) as u eqn:Eu. remember (m', t') as v eqn:Ev. revert m t Eu Ev.
  induction H as [|m0 t0 m1 t1 y Hs H IH]; intros m t Eu Ev X.
  - subst. injection Ev as -> ->. exact X.
  - injection Eu as -> ->. eapply IH; eauto. econstructor; eauto.
Qed.

(** The table with the entries from [i] on made with the flags. *)
Definition entry (ea st : bool) (i : nat) : Z :=
  lut_entry (RuneWidth (plainCondition ea st) (Z.of_nat i * 2)) (RuneWidth (plainCondition ea st) (Z.of_nat i * 2 + 1)).
Lemma rune_in i : (i < FullLut)%nat -> 0 <= Z.of_nat i * 2 <= 0x10FFFF /\ 0 <= Z.of_nat i * 2 + 1 <= 0x10FFFF.
Proof. pose proof FullLut_Z as FZ. revert FZ. generalize FullLut as N. intros. lia. Qed.

Lemma alone_entry {A} m a i (k : lprog A) : mHdr m = None -> (i < length (nth a (mArrs m) []))%nat -> (i < FullLut)%nat ->
  alone (m, AtLoop (Some a) i k) (set_elem m (Some a) i (entry (mEA m) (mStrict m) i), AtLoop (Some a) (S i) k).
Proof.
  intros N Hi Hf. destruct (rune_in i Hf) as [R0 R1].
  econstructor; [cbn [lstep arr]; replace (i <? _)%nat with true by lia; reflexivity|].
  econstructor; [cbn [lstep]; rewrite N; reflexivity|].
  econstructor; [reflexivity|].
  econstructor; [reflexivity|]. cbn [give].
  econstructor; [cbn [lstep]; rewrite N; reflexivity|].
  econstructor; [reflexivity|].
  econstructor; [reflexivity|]. cbn [give].
  econstructor; [reflexivity|].
  unfold entry. rewrite (RuneWidth_plain _ _ _ R0), (RuneWidth_plain _ _ _ R1). constructor.
Qed.

Lemma firstn_set_nth {T} (l : list T) i v : (i < length l)%nat -> firstn (S i) (set_nth l i v) = firstn i l ++ [v].
Proof.
  revert i. induction l as [|x l IH]; intros [|i] H; cbn [length] in H; try lia; cbn [set_nth firstn app]; auto.
  rewrite <- IH by lia. reflexivity.
Qed.
Definition put (m : mem) (a : nat) (l : list Z) : mem :=
  {| mHdr := mHdr m; mArrs := set_nth (mArrs m) a l; mEA := mEA m; mStrict := mStrict m |}.
Lemma set_nth_twice {T} (l : list T) i v w : set_nth (set_nth l i v) i w = set_nth l i w.
Proof. revert i. induction l; destruct i; cbn; congruence. Qed.
Lemma set_nth_same {T} (l : list T) i d : (i < length l)%nat -> set_nth l i (nth i l d) = l.
Proof. revert i. induction l; destruct i; cbn; intros; try lia; auto. rewrite IHl by lia. reflexivity. Qed.

Lemma alone_loop {A} n m a i (k : lprog A) : mHdr m = None -> (a < length (mArrs m))%nat ->
  length (nth a (mArrs m) []) = (i + n)%nat -> (i + n <= FullLut)%nat ->
  alone (m, AtLoop (Some a) i k)
    (put m a (firstn i (nth a (mArrs m) []) ++ map (entry (mEA m) (mStrict m)) (seq i n)), AtStore (Some a) k).
Proof.
  revert m i. induction n as [|n IH]; intros m i N Ha L Hf.
  - econstructor; [cbn [lstep arr]; replace (i <? _)%nat with false by lia; reflexivity|].
    cbn [seq map]. rewrite app_nil_r, firstn_all2 by lia. unfold put. rewrite set_nth_same by auto.
    destruct m; constructor.
  - eapply alone_trans; [apply alone_entry; auto; lia|].
    set (v := entry (mEA m) (mStrict m) i).
    specialize (IH (set_elem m (Some a) i v) (S i)).
    cbn [set_elem mHdr mArrs mEA mStrict] in IH |- *. rewrite set_nth_length, nth_set_nth, Nat.eqb_refl in IH.
    replace (a <? length (mArrs m))%nat with true in IH by lia. cbn [andb] in IH. rewrite set_nth_length in IH.
    rewrite firstn_set_nth in IH by lia. specialize (IH N Ha ltac:(lia) ltac:(lia)).
    unfold put in *. cbn [mHdr mArrs mEA mStrict] in IH. rewrite set_nth_twice in IH.
    cbn [seq map]. rewrite <- app_assoc in IH. exact IH.
Qed.

Lemma Forall_set_nth {T} (P : T -> Prop) l i v : Forall P l -> P v -> Forall P (set_nth l i v).
Proof. intros H V. revert i. induction H; intros [|i]; cbn; constructor; auto. Qed.

(** A memory with whole tables only. *)
Definition tidy (m : mem) : Prop :=
  Forall (fun l => length l = FullLut) (mArrs m) /\ match mHdr m with None => True | Some a => (a < length (mArrs m))%nat end.

Lemma entries_lut c : map (entry (EastAsianWidth c) (StrictEmojiNeutral c)) (seq 0 FullLut) =
  map (fun i => lut_entry (RuneWidth (noLut c) (Z.of_nat i * 2)) (RuneWidth (noLut c) (Z.of_nat i * 2 + 1))) (seq 0 FullLut).
Proof. reflexivity. Qed.

Lemma tidy_arr m a : tidy m -> mHdr m = Some a -> length (arr m (mHdr m)) = FullLut.
Proof. intros [L B] e. rewrite e in *. cbn [arr]. rewrite Forall_forall in L. apply L. apply nth_In, B. Qed.
Lemma tidy_len m : tidy m -> slen (arr m (mHdr m)) = match mHdr m with None => 0 | Some _ => 557056 end.
Proof.
  intros T. pose proof FullLut_Z as FZ. destruct (mHdr m) as [a|] eqn:e; [|reflexivity].
  pose proof (tidy_arr m a T e) as L. rewrite e in L. unfold slen. rewrite L. exact FZ.
Qed.

Lemma create_alone {A} m (k : lprog A) : tidy m -> exists m', tidy m' /\ alone (m, AtTake k) (m', AtProg k) /\
  cond_of m' = CreateLUT (cond_of m).
Proof.
  intros T. pose proof (tidy_len m T) as TL. destruct T as [L B]. destruct (mHdr m) as [a|] eqn:e.
  - assert (La : length (nth a (mArrs m) []) = FullLut).
    { rewrite Forall_forall in L. apply L. apply nth_In, B. }
    set (l' := map (entry (mEA m) (mStrict m)) (seq 0 FullLut)).
    assert (Ll : length l' = FullLut) by (unfold l'; rewrite map_length, seq_length; reflexivity).
    exists (set_hdr (put (set_hdr m None) a l') (Some a)). split; [|split].
    + split; cbn [set_hdr put mArrs mHdr]; [|rewrite set_nth_length; exact B].
      apply Forall_set_nth; [exact L|exact Ll].
    + econstructor; [reflexivity|].
      econstructor; [cbn [lstep]; rewrite e; rewrite TL; cbn [Z.eqb negb]; reflexivity|].
      econstructor; [reflexivity|]. 
      eapply alone_trans; [apply (alone_loop FullLut (set_hdr m None) a 0 k); [reflexivity|exact B|exact La|apply le_n]|].
      econstructor; [reflexivity|]. constructor.
    + unfold cond_of, CreateLUT. cbn [set_hdr put mHdr mArrs mEA mStrict arr combinedLut EastAsianWidth StrictEmojiNeutral].
      rewrite e, TL. cbn [Z.eqb negb arr]. rewrite La.
      f_equal. rewrite nth_set_nth, Nat.eqb_refl. replace (a <? length (mArrs m))%nat with true by lia. reflexivity.
  - set (l' := map (entry (mEA m) (mStrict m)) (seq 0 FullLut)).
    assert (Ll : length l' = FullLut) by (unfold l'; rewrite map_length, seq_length; reflexivity).
    set (m1 := {| mHdr := None; mArrs := mArrs m ++ [new_lut]; mEA := mEA m; mStrict := mStrict m |}).
    assert (E1 : nth (length (mArrs m)) (mArrs m1) [] = new_lut) by (cbn [m1 mArrs]; apply nth_middle).
    assert (B1 : (length (mArrs m) < length (mArrs m1))%nat) by (cbn [m1 mArrs]; rewrite app_length; cbn [length]; lia).
    exists (set_hdr (put m1 (length (mArrs m)) l') (Some (length (mArrs m)))). split; [|split].
    + split; cbn [set_hdr put mArrs mHdr]; [|rewrite set_nth_length; exact B1].
      assert (L1 : Forall (fun l => length l = FullLut) (mArrs m1)).
      { cbn [m1 mArrs]. rewrite Forall_app. split; [exact L|apply new_lut_len]. }
      apply Forall_set_nth; [exact L1|exact Ll].
    + econstructor; [reflexivity|].
      econstructor; [cbn [lstep]; rewrite e; rewrite TL; cbn [Z.eqb negb]; reflexivity|].
      econstructor; [cbn [lstep]; rewrite e; reflexivity|]. fold m1.
      eapply alone_trans; [apply (alone_loop FullLut m1 (length (mArrs m)) 0 k); [reflexivity|exact B1| |apply le_n]|].
      { rewrite E1. apply new_lut_length. }
      econstructor; [reflexivity|]. constructor.
    + unfold cond_of, CreateLUT. cbn [set_hdr put m1 mHdr mArrs mEA mStrict arr combinedLut EastAsianWidth StrictEmojiNeutral].
      rewrite e, TL. cbn [Z.eqb negb arr]. rewrite full_eq.
      f_equal. fold m1. change (mArrs m ++ [new_lut]) with (mArrs m1). rewrite nth_set_nth, Nat.eqb_refl.
      replace (length (mArrs m) <? length (mArrs m1))%nat with true by lia. reflexivity.
Qed.
