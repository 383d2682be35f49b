(** * WeakRaceRuns: one goroutine alone, and runs that exist. *)
From Coq Require Import ZifyBool ZifyNat.
From Verif Require Import GoBase Uniseg Runewidth ConditionSpec RunewidthProofs LutRace LutRaceSpec LutRaceProofs WeakRace WeakRaceSpec WeakRaceProofs.
Local Open Scope Z_scope.
Ltac Zify.zify_post_hook ::= Z.div_mod_to_equations.
Lemma nth_new_lut i : nth i new_lut 0 = 0.
Proof. unfold new_lut. apply nth_repeat. Qed.
Opaque FullLut new_lut.

(** ** One goroutine reads what it wrote *)
Section Single.
Context {A : Type} (Inv : Z -> view -> wstate A -> Prop).
Hypothesis Inv_step : forall n v t, 0 <= n -> Inv n v t ->
  match wact t with
  | WNothing => True
  | WLocal t' => Inv n v t'
  | WRead l f => Inv n v (f (v l))
  | WWrite l x t' => Inv n (write v l x) t'
  | WAlloc f => Inv (n + 1) v (f (n + 1))
  end.
Definition single (x : wconfig A) : Prop :=
  0 <= cArrs x /\ Forall (fun e => fst (fst e) = 0%nat) (cLog x) /\ exists v t, cThreads x = [(v, t)] /\ Inv (cArrs x) v t.
Lemma only_one {T} (b : list T) x a y : b ++ x :: a = [y] -> b = [] /\ x = y /\ a = [].
Proof. destruct b as [|z [|]]; cbn; intros e; injection e; intros; subst; try discriminate; auto. Qed.
Lemma single_step x y : single x -> wstep x y -> single y.
Proof.
  intros (H0 & HL & v0 & t0 & HT & HI) HS. destruct HS as [log n before v t after t' Ha|log n before v t after l f x Ha Hr|log n before v t after l x t' Ha|log n before v t after f Ha];
    unfold single; cbn [cArrs cLog cThreads] in *; apply only_one in HT; destruct HT as (-> & e & ->); injection e as -> ->;
    pose proof (Inv_step n v0 t0 H0 HI) as K; rewrite Ha in K; cbn [app length].
  - split; [exact H0|]. split; [exact HL|]. eauto.
  - split; [exact H0|]. split; [exact HL|]. destruct Hr as [|j z Hj Hin]; [eauto|]. rewrite Forall_forall in HL. apply HL in Hin. cbn in Hin. contradiction.
  - split; [exact H0|]. split; [constructor; auto|]. eauto.
  - split; [lia|]. split; [exact HL|]. eauto.
Qed.
Lemma single_exec x y : single x -> wexec x y -> single y.
Proof. intros Z0 X. revert Z0. induction X as [|x y z X IH ST]; intros Z0; [exact Z0|]. exact (single_step y z (IH Z0) ST). Qed.
End Single.

Section Alone.
Context {A : Type} (c : Condition).
Hypothesis Hc : Reachable c.
Hypothesis Hplain : forall r, RuneWidth c r = RuneWidth (plainCondition (EastAsianWidth c) (StrictEmojiNeutral c)) r.
Notation f := (RuneWidth c).
Notation E := (eq (EastAsianWidth c)).
Notation S := (eq (StrictEmojiNeutral c)).
Notation F := (fun r w => w = f r).

Definition right_to (v : view) (q i : Z) : Prop := forall r, 0 <= r <= 0x10FFFF -> r / 2 < i -> nibble (v (WElem q (r / 2))) r = f r.
Definition settled (n : Z) (v : view) : Prop :=
  (v WLen = 0 /\ v WPtr = 0) \/ (v WLen = lutLen /\ 1 <= v WPtr <= n /\ right_to v (v WPtr) lutLen).
Definition busy (n : Z) (v : view) (q m i : Z) : Prop := v WLen = 0 /\ v WPtr = 0 /\ m = lutLen /\ 1 <= q <= n /\ right_to v q i.
Definition flags (v : view) : Prop := EastAsianWidth c = negb (v WEA =? 0) /\ StrictEmojiNeutral c = negb (v WStrict =? 0).
Definition acaller (p : lprog A) (n : Z) (v : view) (r : Z) (k : wcaller A) : Prop :=
  match k with
  | WToProg k => settled n v /\ leads F E S p (k (f r))
  | WToX0 q m i k => r = i * 2 /\ 0 <= i < m /\ busy n v q m i /\ leads F E S p k
  | WToX1 q m i x0 k => r = i * 2 + 1 /\ 0 <= i < m /\ x0 = f (i * 2) /\ busy n v q m i /\ leads F E S p k
  end.
Definition ainv (p : lprog A) (n : Z) (v : view) (t : wstate A) : Prop :=
  flags v /\
  match t with
  | WAt q => settled n v /\ leads F E S p q
  | WAtLen r k => 0 <= r <= 0x10FFFF /\ acaller p n v r k
  | WAtTablePtr r k => v WLen = lutLen /\ 0 <= r <= 0x10FFFF /\ acaller p n v r k
  | WAtTableLen r q k | WAtElem r q k => q = v WPtr /\ v WLen = lutLen /\ 0 <= r <= 0x10FFFF /\ acaller p n v r k
  | WAtEA r k => 0 <= r <= 0x10FFFF /\ acaller p n v r k
  | WAtStrict r ea k => EastAsianWidth c = negb (ea =? 0) /\ 0 <= r <= 0x10FFFF /\ acaller p n v r k
  | WAtGuard k | WAtTakePtr k => settled n v /\ leads F E S p k
  | WAtTakeLen q k => q = v WPtr /\ settled n v /\ leads F E S p k
  | WAtTest q m k => q = v WPtr /\ m = v WLen /\ settled n v /\ leads F E S p k
  | WAtDropPtr q m k => q = v WPtr /\ m = lutLen /\ v WLen = lutLen /\ settled n v /\ leads F E S p k
  | WAtDropLen q m k => v WPtr = 0 /\ m = lutLen /\ 1 <= q <= n /\ right_to v q lutLen /\ leads F E S p k
  | WAtMake k => v WLen = 0 /\ settled n v /\ leads F E S p k
  | WAtLoop q m i k => 0 <= i <= m /\ busy n v q m i /\ leads F E S p k
  | WAtWrite q m i x0 x1 k => 0 <= i < m /\ x0 = f (i * 2) /\ x1 = f (i * 2 + 1) /\ busy n v q m i /\ leads F E S p k
  | WAtStorePtr q m k => busy n v q m lutLen /\ leads F E S p k
  | WAtStoreLen m k => v WLen = 0 /\ m = lutLen /\ 1 <= v WPtr <= n /\ right_to v (v WPtr) lutLen /\ leads F E S p k
  | WDied => False
  end.

Lemma right_other v l x q i : (forall j, l <> WElem q j) -> right_to v q i -> right_to (write v l x) q i.
Proof. intros H R r Hr Hi. rewrite write_other by apply H. apply R; auto. Qed.
Lemma settled_flag n v l x : l = WEA \/ l = WStrict -> settled n v -> settled n (write v l x).
Proof.
  intros Hl HS. unfold settled in *. rewrite !write_other by (destruct Hl as [-> | ->]; discriminate).
  destruct HS as [?|(H1 & H2 & H3)]; [auto|right]. split; auto. split; auto. apply right_other; auto. intros j. destruct Hl as [-> | ->]; discriminate.
Qed.
Lemma f_range r : f r = 0 \/ f r = 1 \/ f r = 2.
Proof. apply Reachable_range, Hc. Qed.
Lemma f_tables r : 0 <= r <= 0x10FFFF -> RuneWidth_tables (EastAsianWidth c) (StrictEmojiNeutral c) r = f r.
Proof. intros Hr. rewrite Hplain. symmetry. apply RuneWidth_plain, Hr. Qed.

Lemma agive p n v r k : 0 <= r <= 0x10FFFF -> flags v -> acaller p n v r k -> ainv p n v (wgive k (f r)).
Proof.
  intros Hr HF C. pose proof lutLen_is. destruct k; cbn [wgive acaller] in *; (split; [exact HF|]).
  - exact C.
  - destruct C as (-> & Hi & HB & L). cbn [acaller]. ands; auto; destruct HB as (_ & _ & -> & _); lia.
  - destruct C as (-> & Hi & -> & HB & L). ands; auto.
Qed.

Lemma busy_short n v q m i : busy n v q m i -> v WLen = lutLen -> False.
Proof. intros (H & _) K. rewrite lutLen_is in K. lia. Qed.

Lemma entry_right v q i : 0 <= i < lutLen -> right_to v q i -> right_to (write v (WElem q i) (Z.lor (u8 (f (i * 2))) (u8 (Z.shiftl (u8 (f (i * 2 + 1))) 4)))) q (i + 1).
Proof.
  intros Hi R r Hr Hr2. destruct (Z.eq_dec (r / 2) i) as [e|ne].
  - rewrite e, write_same. apply (nibble_entry (fun r w => w = f r)) with (i := i); auto; [|lia]. intros r' w ->. apply f_range.
  - rewrite write_other; [|intros e; injection e; lia]. apply R; auto. lia.
Qed.

Lemma ainv_step p n v t : 0 <= n -> ainv p n v t ->
  match wact t with
  | WNothing => True
  | WLocal t' => ainv p n v t'
  | WRead l g => ainv p n v (g (v l))
  | WWrite l x t' => ainv p n (write v l x) t'
  | WAlloc g => ainv p (n + 1) v (g (n + 1))
  end.
Proof.
  intros Hn [HF T]. pose proof lutLen_is as HN.
  destruct t as [[a|r k|k|k|b k|b k]|r k|r k|r q k|r q k|r k|r ea k|k|k|q k|q m k|q m k|q m k|k|q m i k|q m i x0 x1 k|q m k|m k|];
    cbn [wact]; auto.
  - destruct T as [HS L]. pose proof (leads_width F E S p r k L (f r) eq_refl) as LW. unfold wask. destruct ((r <? 0) || (r >? 0x10FFFF)) eqn:Er.
    + cbn [wgive]. split; [exact HF|]. split; [exact HS|]. replace 0 with (f r); [exact LW|]. unfold RuneWidth. rewrite Er. reflexivity.
    + split; [exact HF|]. split; [lia|]. split; auto.
  - destruct T as [HS [T1 T2]]. inversion T1; subst. split; auto. split; auto. split; auto. intros a Ha. apply T2. constructor; auto.
  - destruct T as [HS [T1 T2]]. inversion T1; subst. split; auto. split; auto. split; auto. intros a Ha. apply T2. constructor; auto.
  - destruct T as [HS [T1 T2]]. inversion T1; subst. split; [|split; [apply settled_flag; auto|split; auto; intros a Ha; apply T2; constructor; auto]].
    destruct HF as [_ HF]. split; [rewrite write_same, of_bool_eq; reflexivity|rewrite write_other by discriminate; exact HF].
  - destruct T as [HS [T1 T2]]. inversion T1; subst. split; [|split; [apply settled_flag; auto|split; auto; intros a Ha; apply T2; constructor; auto]].
    destruct HF as [HF _]. split; [rewrite write_other by discriminate; exact HF|rewrite write_same, of_bool_eq; reflexivity].
  - destruct T as [Hr C]. destruct (Z.ltb_spec 0 (v WLen)); (split; [exact HF|]); [|split; auto].
    split; [|split; auto]. destruct k; cbn [acaller] in C.
    + destruct C as [[[? ?]|[? ?]] _]; lia.
    + destruct C as (_ & _ & [? _] & _). lia.
    + destruct C as (_ & _ & _ & [? _] & _). lia.
  - destruct T as (HL & Hr & C). split; [exact HF|]. auto.
  - destruct T as (-> & HL & Hr & C). rewrite shiftr1. replace (r / 2 <? v WLen) with true by lia. split; [exact HF|]. auto.
  - destruct T as (-> & HL & Hr & C). destruct k as [k| |].
    + destruct C as [HS L]. destruct HS as [[? ?]|(HS1 & HS2 & HS3)]; [lia|].
      replace (v WPtr =? 0) with false by lia. rewrite shiftr1.
      change (Z.land (Z.shiftr (v (WElem (v WPtr) (r / 2))) (Z.land r 1 * 4)) 3) with (nibble (v (WElem (v WPtr) (r / 2))) r).
      rewrite HS3 by lia. apply agive; auto. split; auto. right. auto.
    + destruct C as (_ & _ & HB & _). exfalso. eapply busy_short; eauto.
    + destruct C as (_ & _ & _ & HB & _). exfalso. eapply busy_short; eauto.
  - destruct T as [Hr C]. split; [exact HF|]. destruct HF. auto.
  - destruct T as (He & Hr & C). destruct HF as [HF1 HF2]. rewrite <- He, <- HF2, f_tables by exact Hr. apply agive; auto. split; auto.
  - destruct (0 <? v WLen); split; auto.
  - split; auto.
  - destruct T as (-> & HS & L). split; auto.
  - destruct T as (-> & -> & HS & L). destruct HS as [[HS1 HS2]|HS].
    + rewrite HS1. cbn [Z.eqb negb]. split; auto. split; auto. split; auto. left. auto.
    + destruct HS as (HS1 & HS2 & HS3). replace (v WLen =? 0) with false by lia. cbn [negb]. split; auto. ands; auto. right. auto.
  - destruct T as (-> & -> & HL & HS & L). split; [destruct HF; split; rewrite write_other by discriminate; auto|].
    rewrite write_same. destruct HS as [[HS1 HS2]|(HS1 & HS2 & HS3)]; [lia|]. ands; auto; lia.
  - destruct T as (HP & -> & Hq & R & L). split; [destruct HF; split; rewrite write_other by discriminate; auto|].
    ands; auto; try lia. unfold busy. rewrite write_same, write_other by discriminate. ands; auto; try lia. intros r Hr Hr2. exfalso. lia.
  - destruct T as (HL & HS & L). split; [exact HF|]. ands; auto; try lia. unfold busy.
    destruct HS as [[HS1 HS2]|(HS1 & HS2 & HS3)]; [|lia]. ands; auto; try lia. intros r Hr Hr2. exfalso. lia.
  - destruct T as (Hi & HB & L). destruct (Z.ltb_spec i m); (split; [exact HF|]).
    + assert (m = lutLen) by apply HB. cbn [acaller]. ands; auto; lia.
    + assert (m = lutLen) by apply HB. assert (i = lutLen) by lia. subst i. auto.
  - destruct T as (Hi & -> & -> & HB & L). destruct HB as (HB1 & HB2 & -> & HB3 & HB4). replace (q =? 0) with false by lia.
    split; [destruct HF; split; rewrite write_other by discriminate; auto|]. ands; auto; try lia.
    unfold busy. rewrite !write_other by discriminate. ands; auto; try lia. apply entry_right; auto.
  - destruct T as ((HB1 & HB2 & -> & HB3 & HB4) & L). split; [destruct HF; split; rewrite write_other by discriminate; auto|].
    rewrite write_same, write_other by discriminate. ands; auto; lia.
  - destruct T as (HL & -> & HP & R & L). split; [destruct HF; split; rewrite write_other by discriminate; auto|]. split; auto.
    right. rewrite write_same, write_other by discriminate. ands; auto; lia.
Qed.

Lemma alone_run p y : SetsOnly E S p -> wexec (wstart c [p]) y -> exists v t, cThreads y = [(v, t)] /\ ainv p (cArrs y) v t.
Proof.
  intros HP X. apply (single_exec (ainv p) (ainv_step p)) in X.
  - destruct X as (_ & _ & X). exact X.
  - unfold single, wstart. cbn [cArrs cLog cThreads map]. split; [destruct (combinedLut c); lia|]. split; [constructor|].
    exists (view_of c), (WAt p). split; [reflexivity|]. split; [split; cbn [view_of]; rewrite of_bool_eq; reflexivity|]. split; [|split; auto].
    unfold settled. cbn [view_of]. pose proof (lut_length c Hc) as L. pose proof (view_elem c) as VE. destruct (combinedLut c) as [|x l]; [left; split; reflexivity|right].
    split; [apply L; discriminate|]. split; [lia|]. intros r Hr Hr2. apply VE; auto; [discriminate|lia].
Qed.
Lemma alone_exact (p : lprog A) y v (t : wstate A) : SetsOnly E S p -> wexec (wstart c [p]) y -> cThreads y = [(v, t)] ->
  t <> WDied /\ forall a, t = WAt (LRet a) -> a = result f p.
Proof.
  intros HP X HT. destruct (alone_run p y HP X) as (v' & t' & HT' & K). rewrite HT in HT'. injection HT' as <- <-. split.
  - intros ->. destruct K as [_ []].
  - intros a ->. destruct K as (_ & _ & _ & K). apply (return_exact F); [auto|]. apply K. constructor.
Qed.
End Alone.

(** ** A goroutine making a table while another measures *)
Lemma wexec_trans {A} (x y z : wconfig A) : wexec x y -> wexec y z -> wexec x z.
Proof. intros X Y. induction Y as [|y' z' w' Y IH ST]; [exact X|]. eapply we_step; [exact (IH X)|exact ST]. Qed.
Lemma wexec_one {A} (x y : wconfig A) : wstep x y -> wexec x y.
Proof. intros ST. eapply we_step; [apply we_refl|exact ST]. Qed.

Section Maker.
Context {A : Type}.
(** The first of two goroutines by itself, reading its own words. *)
Definition mk (log : list (nat * word * Z)) (n : Z) (v : view) (t : wstate A) (o : view * wstate A) : wconfig A :=
  {| cLog := log; cArrs := n; cThreads := [(v, t); o] |}.
Lemma m_local log n v t o t' : wact t = WLocal t' -> wexec (mk log n v t o) (mk log n v t' o).
Proof. intros Ha. apply wexec_one. exact (ws_local log n [] v t [o] t' Ha). Qed.
Lemma m_read log n v t o l g : wact t = WRead l g -> wexec (mk log n v t o) (mk log n v (g (v l)) o).
Proof. intros Ha. apply wexec_one. exact (ws_read log n [] v t [o] l g (v l) Ha (mr_own log 0 v l)). Qed.
Lemma m_write log n v t o l x t' : wact t = WWrite l x t' -> wexec (mk log n v t o) (mk ((0%nat, l, x) :: log) n (write v l x) t' o).
Proof. intros Ha. apply wexec_one. exact (ws_write log n [] v t [o] l x t' Ha). Qed.
Lemma m_alloc log n v t o g : wact t = WAlloc g -> wexec (mk log n v t o) (mk log (n + 1) v (g (n + 1)) o).
Proof. intros Ha. apply wexec_one. exact (ws_alloc log n [] v t [o] g Ha). Qed.

Lemma m_width log n v o r k : v WLen = 0 -> exists w, wexec (mk log n v (WAtLen r k) o) (mk log n v (wgive k w) o).
Proof.
  intros HL. exists (RuneWidth_tables (negb (v WEA =? 0)) (negb (v WStrict =? 0)) r). eapply wexec_trans; [apply m_read; reflexivity|]. cbv beta. rewrite HL. cbn [Z.ltb Z.compare].
  eapply wexec_trans; [apply m_read; reflexivity|]. cbv beta.
  exact (m_read log n v (WAtStrict r (v WEA) k) o WStrict _ eq_refl).
Qed.
Lemma m_loop j log n v o q i k : v WLen = 0 -> q <> 0 -> Z.of_nat j = lutLen - i ->
  exists log' v', wexec (mk log n v (WAtLoop q lutLen i k) o) (mk log' n v' (WAtStorePtr q lutLen k) o).
Proof.
  revert log v i. induction j as [|j IH]; intros log v i HL Hq Hj.
  - exists log, v. eapply wexec_trans; [apply m_local; reflexivity|]. replace (i <? lutLen) with false by lia. apply we_refl.
  - destruct (m_width log n v o (i * 2) (WToX0 q lutLen i k) HL) as [w0 X0].
    destruct (m_width log n v o (i * 2 + 1) (WToX1 q lutLen i w0 k) HL) as [w1 X1].
    destruct (IH ((0%nat, WElem q i, Z.lor (u8 w0) (u8 (Z.shiftl (u8 w1) 4))) :: log) (write v (WElem q i) (Z.lor (u8 w0) (u8 (Z.shiftl (u8 w1) 4)))) (i + 1)) as (log' & v' & X).
    + rewrite write_other by discriminate. exact HL.
    + exact Hq.
    + lia.
    + exists log', v'. eapply wexec_trans; [apply m_local; reflexivity|]. replace (i <? lutLen) with true by lia.
      eapply wexec_trans; [exact X0|]. cbn [wgive]. eapply wexec_trans; [exact X1|]. cbn [wgive].
      eapply wexec_trans; [|exact X]. apply m_write. cbn [wact]. replace (q =? 0) with false by lia. reflexivity.
Qed.
Lemma m_create n v o k : v WLen = 0 -> 0 <= n -> exists log' v', wexec (mk [] n v (WAt (LCreate k)) o) (mk ((0%nat, WLen, lutLen) :: (0%nat, WPtr, n + 1) :: log') (n + 1) v' (WAt k) o).
Proof.
  intros HL Hn. destruct (m_loop (Z.to_nat lutLen) [] (n + 1) v o (n + 1) 0 k HL ltac:(lia) ltac:(pose proof lutLen_is; lia)) as (log' & v' & X).
  exists log', (write (write v' WPtr (n + 1)) WLen lutLen).
  eapply wexec_trans; [apply m_local; reflexivity|]. eapply wexec_trans; [apply m_read; reflexivity|]. cbv beta.
  eapply wexec_trans; [apply m_read; reflexivity|]. cbv beta. eapply wexec_trans; [apply m_read; reflexivity|]. cbv beta.
  rewrite HL. cbn [Z.eqb negb]. eapply wexec_trans; [apply m_alloc; reflexivity|]. cbv beta. eapply wexec_trans; [exact X|].
  eapply wexec_trans; [apply m_write; reflexivity|]. apply m_write; reflexivity.
Qed.

(** The second goroutine. *)
Lemma o_local log n a v t t' : wact t = WLocal t' -> wexec (A := A) {| cLog := log; cArrs := n; cThreads := [a; (v, t)] |} {| cLog := log; cArrs := n; cThreads := [a; (v, t')] |}.
Proof. intros Ha. apply wexec_one. exact (ws_local log n [a] v t [] t' Ha). Qed.
Lemma o_own log n a v t l g : wact t = WRead l g -> wexec (A := A) {| cLog := log; cArrs := n; cThreads := [a; (v, t)] |} {| cLog := log; cArrs := n; cThreads := [a; (v, g (v l))] |}.
Proof. intros Ha. apply wexec_one. exact (ws_read log n [a] v t [] l g _ Ha (mr_own log 1 v l)). Qed.
Lemma o_other log n a v t l g x : wact t = WRead l g -> In (0%nat, l, x) log -> wexec (A := A) {| cLog := log; cArrs := n; cThreads := [a; (v, t)] |} {| cLog := log; cArrs := n; cThreads := [a; (v, g x)] |}.
Proof. intros Ha Hin. apply wexec_one. apply (ws_read log n [a] v t [] l g _ Ha). apply (mr_other log 1 v l 0 x); [discriminate|exact Hin]. Qed.
End Maker.

Lemma sees_zero {A} c r (q : lprog A) (k : Z -> lprog A) : combinedLut c = [] -> 0 <= r <= 0x10FFFF ->
  exists y v v', wexec (wstart c [LCreate q; LWidth r k]) y /\ cThreads y = [(v, WAt q); (v', WAt (k 0))].
Proof.
  intros e Hr. pose proof lutLen_is as HN. destruct (m_create 0 (view_of c) (view_of c, WAt (LWidth r k)) q) as (log' & v' & X); [cbn [view_of]; rewrite e; reflexivity|lia|].
  assert (HV : view_of c (WElem 1 (r / 2)) = 0) by (cbn [view_of]; rewrite e; destruct (Z.to_nat (r / 2)); reflexivity).
  eexists. exists v', (view_of c). split; [|shelve]. unfold wstart. rewrite e. cbn [map].
  eapply wexec_trans; [exact X|]. unfold mk. eapply wexec_trans; [apply o_local; reflexivity|]. unfold wask.
  replace ((r <? 0) || (r >? 0x10FFFF)) with false by lia.
  eapply wexec_trans; [eapply (o_other _ _ _ _ _ WLen _ lutLen); [reflexivity|left; reflexivity]|]. cbv beta. replace (0 <? lutLen) with true by lia.
  eapply wexec_trans; [eapply (o_other _ _ _ _ _ WPtr _ 1); [reflexivity|right; left; reflexivity]|]. cbv beta.
  eapply wexec_trans; [eapply (o_other _ _ _ _ _ WLen _ lutLen); [reflexivity|left; reflexivity]|]. cbv beta.
  rewrite shiftr1. replace (r / 2 <? lutLen) with true by lia.
  eapply wexec_trans; [apply o_own; cbn [wact Z.eqb]; reflexivity|]. cbv beta. rewrite shiftr1, HV.
  change (Z.land (Z.shiftr 0 (Z.land r 1 * 4)) 3) with (nibble 0 r). rewrite nibble_0. cbn [wgive]. apply we_refl.
  Unshelve. reflexivity.
Qed.

Lemma dies {A} c r (q : lprog A) (k : Z -> lprog A) : combinedLut c = [] -> 0 <= r <= 0x10FFFF ->
  exists y v v', wexec (wstart c [LCreate q; LWidth r k]) y /\ cThreads y = [(v, WAt q); (v', WDied)].
Proof.
  intros e Hr. pose proof lutLen_is as HN. destruct (m_create 0 (view_of c) (view_of c, WAt (LWidth r k)) q) as (log' & v' & X); [cbn [view_of]; rewrite e; reflexivity|lia|].
  assert (HV : view_of c WPtr = 0) by (cbn [view_of]; rewrite e; reflexivity).
  eexists. exists v', (view_of c). split; [|shelve]. unfold wstart. rewrite e. cbn [map].
  eapply wexec_trans; [exact X|]. unfold mk. eapply wexec_trans; [apply o_local; reflexivity|]. unfold wask.
  replace ((r <? 0) || (r >? 0x10FFFF)) with false by lia.
  eapply wexec_trans; [eapply (o_other _ _ _ _ _ WLen _ lutLen); [reflexivity|left; reflexivity]|]. cbv beta. replace (0 <? lutLen) with true by lia.
  eapply wexec_trans; [apply o_own; reflexivity|]. cbv beta. rewrite HV.
  eapply wexec_trans; [eapply (o_other _ _ _ _ _ WLen _ lutLen); [reflexivity|left; reflexivity]|]. cbv beta.
  rewrite shiftr1. replace (r / 2 <? lutLen) with true by lia. apply o_local. reflexivity.
  Unshelve. reflexivity.
Qed.

(** ** Sequentially consistent executions are among these *)
Lemma Forall2_len {X Y} (R : X -> Y -> Prop) xs ys : Forall2 R xs ys -> length xs = length ys.
Proof. induction 1; cbn; congruence. Qed.
Lemma index_some (l : list Z) i : 0 <= i < slen l -> at_index l i = Some (nth (Z.to_nat i) l 0).
Proof.
  intros Hi. unfold at_index. replace (i <? 0) with false by lia. apply nth_error_nth'. unfold slen in Hi. lia.
Qed.
Section Contained.
Context {A : Type}.
(** What memory [m] holds. *)
Definition held (m : mem) : view := fun l =>
  match l with
  | WPtr => match mHdr m with None => 0 | Some a => Z.of_nat a + 1 end
  | WLen => slen (arr m (mHdr m))
  | WElem a i => nth (Z.to_nat i) (nth (Z.to_nat (a - 1)) (mArrs m) []) 0
  | WEA => of_bool (mEA m)
  | WStrict => of_bool (mStrict m)
  end.
Definition proper (l : word) : Prop := match l with WElem a i => 1 <= a /\ 0 <= i | _ => True end.
Definition mem_ok (m : mem) : Prop :=
  Forall (fun l => length l = FullLut) (mArrs m) /\ match mHdr m with None => True | Some a => (a < length (mArrs m))%nat end.

(** [slice_rel N lut q n]: the same slice. *)
Inductive slice_rel (N : nat) : option nat -> Z -> Z -> Prop :=
| sl_nil : slice_rel N None 0 0
| sl_arr a : (a < N)%nat -> slice_rel N (Some a) (Z.of_nat a + 1) lutLen.
Inductive caller_rel (N : nat) : caller A -> wcaller A -> Prop :=
| cl_prog k : caller_rel N (ToProg k) (WToProg k)
| cl_x0 a i k : (a < N)%nat -> (i < FullLut)%nat -> caller_rel N (ToX0 (Some a) i k) (WToX0 (Z.of_nat a + 1) lutLen (Z.of_nat i) k)
| cl_x1 a i x0 k : (a < N)%nat -> (i < FullLut)%nat -> caller_rel N (ToX1 (Some a) i x0 k) (WToX1 (Z.of_nat a + 1) lutLen (Z.of_nat i) x0 k).
Inductive state_rel (N : nat) : lstate A -> wstate A -> Prop :=
| sr_prog p : state_rel N (AtProg p) (WAt p)
| sr_len r c c' : 0 <= r <= 0x10FFFF -> caller_rel N c c' -> state_rel N (AtLen r c) (WAtLen r c')
| sr_table r c c' : 0 <= r <= 0x10FFFF -> caller_rel N c c' -> state_rel N (AtTable r c) (WAtTablePtr r c')
| sr_elem r a c c' : 0 <= r <= 0x10FFFF -> (a < N)%nat -> caller_rel N c c' -> state_rel N (AtElem r (Some a) c) (WAtElem r (Z.of_nat a + 1) c')
| sr_elem_nil r c : state_rel N (AtElem r None c) WDied
| sr_ea r c c' : 0 <= r <= 0x10FFFF -> caller_rel N c c' -> state_rel N (AtEA r c) (WAtEA r c')
| sr_strict r ea c c' : 0 <= r <= 0x10FFFF -> caller_rel N c c' -> state_rel N (AtStrict r ea c) (WAtStrict r (of_bool ea) c')
| sr_guard k : state_rel N (AtGuard k) (WAtGuard k)
| sr_take k : state_rel N (AtTake k) (WAtTakePtr k)
| sr_test lut q n k : slice_rel N lut q n -> state_rel N (AtTest lut k) (WAtTest q n k)
| sr_drop lut q n k : slice_rel N lut q n -> state_rel N (AtDrop lut k) (WAtDropPtr q n k)
| sr_make k : state_rel N (AtMake k) (WAtMake k)
| sr_loop lut q n i k : slice_rel N lut q n -> state_rel N (AtLoop lut i k) (WAtLoop q n (Z.of_nat i) k)
| sr_write a i x0 x1 k : (a < N)%nat -> (i < FullLut)%nat ->
    state_rel N (AtWrite (Some a) i x0 x1 k) (WAtWrite (Z.of_nat a + 1) lutLen (Z.of_nat i) x0 x1 k)
| sr_store lut q n k : slice_rel N lut q n -> state_rel N (AtStore lut k) (WAtStorePtr q n k)
| sr_died : state_rel N Died WDied.

(** The goroutine number [i] may read what [h] holds. *)
Definition sees (h : view) (log : list (nat * word * Z)) (i : nat) (v : view) : Prop := forall l, proper l -> may_read log i v l (h l).
Definition all_see (h : view) (y : wconfig A) : Prop := forall i v u, nth_error (cThreads y) i = Some (v, u) -> sees h (cLog y) i v.
Definition sim (x : mem * list (lstate A)) (y : wconfig A) : Prop :=
  mem_ok (fst x) /\ cArrs y = Z.of_nat (length (mArrs (fst x)))
  /\ Forall2 (fun t u => state_rel (length (mArrs (fst x))) t (snd u)) (snd x) (cThreads y)
  /\ all_see (held (fst x)) y.

Lemma slice_more' N N' lut q n : (N <= N')%nat -> slice_rel N lut q n -> slice_rel N' lut q n.
Proof. intros Hle []; constructor; lia. Qed.
Lemma caller_more' N N' c c' : (N <= N')%nat -> caller_rel N c c' -> caller_rel N' c c'.
Proof. intros Hle []; constructor; auto; lia. Qed.
Lemma state_more' N N' t u : (N <= N')%nat -> state_rel N t u -> state_rel N' t u.
Proof. intros Hle []; econstructor; eauto using slice_more', caller_more'; lia. Qed.

Lemma read_more log i v l x e : may_read log i v l x -> may_read (e :: log) i v l x.
Proof. intros []; [constructor|]. econstructor; [eassumption|]. right. assumption. Qed.
Lemma read_write log i v l x l' y e : l' <> l -> may_read log i v l' y -> may_read (e :: log) i (write v l x) l' y.
Proof.
  intros Hl []; [|econstructor; [eassumption|right; assumption]]. rewrite <- (write_other v l x l') by auto. constructor.
Qed.
Lemma nth_mid {T} (b : list T) x a i : nth_error (b ++ x :: a) i = if (i =? length b)%nat then Some x else nth_error (b ++ x :: a) i.
Proof. destruct (Nat.eqb_spec i (length b)) as [->|]; [|reflexivity]. rewrite nth_error_app2 by lia. rewrite Nat.sub_diag. reflexivity. Qed.
Lemma nth_off {T} (b : list T) x y a i : i <> length b -> nth_error (b ++ x :: a) i = nth_error (b ++ y :: a) i.
Proof.
  intros Hi. destruct (Nat.lt_ge_cases i (length b)).
  - rewrite !nth_error_app1 by assumption. reflexivity.
  - rewrite !nth_error_app2 by assumption. destruct (i - length b)%nat eqn:e; [lia|reflexivity].
Qed.
Lemma word_dec (l l' : word) : {l = l'} + {l <> l'}.
Proof.
  destruct (word_eqb l l') eqn:e; [left; apply word_eqb_spec, e|right]. intros K. apply word_eqb_spec in K. congruence.
Qed.
Lemma all_same h log n n' b v u u' a : all_see h {| cLog := log; cArrs := n; cThreads := b ++ (v, u) :: a |} ->
  all_see h {| cLog := log; cArrs := n'; cThreads := b ++ (v, u') :: a |}.
Proof.
  intros HS i w z Hi. unfold all_see in HS. cbn [cThreads cLog] in *. rewrite nth_mid in Hi. destruct (Nat.eqb_spec i (length b)) as [->|ne].
  - injection Hi as <- <-. apply (HS (length b) v u). rewrite nth_mid, Nat.eqb_refl. reflexivity.
  - apply (HS i w z). rewrite <- Hi. apply nth_off, ne.
Qed.
Lemma all_write h log n b v u u' a l x : all_see h {| cLog := log; cArrs := n; cThreads := b ++ (v, u) :: a |} ->
  all_see (write h l x) {| cLog := (length b, l, x) :: log; cArrs := n; cThreads := b ++ (write v l x, u') :: a |}.
Proof.
  intros HS i w z Hi l' Hl'. unfold all_see in HS. cbn [cThreads cLog] in *. rewrite nth_mid in Hi. destruct (Nat.eqb_spec i (length b)) as [->|ne].
  - injection Hi as <- <-. destruct (word_dec l' l) as [->|nl].
    + rewrite write_same. replace x with (write v l x l) at 3 by apply write_same. constructor.
    + rewrite (write_other h) by auto. apply read_write; auto. apply (HS (length b) v u); auto. rewrite nth_mid, Nat.eqb_refl. reflexivity.
  - destruct (word_dec l' l) as [->|nl].
    + rewrite write_same. apply (mr_other _ _ _ _ (length b)); [auto|left; reflexivity].
    + rewrite write_other by auto. apply read_more, (HS i w z); auto. rewrite <- Hi. apply nth_off, ne.
Qed.
Lemma all_ext h h' y : (forall l, proper l -> h' l = h l) -> all_see h y -> all_see h' y.
Proof. intros He HS i v u Hi l Hl. rewrite He by exact Hl. apply (HS i v u Hi l Hl). Qed.
Lemma read_held h log n b v u a l : all_see h {| cLog := log; cArrs := n; cThreads := b ++ (v, u) :: a |} -> proper l ->
  may_read log (length b) v l (h l).
Proof. intros HS Hl. apply (HS (length b) v u); [|exact Hl]. cbn [cThreads]. rewrite nth_mid, Nat.eqb_refl. reflexivity. Qed.

Lemma give_rel N c c' w : caller_rel N c c' -> state_rel N (give c w) (wgive c' w).
Proof.
  intros []; cbn [give wgive]; constructor; auto.
  - pose proof FullLut_Z. lia.
  - constructor; auto.
Qed.
Lemma arr_len m a : mem_ok m -> (a < length (mArrs m))%nat -> length (nth a (mArrs m) []) = FullLut.
Proof. intros [HL _] Ha. rewrite Forall_forall in HL. apply HL, nth_In, Ha. Qed.
Lemma hdr_rel m : mem_ok m -> slice_rel (length (mArrs m)) (mHdr m) (held m WPtr) (held m WLen).
Proof.
  intros Hm. cbn [held]. destruct (mHdr m) as [a|] eqn:e; [|constructor].
  assert (Ha : (a < length (mArrs m))%nat) by (destruct Hm as [_ K]; rewrite e in K; exact K).
  cbn [arr]. unfold slen. rewrite (arr_len m a Hm Ha), FullLut_Z. constructor. exact Ha.
Qed.

(** The goroutine in the middle goes on without writing. *)
Lemma sim_same m bs t t' cs log n b v u u' a : length b = length bs ->
  sim (m, bs ++ t :: cs) {| cLog := log; cArrs := n; cThreads := b ++ (v, u) :: a |} -> state_rel (length (mArrs m)) t' u' ->
  sim (m, bs ++ t' :: cs) {| cLog := log; cArrs := n; cThreads := b ++ (v, u') :: a |}.
Proof.
  intros Hl (H1 & H2 & H3 & H4) HR. unfold sim in *. cbn [fst snd cArrs cThreads] in *. split; [exact H1|]. split; [exact H2|]. split; [|eapply all_same; exact H4].
  apply Forall2_app_inv_l in H3. destruct H3 as (b1 & b2 & K1 & K2 & e). pose proof (Forall2_len _ _ _ K1) as L1.
  assert (b = b1 /\ (v, u) :: a = b2) as [-> <-].
  { clear -e L1 Hl. revert b1 bs L1 Hl e. induction b as [|x b IH]; intros [|y b1] [|z bs]; cbn; intros; try discriminate; auto.
    injection e as -> e. destruct (IH b1 bs) as [-> ->]; auto. }
  inversion K2; subst. apply Forall2_app; [exact K1|constructor; auto].
Qed.

(** ... with a new memory. *)
Lemma sim_new m m' bs t t' cs log log' n n' b v v' u u' a : length b = length bs ->
  sim (m, bs ++ t :: cs) {| cLog := log; cArrs := n; cThreads := b ++ (v, u) :: a |} -> state_rel (length (mArrs m')) t' u' ->
  (length (mArrs m) <= length (mArrs m'))%nat -> n' = Z.of_nat (length (mArrs m')) -> mem_ok m' ->
  all_see (held m') {| cLog := log'; cArrs := n'; cThreads := b ++ (v', u') :: a |} ->
  sim (m', bs ++ t' :: cs) {| cLog := log'; cArrs := n'; cThreads := b ++ (v', u') :: a |}.
Proof.
  intros Hl (H1 & H2 & H3 & H4) HR Hle Hn Hm HS. unfold sim in *. cbn [fst snd cArrs cThreads] in *. split; [exact Hm|]. split; [exact Hn|]. split; [|exact HS].
  apply Forall2_app_inv_l in H3. destruct H3 as (b1 & b2 & K1 & K2 & e). pose proof (Forall2_len _ _ _ K1) as L1.
  assert (b = b1 /\ (v, u) :: a = b2) as [-> <-].
  { clear -e L1 Hl. revert b1 bs L1 Hl e. induction b as [|x b IH]; intros [|y b1] [|z bs]; cbn; intros; try discriminate; auto.
    injection e as -> e. destruct (IH b1 bs) as [-> ->]; auto. }
  inversion K2; subst. apply Forall2_app; [eapply Forall2_keep; [|exact K1]|constructor; [exact HR|eapply Forall2_keep; [|eassumption]]];
    intros t0 u0; apply state_more'; exact Hle.
Qed.

Lemma sim_step m bs t cs m' t' y : sim (m, bs ++ t :: cs) y -> lstep m t = Some (m', t') -> exists y', wexec y y' /\ sim (m', bs ++ t' :: cs) y'.
Proof.
  intros HS HL. destruct y as [log n ys]. pose proof HS as HS'. destruct HS' as (Hm & Hn & HT & HA). cbn [fst snd cArrs cThreads] in *.
  apply Forall2_app_inv_l in HT. destruct HT as (b & ys2 & K1 & K2 & ->). inversion K2 as [|t0 vu ts0 a KR K3]; subst.
  destruct vu as [v u]. cbn [snd] in KR. assert (Lb : length b = length bs) by (symmetry; eapply Forall2_len; exact K1). clear K1 K2 K3.
  assert (RH : forall u', all_see (held m) {| cLog := log; cArrs := Z.of_nat (length (mArrs m)); cThreads := b ++ (v, u') :: a |}) by (intros u'; eapply all_same; exact HA).
  assert (RD : forall l u', proper l -> may_read log (length b) v l (held m l)) by (intros l u' Hl; eapply (read_held _ _ _ _ _ u'); [apply RH|exact Hl]).
  pose proof lutLen_is as HN. pose proof FullLut_Z as FZ.
  (* one local step or one read, the memory staying *)
  assert (LOC : forall u' t1, wact u = WLocal u' -> m' = m -> t' = t1 -> state_rel (length (mArrs m)) t1 u' -> exists y', wexec {| cLog := log; cArrs := Z.of_nat (length (mArrs m)); cThreads := b ++ (v, u) :: a |} y' /\ sim (m', bs ++ t' :: cs) y').
  { intros u' t1 Ha -> -> HR. eexists. split; [apply wexec_one, ws_local, Ha|]. eapply sim_same; eauto. }
  assert (READ : forall l g t1, wact u = WRead l g -> proper l -> m' = m -> t' = t1 -> state_rel (length (mArrs m)) t1 (g (held m l)) -> exists y', wexec {| cLog := log; cArrs := Z.of_nat (length (mArrs m)); cThreads := b ++ (v, u) :: a |} y' /\ sim (m', bs ++ t' :: cs) y').
  { intros l g t1 Ha Hl -> -> HR. eexists. split; [eapply wexec_one, ws_read; [exact Ha|apply (RD l u), Hl]|]. eapply sim_same; eauto. }
  destruct KR as [[x|r k|k|k|bb k|bb k]|r c c' Hr HC|r c c' Hr HC|r d c c' Hr Hd HC|r c|r c c' Hr HC|r ea c c' Hr HC|k|k|lut q nn k HSl|lut q nn k HSl|k|lut q nn i k HSl|d i x0 x1 k Hd Hi|lut q nn k HSl|]; cbn [lstep] in HL;
    try match type of HL with None = _ => discriminate HL end.
  - apply some_pair in HL; destruct HL as [-> ->]. eapply LOC; [reflexivity..|]. unfold ask, wask. destruct ((r <? 0) || (r >? 0x10FFFF)) eqn:Er; cbn [give wgive]; constructor; [lia|constructor].
  - apply some_pair in HL; destruct HL as [-> ->]. eapply LOC; [reflexivity..|]. constructor.
  - apply some_pair in HL; destruct HL as [-> ->]. eapply LOC; [reflexivity..|]. constructor.
  - apply some_pair in HL; destruct HL as [-> ->]. eexists. split; [apply wexec_one, ws_write; reflexivity|].
    eapply sim_new; [exact Lb|exact HS|constructor|cbn; lia|reflexivity|exact Hm|]. cbn [mArrs].
    eapply all_ext; [|exact (all_write _ _ _ _ _ WDied _ _ _ _ (RH WDied))]. intros l Hl. destruct l; reflexivity.
  - apply some_pair in HL; destruct HL as [-> ->]. eexists. split; [apply wexec_one, ws_write; reflexivity|].
    eapply sim_new; [exact Lb|exact HS|constructor|cbn; lia|reflexivity|exact Hm|]. cbn [mArrs].
    eapply all_ext; [|exact (all_write _ _ _ _ _ WDied _ _ _ _ (RH WDied))]. intros l Hl. destruct l; reflexivity.
  - apply some_pair in HL; destruct HL as [-> ->]. eapply (READ WLen); [reflexivity|exact Logic.I|reflexivity|reflexivity|]. cbv beta. cbn [held].
    destruct (0 <? slen (arr m (mHdr m))); constructor; auto.
  - apply some_pair in HL; destruct HL as [-> ->]. pose proof (hdr_rel m Hm) as HH. inversion HH as [e1 e2 e3|d Hd e1 e2 e3].
    + eexists. split.
      * eapply we_step; [eapply we_step; [apply we_refl|]|].
        -- eapply ws_read; [reflexivity|apply (RD WPtr WDied), Logic.I].
        -- eapply ws_read; [reflexivity|apply (RD WLen WDied), Logic.I].
      * cbv beta. change (held m WLen) with (slen (arr m (mHdr m))). rewrite <- e3. rewrite shiftr1. replace (r / 2 <? 0) with false by lia. eapply sim_same; [exact Lb|exact HS|]. constructor.
    + eexists. split.
      * eapply we_step; [eapply we_step; [apply we_refl|]|].
        -- eapply ws_read; [reflexivity|apply (RD WPtr WDied), Logic.I].
        -- eapply ws_read; [reflexivity|apply (RD WLen WDied), Logic.I].
      * cbv beta. change (held m WLen) with (slen (arr m (mHdr m))). rewrite <- e3. rewrite shiftr1. replace (r / 2 <? lutLen) with true by lia. eapply sim_same; [exact Lb|exact HS|].
        cbn [held]. rewrite <- e2. constructor; auto.
  - cbn [arr] in HL. pose proof (arr_len m d Hm Hd) as LA. rewrite index_some in HL by (rewrite shiftr1; unfold slen; rewrite LA; lia). apply some_pair in HL; destruct HL as [-> ->].
    eapply (READ (WElem (Z.of_nat d + 1) (Z.shiftr r 1))); [cbn [wact]; replace (Z.of_nat d + 1 =? 0) with false by lia; reflexivity|cbn [proper]; rewrite shiftr1; lia|reflexivity|reflexivity|].
    cbv beta. cbn [held]. replace (Z.to_nat (Z.of_nat d + 1 - 1)) with d by lia. apply give_rel, HC.
  - assert (HI : at_index (arr m None) (Z.shiftr r 1) = None).
    { cbn [arr]. unfold at_index. destruct (Z.shiftr r 1 <? 0); [reflexivity|]. destruct (Z.to_nat (Z.shiftr r 1)); reflexivity. }
    rewrite HI in HL. apply some_pair in HL. destruct HL as [-> ->].
    exists {| cLog := log; cArrs := Z.of_nat (length (mArrs m)); cThreads := b ++ (v, WDied) :: a |}.
    split; [apply we_refl|]. eapply sim_same; [exact Lb|exact HS|constructor].
  - apply some_pair in HL; destruct HL as [-> ->]. eapply (READ WEA); [reflexivity|exact Logic.I|reflexivity|reflexivity|]. cbv beta. cbn [held]. constructor; auto.
  - apply some_pair in HL; destruct HL as [-> ->]. eapply (READ WStrict); [reflexivity|exact Logic.I|reflexivity|reflexivity|]. cbv beta. cbn [held]. rewrite !of_bool_eq. apply give_rel, HC.
  - apply some_pair in HL; destruct HL as [-> ->]. eapply (READ WLen); [reflexivity|exact Logic.I|reflexivity|reflexivity|]. cbv beta. cbn [held].
    destruct (0 <? slen (arr m (mHdr m))); constructor; auto.
  - apply some_pair in HL; destruct HL as [-> ->]. eexists. split.
    + eapply we_step; [eapply we_step; [apply we_refl|]|].
      * eapply ws_read; [reflexivity|apply (RD WPtr WDied), Logic.I].
      * eapply ws_read; [reflexivity|apply (RD WLen WDied), Logic.I].
    + cbv beta. eapply sim_same; [exact Lb|exact HS|]. constructor. apply hdr_rel, Hm.
  - apply some_pair in HL; destruct HL as [-> ->]. eapply (READ WLen); [reflexivity|exact Logic.I|reflexivity|reflexivity|]. cbv beta. cbn [held].
    destruct (negb (slen (arr m (mHdr m)) =? 0)); constructor; auto.
  - apply some_pair in HL; destruct HL as [-> ->]. eexists. split.
    + eapply we_step; [eapply we_step; [apply we_refl|]|]; eapply ws_write; reflexivity.
    + eapply sim_new; [exact Lb|exact HS| |cbn; lia|reflexivity| |].
      * apply (sr_loop _ lut q nn 0 k). exact HSl.
      * split; [apply Hm|exact Logic.I].
      * eapply all_ext; [|exact (all_write _ _ _ _ _ WDied _ _ _ _ (all_write _ _ _ _ _ WDied WDied _ _ _ (RH WDied)))]. intros l Hl. destruct l; reflexivity.
  - apply some_pair in HL; destruct HL as [-> ->]. eexists. split; [eapply wexec_one, ws_alloc; reflexivity|].
    cbv beta. eapply sim_new; [exact Lb|exact HS| | | | |].
    + replace (Z.of_nat (length (mArrs m)) + 1) with (Z.of_nat (length (mArrs m)) + 1) by reflexivity.
      apply (sr_loop _ (Some (length (mArrs m))) _ _ 0). constructor. cbn [mArrs]. rewrite app_length. cbn. lia.
    + cbn [mArrs]. rewrite app_length. lia.
    + cbn [mArrs]. rewrite app_length. cbn [length]. lia.
    + destruct Hm as [Hm1 Hm2]. split; cbn [mArrs mHdr].
      * apply Forall_app. split; [exact Hm1|apply new_lut_len].
      * destruct (mHdr m); [rewrite app_length; lia|exact Logic.I].
    + eapply all_ext; [|eapply all_same, HA]. intros l Hl. destruct l as [| |d i| |]; try reflexivity.
      * cbn [held mHdr arr mArrs]. destruct (mHdr m) as [d|] eqn:e; [|reflexivity]. cbn [arr mArrs]. rewrite app_nth1; [reflexivity|].
        destruct Hm as [_ Hm]. rewrite e in Hm. exact Hm.
      * cbn [held mArrs]. destruct (Nat.lt_ge_cases (Z.to_nat (d - 1)) (length (mArrs m))) as [?|ge].
        -- rewrite app_nth1 by assumption. reflexivity.
        -- rewrite (nth_overflow (mArrs m)) by assumption. rewrite app_nth2 by assumption.
           destruct (Z.to_nat (d - 1) - length (mArrs m))%nat as [|[|?]]; cbn [nth]; [rewrite nth_new_lut; destruct (Z.to_nat i); reflexivity|reflexivity..].
  - apply some_pair in HL; destruct HL as [-> ->]. eapply LOC; [reflexivity..|]. inversion HSl as [|d Hd]; subst.
    + cbn [arr length]. replace (Z.of_nat i <? 0) with false by lia. destruct i; cbn [Nat.ltb Nat.leb]; constructor; constructor.
    + cbn [arr]. rewrite (arr_len m d Hm Hd). destruct (Nat.ltb_spec i FullLut).
      * replace (Z.of_nat i <? lutLen) with true by lia. constructor; [lia|constructor; auto].
      * replace (Z.of_nat i <? lutLen) with false by lia. constructor. exact HSl.
  - apply some_pair in HL; destruct HL as [-> ->]. eexists. split; [apply wexec_one, ws_write; cbn [wact]; replace (Z.of_nat d + 1 =? 0) with false by lia; reflexivity|].
    pose proof (arr_len m d Hm Hd) as LA.
    assert (Lset : length (mArrs (set_elem m (Some d) i (Z.lor (u8 x0) (u8 (Z.shiftl (u8 x1) 4))))) = length (mArrs m)) by (cbn [set_elem mArrs]; apply set_nth_length).
    eapply sim_new; [exact Lb|exact HS| |rewrite Lset; lia|rewrite Lset; reflexivity| |].
    + replace (Z.of_nat i + 1) with (Z.of_nat (Datatypes.S i)) by lia. constructor. constructor. rewrite Lset. exact Hd.
    + destruct Hm as [Hm1 Hm2]. split; cbn [set_elem mArrs mHdr].
      * apply Forall_set_nth; [exact Hm1|]. rewrite set_nth_length. exact LA.
      * destruct (mHdr m); [rewrite set_nth_length|]; exact Hm2.
    + eapply all_ext; [|exact (all_write _ _ _ _ _ WDied _ _ _ _ (RH WDied))]. intros l Hl. destruct l as [| |d' i'| |]; try reflexivity.
      * cbn [held set_elem mHdr]. change (write (held m) (WElem (Z.of_nat d + 1) (Z.of_nat i)) (Z.lor (u8 x0) (u8 (Z.shiftl (u8 x1) 4))) WLen) with (held m WLen). cbn [held].
        destruct (mHdr m) as [e|] eqn:He; [|reflexivity]. cbn [arr mArrs]. unfold slen. rewrite nth_set_nth.
        match goal with |- context [(Nat.eqb d e && ?x)%bool] => destruct (Nat.eqb d e && x)%bool eqn:ee end; [|reflexivity]. rewrite set_nth_length. apply andb_true_iff in ee. destruct ee as [ee _]. apply Nat.eqb_eq in ee. subst e. reflexivity.
      * cbn [proper] in Hl. destruct (word_dec (WElem d' i') (WElem (Z.of_nat d + 1) (Z.of_nat i))) as [e|ne].
        -- rewrite e, write_same. cbn [held set_elem mArrs]. replace (Z.to_nat (Z.of_nat d + 1 - 1)) with d by lia. rewrite Nat2Z.id.
           rewrite nth_set_nth, Nat.eqb_refl. replace (d <? length (mArrs m))%nat with true by lia. cbn [andb]. rewrite nth_set_nth, Nat.eqb_refl, LA.
           replace (i <? FullLut)%nat with true by lia. reflexivity.
        -- rewrite write_other by auto. cbn [held set_elem mArrs]. rewrite nth_set_nth. match goal with |- context [(Nat.eqb d ?y && ?x)%bool] => destruct (Nat.eqb d y && x)%bool eqn:ee end; [|reflexivity].
           apply andb_true_iff in ee. destruct ee as [ee _]. apply Nat.eqb_eq in ee. rewrite nth_set_nth.
           match goal with |- context [(Nat.eqb i ?y && ?x)%bool] => destruct (Nat.eqb i y && x)%bool eqn:e2 end; [|rewrite ee; reflexivity].
           apply andb_true_iff in e2. destruct e2 as [e2 _]. apply Nat.eqb_eq in e2. exfalso. apply ne. f_equal; lia.
  - apply some_pair in HL; destruct HL as [-> ->]. eexists. split.
    + eapply we_step; [eapply we_step; [apply we_refl|]|]; eapply ws_write; reflexivity.
    + eapply sim_new; [exact Lb|exact HS|constructor|cbn; lia|reflexivity| |].
      * destruct Hm as [Hm1 Hm2]. split; [exact Hm1|]. cbn [set_hdr mHdr]. inversion HSl; auto.
      * eapply all_ext; [|exact (all_write _ _ _ _ _ WDied _ _ _ _ (all_write _ _ _ _ _ WDied WDied _ _ _ (RH WDied)))]. intros l Hl. inversion HSl as [|d Hd]; subst; destruct l; try reflexivity.
        cbn [held set_hdr mHdr arr mArrs]. rewrite write_same. unfold slen. cbn [arr mArrs]. rewrite (arr_len m d Hm Hd). lia.
Qed.

Lemma sim_exec x y x' : sim x y -> lexec x x' -> exists y', wexec y y' /\ sim x' y'.
Proof.
  intros HS X. induction X as [x|x m bs t cs m' t' X IH HL]; [exists y; split; [apply we_refl|exact HS]|].
  destruct (IH HS) as (y1 & X1 & S1). destruct (sim_step _ _ _ _ _ _ _ S1 HL) as (y2 & X2 & S2).
  exists y2. split; [eapply wexec_trans; eauto|exact S2].
Qed.
Lemma sim_start c ps : Reachable c -> sim (mem_of c, map AtProg ps) (wstart c ps).
Proof.
  intros Hc. unfold sim. cbn [fst snd wstart cArrs cThreads]. split; [|split; [|split]].
  - pose proof (Reachable_lut c Hc) as HL. unfold mem_ok, mem_of. destruct (combinedLut c); cbn [mArrs mHdr length]; [auto|]. split; [|lia].
    constructor; [|constructor]. destruct HL; [discriminate|assumption].
  - unfold mem_of. destruct (combinedLut c); reflexivity.
  - induction ps as [|p ps IH]; cbn [map]; constructor; [constructor|exact IH].
  - intros i v u Hi l Hl. cbn [wstart cThreads cLog] in *. apply nth_error_In, in_map_iff in Hi. destruct Hi as (p & e & _). injection e as <- <-.
    replace (held (mem_of c) l) with (view_of c l); [constructor|]. unfold mem_of. destruct l as [| |a i'| |]; cbn [held view_of mEA mStrict mHdr mArrs]; try reflexivity.
    + destruct (combinedLut c); reflexivity.
    + destruct (combinedLut c); reflexivity.
    + cbn [proper] in Hl. destruct (Z.eqb_spec a 1) as [->|ne].
      * cbn [Z.sub Z.to_nat]. destruct (combinedLut c); [destruct (Z.to_nat i')|]; reflexivity.
      * destruct (combinedLut c); [|destruct (Z.to_nat (a - 1)) as [|[|?]] eqn:e; [lia|..]]; cbn [nth]; destruct (Z.to_nat i'); try reflexivity; destruct (Z.to_nat (a - 1)); reflexivity.
Qed.
Lemma contained c (ps : list (lprog A)) m ts : Reachable c -> lexec (mem_of c, map AtProg ps) (m, ts) ->
  exists y, wexec (wstart c ps) y /\ length (cThreads y) = length ts /\
    forall i, (forall p, nth_error ts i = Some (AtProg p) -> exists v, nth_error (cThreads y) i = Some (v, WAt p))
           /\ (nth_error ts i = Some Died -> exists v, nth_error (cThreads y) i = Some (v, WDied)).
Proof.
  intros Hc X. destruct (sim_exec _ _ _ (sim_start c ps Hc) X) as (y & Y & (_ & _ & HT & _)). exists y. split; [exact Y|]. cbn [snd] in HT.
  split; [symmetry; eapply Forall2_len; exact HT|]. clear X Y. intros i. cbn [fst] in HT. generalize dependent (length (mArrs m)). intros N HT. revert i.
  induction HT as [|t [v u] ts us TU HT IH]; intros [|i]; cbn [nth_error]; try (split; [intros p|]; discriminate); [|apply IH].
  cbn [snd] in TU. split; [intros p e|intros e]; injection e as ->; inversion TU; subst; exists v; reflexivity.
Qed.
End Contained.
