(** * LruProofs: which widths are computed. *)
From Coq Require Import ZifyBool ZifyNat.
From Verif Require Import GoBase Runewidth Width ConditionSpec WidthProofs Table Merge Cached CachedSpec CachedProofs Lru LruSpec.
Local Open Scope Z_scope.

(** ** Recency *)
Definition without (s : str) (l : list str) : list str := filter (fun x => negb (str_eqb s x)) l.
Fixpoint recency (h : list str) : list str :=
  match h with
  | [] => []
  | s :: h => s :: without s (recency h)
  end.

Lemma eqb_iff a b : str_eqb a b = true <-> a = b.
Proof. unfold str_eqb. destruct (str_eq_dec a b); split; congruence. Qed.
Lemma eqb_refl a : str_eqb a a = true.
Proof. apply eqb_iff. reflexivity. Qed.
Lemma without_in s l x : In x (without s l) <-> In x l /\ x <> s.
Proof.
  unfold without. rewrite filter_In. destruct (str_eqb s x) eqn:B; cbn [negb].
  - apply eqb_iff in B. subst. intuition congruence.
  - assert (s <> x) by (intros K; apply eqb_iff in K; congruence). intuition congruence.
Qed.
Lemma without_not s l : ~ In s l -> without s l = l.
Proof.
  induction l as [|x l IH]; intros H; [reflexivity|]. cbn. destruct (str_eqb s x) eqn:B.
  - apply eqb_iff in B. subst. exfalso. apply H. left. reflexivity.
  - cbn. f_equal. apply IH. intros K. apply H. right. exact K.
Qed.
Lemma without_nodup s l : NoDup l -> NoDup (without s l).
Proof. apply NoDup_filter. Qed.
Lemma recency_in h x : In x (recency h) <-> In x h.
Proof.
  induction h as [|s h IH]; [reflexivity|]. cbn [recency In]. rewrite without_in, IH. destruct (str_eq_dec x s); intuition congruence.
Qed.
Lemma recency_nodup h : NoDup (recency h).
Proof.
  induction h as [|s h IH]; [constructor|]. cbn. constructor; [|apply without_nodup; exact IH].
  intros K. apply without_in in K. tauto.
Qed.

Lemma same_length (a b : list str) : NoDup a -> NoDup b -> (forall x, In x a <-> In x b) -> length a = length b.
Proof.
  intros Ha Hb H. pose proof (NoDup_incl_length (l := a) (l' := b) Ha ltac:(intros x; apply H)).
  pose proof (NoDup_incl_length (l := b) (l' := a) Hb ltac:(intros x; apply H)). lia.
Qed.
Lemma distinct_recency h : distinct h = length (recency h).
Proof.
  unfold distinct. apply same_length; [apply NoDup_nodup|apply recency_nodup|]. intros x. rewrite nodup_In, recency_in. reflexivity.
Qed.
Lemma distinct_same a b : (forall x, In x a <-> In x b) -> distinct a = distinct b.
Proof.
  intros H. unfold distinct. apply same_length; [apply NoDup_nodup|apply NoDup_nodup|]. intros x. rewrite !nodup_In. apply H.
Qed.
Lemma distinct_incl (a b : list str) : incl a b -> (distinct a <= distinct b)%nat.
Proof.
  intros H. unfold distinct. apply NoDup_incl_length; [apply NoDup_nodup|]. intros x. rewrite !nodup_In. apply H.
Qed.
Lemma distinct_cons s l : distinct (s :: l) = S (distinct (without s l)).
Proof.
  change (S (distinct (without s l))) with (length (s :: nodup str_eq_dec (without s l))). unfold distinct.
  apply same_length; [apply NoDup_nodup| |].
  - constructor; [|apply NoDup_nodup]. rewrite nodup_In, without_in. tauto.
  - intros x. rewrite nodup_In. cbn [In]. rewrite nodup_In, without_in. destruct (str_eq_dec x s); intuition congruence.
Qed.
Lemma distinct_nodup l : NoDup l -> distinct l = length l.
Proof. intros H. unfold distinct. f_equal. apply nodup_fixed_point. exact H. Qed.

Lemma firstn_without s n : forall r, NoDup r -> firstn n (without s (firstn (S n) r)) = firstn n (without s r).
Proof.
  induction n as [|n IH]; intros r Hr; [reflexivity|]. destruct r as [|x r]; [reflexivity|].
  inversion Hr as [|? ? H1 H2]; subst. change (firstn (S (S n)) (x :: r)) with (x :: firstn (S n) r).
  unfold without. cbn [filter]. destruct (str_eqb s x) eqn:B; cbn [negb].
  - apply eqb_iff in B. subst x. fold (without s r). fold (without s (firstn (S n) r)).
    rewrite (without_not s r H1). rewrite without_not; [rewrite firstn_firstn; f_equal; lia|].
    intros K. apply H1. rewrite <- (firstn_skipn (S n) r). apply in_or_app. left. exact K.
  - fold (without s r). fold (without s (firstn (S n) r)). cbn [firstn]. f_equal. apply IH. exact H2.
Qed.

(** Where a text stands: behind those asked for since. *)
Lemma recency_app a b : recency (a ++ b) = recency a ++ filter (fun x => negb (existsb (str_eqb x) a)) (recency b).
Proof.
  induction a as [|s a IH]; cbn [app recency existsb].
  - cbn. symmetry. induction (recency b) as [|x l IH]; [reflexivity|]. cbn. f_equal. exact IH.
  - f_equal. rewrite IH. unfold without. rewrite filter_app. f_equal.
    clear IH. induction (recency b) as [|x l IHl]; [reflexivity|]. cbn [filter].
    assert (C : str_eqb s x = str_eqb x s).
    { unfold str_eqb. destruct (str_eq_dec s x), (str_eq_dec x s); congruence. }
    destruct (existsb (str_eqb x) a) eqn:B; cbn [negb].
    + rewrite orb_true_r. exact IHl.
    + rewrite orb_false_r. cbn [filter]. rewrite C. destruct (str_eqb x s); cbn [negb]; [exact IHl|f_equal; exact IHl].
Qed.

Lemma found_iff cap h s : In s (firstn cap (recency h)) <->
  exists since earlier, h = since ++ s :: earlier /\ ~ In s since /\ (distinct since < cap)%nat.
Proof.
  assert (P : forall since earlier, ~ In s since ->
    (In s (firstn cap (recency (since ++ s :: earlier))) <-> (distinct since < cap)%nat)).
  { intros since earlier Hs. rewrite recency_app, distinct_recency. cbn [recency filter].
    assert (B : existsb (str_eqb s) since = false).
    { destruct (existsb (str_eqb s) since) eqn:B; [|reflexivity]. apply existsb_exists in B. destruct B as (x & H1 & H2).
      apply eqb_iff in H2. subst. contradiction. }
    rewrite B. cbn [negb].
    assert (N : ~ In s (recency since)) by (rewrite recency_in; exact Hs).
    rewrite firstn_app. split.
    - intros K. apply in_app_or in K. destruct K as [K|K].
      + exfalso. apply N. rewrite <- (firstn_skipn cap (recency since)). apply in_or_app. left. exact K.
      + destruct (cap - length (recency since))%nat eqn:D; [destruct K|lia].
    - intros K. apply in_or_app. right. destruct (cap - length (recency since))%nat eqn:D; [lia|]. left. reflexivity. }
  split.
  - intros K. assert (Hin : In s h).
    { apply recency_in. rewrite <- (firstn_skipn cap (recency h)). apply in_or_app. left. exact K. }
    assert (Q : exists since earlier, h = since ++ s :: earlier /\ ~ In s since).
    { clear - Hin. induction h as [|x h IH]; [destruct Hin|]. destruct (str_eq_dec x s) as [->|N].
      - exists [], h. auto.
      - destruct Hin as [K|K]; [congruence|]. destruct (IH K) as (a & b & -> & Ha). exists (x :: a), b. split; [reflexivity|].
        intros [Q|Q]; [congruence|contradiction]. }
    destruct Q as (since & earlier & -> & Hs). exists since, earlier. split; [reflexivity|]. split; [exact Hs|]. apply (P since earlier Hs). exact K.
  - intros (since & earlier & -> & Hs & Hd). apply P; auto.
Qed.

Lemma nodup_firstn (l : list str) n : NoDup l -> NoDup (firstn n l).
Proof.
  intros H. revert n. induction H as [|x l Hx _ IH]; intros [|n]; cbn; try constructor; auto.
  intros K. apply Hx. rewrite <- (firstn_skipn n l). apply in_or_app. left. exact K.
Qed.
Lemma in_split_first (h : list str) s : In s h -> exists since earlier, h = since ++ s :: earlier /\ ~ In s since.
Proof.
  intros Hin. induction h as [|x h IH]; [destruct Hin|]. destruct (str_eq_dec x s) as [->|N].
  - exists [], h. auto.
  - destruct Hin as [K|K]; [congruence|]. destruct (IH K) as (a & b & -> & Ha). exists (x :: a), b. split; [reflexivity|].
    intros [Q|Q]; [congruence|contradiction].
Qed.

(** ** The cache holds the most recent texts with their widths *)
Record Holding (cap : nat) (c : Condition) (h : list str) (m : entries) : Prop := {
  ho_keys : map fst m = firstn cap (recency h);
  ho_vals : Forall (fun e => snd e = vwidth c (fst e)) m
}.

Lemma drop_keys k m : map fst (dropKey k m) = without k (map fst m).
Proof.
  induction m as [|[x v] m IH]; [reflexivity|]. cbn [dropKey filter map fst without]. destruct (str_eqb k x); cbn [negb]; [exact IH|].
  cbn [map fst]. f_equal. exact IH.
Qed.
Lemma drop_vals c k m : Forall (fun e : str * Z => snd e = vwidth c (fst e)) m -> Forall (fun e => snd e = vwidth c (fst e)) (dropKey k m).
Proof.
  intros H. rewrite Forall_forall in *. intros e He. apply H. apply filter_In in He. tauto.
Qed.
Lemma lookup_none m k : ~ In k (map fst m) -> lookup m k = None.
Proof.
  induction m as [|[x v] m IH]; intros H; [reflexivity|]. cbn. destruct (str_eqb k x) eqn:B.
  - apply eqb_iff in B. subst. exfalso. apply H. left. reflexivity.
  - apply IH. intros K. apply H. right. exact K.
Qed.
Lemma lookup_some c m k : Forall (fun e => snd e = vwidth c (fst e)) m -> In k (map fst m) -> lookup m k = Some (vwidth c k).
Proof.
  induction 1 as [|[x v] m Hv _ IH]; intros H; [destruct H|]. cbn. destruct (str_eqb k x) eqn:B.
  - apply eqb_iff in B. subst. cbn in Hv. congruence.
  - destruct H as [K|K]; [cbn in K; subst; rewrite eqb_refl in B; discriminate|]. auto.
Qed.

Lemma vwidth_nonneg c s : 0 <= vwidth c s.
Proof. unfold vwidth, u16. pose proof (Z.mod_pos_bound (rawWidth c s) 65536). lia. Qed.

Lemma front cap h s : (1 <= cap)%nat -> firstn cap (s :: without s (firstn cap (recency h))) = firstn cap (recency (s :: h)).
Proof.
  intros Hc. destruct cap as [|n]; [lia|]. cbn [recency firstn]. f_equal. fold (firstn (S n) (recency h)).
  apply (firstn_without s n (recency h) (recency_nodup h)).
Qed.

Lemma keys_in_front cap (h : list str) s : In s (firstn cap (recency h)) ->
  s :: without s (firstn cap (recency h)) = firstn cap (recency (s :: h)).
Proof.
  intros Hin. destruct cap as [|n]; [destruct Hin|]. cbn [recency]. change (firstn (S n) (s :: without s (recency h))) with (s :: firstn n (without s (recency h))).
  f_equal. rewrite <- (firstn_without s n) by apply recency_nodup. symmetry. apply firstn_all2.
  assert (L : (S (length (without s (firstn (S n) (recency h)))) <= S n)%nat); [|lia].
  assert (N : NoDup (firstn (S n) (recency h))).
  { apply nodup_firstn, recency_nodup. }
  pose proof (NoDup_incl_length (l := s :: without s (firstn (S n) (recency h))) (l' := firstn (S n) (recency h))) as K.
  rewrite firstn_length in K. cbn [length] in K.
  assert (Q : (S (length (without s (firstn (S n) (recency h)))) <= Nat.min (S n) (length (recency h)))%nat); [|lia].
  apply K.
  - constructor; [|apply without_nodup; exact N]. rewrite without_in. tauto.
  - intros x [<-|Hx]; [exact Hin|]. apply without_in in Hx. tauto.
Qed.

Lemma visualWidthL_step cap c h m s : (1 <= cap)%nat -> Holding cap c h m -> exists b m',
  visualWidthL cap c m s = (vwidth c s, b, m') /\ Holding cap c (s :: h) m' /\ (b = true <-> Computed cap c h s).
Proof.
  intros Hcap [Hk Hv]. pose proof (vwidth_nonneg c s) as Hp. unfold visualWidthL, lruGet.
  destruct (in_dec str_eq_dec s (map fst m)) as [I|I].
  - rewrite (lookup_some c) by auto. destruct (Z.gtb_spec (vwidth c s) 0) as [G|G].
    + exists false. eexists. split; [reflexivity|]. split.
      * split; [|constructor; [reflexivity|apply drop_vals; auto]]. cbn [map fst]. rewrite drop_keys, Hk. rewrite Hk in I.
        apply keys_in_front. exact I.
      * split; [discriminate|]. rewrite Hk in I. intros [K|[K|(since & earlier & E1 & K1 & K2)]]; [lia| |]; exfalso.
        -- apply found_iff in I. destruct I as (a & b & -> & _ & _). apply K. apply in_or_app. right. left. reflexivity.
        -- apply found_iff in I. destruct I as (a & b & E2 & Ha & Hd).
           assert (a = since); [|subst; lia]. rewrite E1 in E2. clear - E2 Ha K1. revert a Ha E2.
           induction since as [|x since IH]; intros [|y a] Ha E2; cbn in E2; try reflexivity.
           ++ injection E2 as <- _. exfalso. apply Ha. left. reflexivity.
           ++ injection E2 as -> _. exfalso. apply K1. left. reflexivity.
           ++ injection E2 as -> E2. f_equal. apply IH; auto. intros Q. apply K1. right. exact Q. intros Q. apply Ha. right. exact Q.
    + assert (Z0 : vwidth c s = 0) by lia. rewrite Z0. exists true. eexists. split; [reflexivity|]. split; [|split; [left; exact Z0|reflexivity]].
      unfold lruSet. split.
      * rewrite <- firstn_map. cbn [map fst]. rewrite drop_keys. cbn [map fst]. rewrite drop_keys, Hk.
        unfold without at 1. cbn [filter]. rewrite eqb_refl. cbn [negb]. fold (without s (without s (firstn cap (recency h)))).
        rewrite (without_not s (without s _)) by (rewrite without_in; tauto). apply front. exact Hcap.
      * assert (F : Forall (fun e : str * Z => snd e = vwidth c (fst e)) ((s, 0) :: dropKey s ((s, 0) :: dropKey s m))).
        { constructor; [cbn; congruence|]. apply drop_vals. constructor; [cbn; congruence|]. apply drop_vals. exact Hv. }
        rewrite Forall_forall in *. intros e He. apply F. rewrite <- (firstn_skipn cap). apply in_or_app. left. exact He.
  - rewrite (lookup_none m s I). cbn [Z.gtb Z.compare]. exists true. eexists. split; [reflexivity|]. split.
    + unfold lruSet. split.
      * rewrite <- firstn_map. cbn [map fst]. rewrite drop_keys, Hk. apply front. exact Hcap.
      * assert (F : Forall (fun e : str * Z => snd e = vwidth c (fst e)) ((s, vwidth c s) :: dropKey s m)).
        { constructor; [reflexivity|]. apply drop_vals. exact Hv. }
        rewrite Forall_forall in *. intros e He. apply F. rewrite <- (firstn_skipn cap). apply in_or_app. left. exact He.
    + split; [|reflexivity]. intros _. rewrite Hk in I. destruct (in_dec str_eq_dec s h) as [Hin|Hin]; [|right; left; exact Hin].
      right. right. destruct (in_split_first h s Hin) as (since & earlier & -> & Hs).
      exists since, earlier. split; [reflexivity|]. split; [exact Hs|].
      destruct (le_lt_dec cap (distinct since)); [auto|]. exfalso. apply I. apply found_iff. eauto.
Qed.

(** ** Sequences of calls *)
Lemma holding_nil cap c : Holding cap c [] [].
Proof. split; [destruct cap; reflexivity|constructor]. Qed.

Lemma measure_widths cap c : (1 <= cap)%nat -> forall l h m, Holding cap c h m ->
  map fst (measureAll cap c m l) = map (vwidth c) l.
Proof.
  intros Hcap. induction l as [|s l IH]; intros h m Hm; [reflexivity|]. cbn [measureAll].
  destruct (visualWidthL_step cap c h m s Hcap Hm) as (b & m' & -> & Hm' & _). cbn [map fst]. f_equal. eapply IH; eauto.
Qed.

Lemma measure_at cap c : (1 <= cap)%nat -> forall pre s post h m, Holding cap c h m -> exists b,
  nth_error (measureAll cap c m (pre ++ s :: post)) (length pre) = Some (vwidth c s, b)
  /\ (b = true <-> Computed cap c (rev pre ++ h) s).
Proof.
  intros Hcap. induction pre as [|x pre IH]; intros s post h m Hm; cbn [app measureAll length rev].
  - destruct (visualWidthL_step cap c h m s Hcap Hm) as (b & m' & -> & _ & Hb). exists b. auto.
  - destruct (visualWidthL_step cap c h m x Hcap Hm) as (b & m' & -> & Hm' & _).
    destruct (IH s post (x :: h) m' Hm') as (b' & H1 & H2). exists b'. split; [exact H1|]. rewrite <- app_assoc. exact H2.
Qed.

Lemma exactly cap c pre s post : (1 <= cap)%nat -> exists b,
  nth_error (measureAll cap c [] (pre ++ s :: post)) (length pre) = Some (vwidth c s, b)
  /\ (b = true <-> Computed cap c (rev pre) s).
Proof.
  intros Hcap. destruct (measure_at cap c Hcap pre s post [] [] (holding_nil cap c)) as (b & H1 & H2).
  rewrite app_nil_r in H2. eauto.
Qed.

Lemma computed_mono cap cap' c h s : (cap <= cap')%nat -> Computed cap' c h s -> Computed cap c h s.
Proof.
  intros Hle [K|[K|(a & b & -> & H1 & H2)]]; [left; auto|right; left; auto|]. right. right. exists a, b. split; auto. split; auto. lia.
Qed.

(** ** How many *)
Definition fresh (c : Condition) (h l : list str) : list str :=
  filter (fun s => negb (vwidth c s =? 0) && negb (existsb (str_eqb s) h)) l.

Lemma exists_in h s : existsb (str_eqb s) h = true <-> In s h.
Proof.
  rewrite existsb_exists. split.
  - intros (x & H1 & H2). apply eqb_iff in H2. congruence.
  - intros H. exists s. split; [exact H|apply eqb_refl].
Qed.
Lemma existsb_head s x h : existsb (str_eqb x) (s :: h) = str_eqb s x || existsb (str_eqb x) h.
Proof. cbn. f_equal. unfold str_eqb. destruct (str_eq_dec s x), (str_eq_dec x s); congruence. Qed.

Lemma fresh_step c h s l : distinct (fresh c h (s :: l))
  = ((if negb (vwidth c s =? 0)%Z && negb (existsb (str_eqb s) h) then 1 else 0) + distinct (fresh c (s :: h) l))%nat.
Proof.
  unfold fresh. cbn [filter]. destruct (negb (vwidth c s =? 0) && negb (existsb (str_eqb s) h)) eqn:B.
  - rewrite distinct_cons. cbn [Nat.add]. f_equal. f_equal. unfold without. clear B. induction l as [|x l IH]; [reflexivity|].
    cbn [filter]. rewrite existsb_head. rewrite negb_orb.
    destruct (negb (vwidth c x =? 0)), (negb (existsb (str_eqb x) h)) eqn:B2, (str_eqb s x) eqn:B3; cbn [andb negb filter]; rewrite ?B3; cbn [negb];
      try exact IH; try (f_equal; exact IH).
  - cbn [Nat.add]. apply distinct_same. intros x. rewrite !filter_In, existsb_head.
    destruct (str_eqb s x) eqn:B3; cbn [orb]; [|reflexivity]. apply eqb_iff in B3. subst x.
    rewrite B. cbn [negb]. rewrite andb_false_r. reflexivity.
Qed.

Lemma count_cons b l : count (b :: l) = ((if b then 1 else 0) + count l)%nat.
Proof. unfold count. cbn. destruct b; reflexivity. Qed.
Lemma zeros_cons c s l : zeros c (s :: l) = ((if (vwidth c s =? 0)%Z then 1 else 0) + zeros c l)%nat.
Proof. unfold zeros. cbn. destruct (vwidth c s =? 0); reflexivity. Qed.

Lemma count_least cap c : (1 <= cap)%nat -> forall l h m, Holding cap c h m ->
  (zeros c l + distinct (fresh c h l) <= count (map snd (measureAll cap c m l)))%nat.
Proof.
  intros Hcap. induction l as [|s l IH]; intros h m Hm; [cbn; lia|]. cbn [measureAll].
  destruct (visualWidthL_step cap c h m s Hcap Hm) as (b & m' & -> & Hm' & Hb). cbn [map snd].
  rewrite count_cons, zeros_cons, fresh_step. specialize (IH (s :: h) m' Hm').
  destruct (Z.eqb_spec (vwidth c s) 0) as [Z0|Z0]; cbn [negb andb].
  - assert (b = true) by (apply Hb; left; exact Z0). subst b. lia.
  - destruct (existsb (str_eqb s) h) eqn:B; cbn [negb]; [lia|].
    assert (b = true); [|subst b; lia]. apply Hb. right. left. rewrite <- exists_in. congruence.
Qed.

Lemma count_enough cap c : (1 <= cap)%nat -> forall l h m, Holding cap c h m -> (distinct (h ++ l) <= cap)%nat ->
  count (map snd (measureAll cap c m l)) = (zeros c l + distinct (fresh c h l))%nat.
Proof.
  intros Hcap. induction l as [|s l IH]; intros h m Hm Hd; [reflexivity|]. cbn [measureAll].
  destruct (visualWidthL_step cap c h m s Hcap Hm) as (b & m' & -> & Hm' & Hb). cbn [map snd].
  rewrite count_cons, zeros_cons, fresh_step.
  rewrite (IH (s :: h) m' Hm').
  2:{ rewrite (distinct_same ((s :: h) ++ l) (h ++ s :: l)); [exact Hd|]. intros x. cbn [app In]. rewrite !in_app_iff. cbn [In]. tauto. }
  destruct (Z.eqb_spec (vwidth c s) 0) as [Z0|Z0]; cbn [negb andb].
  - assert (b = true) by (apply Hb; left; exact Z0). subst b. lia.
  - destruct (existsb (str_eqb s) h) eqn:B; cbn [negb].
    + apply exists_in in B. destruct b; [|lia]. exfalso. destruct Hb as [Hb _]. destruct (Hb eq_refl) as [K|[K|(a & e & -> & K1 & K2)]]; [lia|contradiction|].
      assert (Q : (distinct (s :: a) <= distinct ((a ++ s :: e) ++ s :: l))%nat).
      { apply distinct_incl. intros x [<-|Hx]; rewrite !in_app_iff; cbn [In]; tauto. }
      rewrite distinct_cons, without_not in Q by auto. lia.
    + assert (b = true); [|subst b; lia]. apply Hb. right. left. rewrite <- exists_in. congruence.
Qed.

Lemma fresh_nil c l : distinct (fresh c [] l) = visible c l.
Proof. unfold visible, fresh. f_equal. apply filter_ext. intros s. cbn. rewrite andb_true_r. reflexivity. Qed.

Lemma least cap c l : (1 <= cap)%nat -> (zeros c l + visible c l <= count (map snd (measureAll cap c [] l)))%nat.
Proof. intros Hcap. rewrite <- fresh_nil. apply count_least with (h := []); auto using holding_nil. Qed.
Lemma enough cap c l : (1 <= cap)%nat -> (distinct l <= cap)%nat ->
  count (map snd (measureAll cap c [] l)) = (zeros c l + visible c l)%nat.
Proof. intros Hcap Hd. rewrite <- fresh_nil. apply count_enough; auto using holding_nil. Qed.

(** A larger cache never computes more. *)
Lemma larger cap cap' c l : (1 <= cap <= cap')%nat ->
  (count (map snd (measureAll cap' c [] l)) <= count (map snd (measureAll cap c [] l)))%nat.
Proof.
  intros Hcap.
  assert (G : forall h m m', Holding cap c h m -> Holding cap' c h m' ->
    (count (map snd (measureAll cap' c m' l)) <= count (map snd (measureAll cap c m l)))%nat).
  2:{ apply (G []); apply holding_nil. }
  induction l as [|s l IH]; intros h m m' H1 H2; [cbn; lia|]. cbn [measureAll].
  destruct (visualWidthL_step cap c h m s ltac:(lia) H1) as (b & m1 & -> & G1 & B1).
  destruct (visualWidthL_step cap' c h m' s ltac:(lia) H2) as (b' & m2 & -> & G2 & B2).
  cbn [map snd]. rewrite !count_cons. specialize (IH (s :: h) m1 m2 G1 G2).
  destruct b'; [|destruct b; lia]. assert (b = true); [|subst b; lia]. apply B1, (computed_mono cap cap'); [lia|]. apply B2. reflexivity.
Qed.

(** ** Round and round *)
Lemma all_computed cap c : (1 <= cap)%nat -> forall l h m, Holding cap c h m ->
  (forall pre s post, l = pre ++ s :: post -> Computed cap c (rev pre ++ h) s) ->
  map snd (measureAll cap c m l) = map (fun _ => true) l.
Proof.
  intros Hcap. induction l as [|s l IH]; intros h m Hm H; [reflexivity|]. cbn [measureAll].
  destruct (visualWidthL_step cap c h m s Hcap Hm) as (b & m' & -> & Hm' & Hb). cbn [map snd]. f_equal.
  - apply Hb. apply (H [] s l). reflexivity.
  - apply (IH (s :: h) m' Hm'). intros pre x post E1. specialize (H (s :: pre) x post ltac:(rewrite E1; reflexivity)).
    cbn [rev] in H. rewrite <- app_assoc in H. exact H.
Qed.

(** In a round of more than [cap] different texts, all the others come before
    a text comes again. *)
Lemma rounds cap c l n : (1 <= cap)%nat -> NoDup l -> (cap < length l)%nat ->
  map snd (measureAll cap c [] (concat (repeat l n))) = map (fun _ => true) (concat (repeat l n)).
Proof.
  intros Hcap Hl Hlen. apply all_computed with (h := []); auto using holding_nil. intros pre s post E1. rewrite app_nil_r.
  right. destruct (in_dec str_eq_dec s (rev pre)) as [I|I]; [right|left; exact I].
  destruct (in_split_first (rev pre) s I) as (since & earlier & E2 & Hs). exists since, earlier. split; [exact E2|]. split; [exact Hs|].
  (* rev since, then s, then post: the texts between two occurrences *)
  assert (E3 : pre = rev earlier ++ s :: rev since).
  { rewrite <- (rev_involutive pre), E2, rev_app_distr. cbn [rev]. rewrite <- app_assoc. reflexivity. }
  rewrite E3, <- app_assoc in E1. cbn [app] in E1.
  assert (Q : incl (without s l) since).
  { clear - E1 Hs Hl. intros y Hy. apply without_in in Hy. destruct Hy as [Hy Hne].
    assert (Hmid : ~ In s (rev since)) by (rewrite <- in_rev; exact Hs). apply in_rev.
    revert E1 Hmid. generalize (rev since). generalize (rev earlier). clear earlier since Hs. intros a mid E1 Hmid.
    revert a E1. induction n as [|n IH]; intros a E1; [destruct a; discriminate|]. cbn [repeat concat] in E1.
    (* is the first occurrence inside the first copy? *)
    assert (C : (length a < length l)%nat \/ (length l <= length a)%nat) by lia. destruct C as [C|C].
    - assert (E4 : l = a ++ s :: skipn (S (length a)) l).
      { assert (F : firstn (S (length a)) (l ++ concat (repeat l n)) = firstn (S (length a)) (a ++ s :: mid ++ s :: post)) by (rewrite E1; reflexivity).
        rewrite firstn_app in F. replace (S (length a) - length l)%nat with 0%nat in F by lia. rewrite app_nil_r in F.
        rewrite firstn_app in F. rewrite (firstn_all2 a) in F by lia. replace (S (length a) - length a)%nat with 1%nat in F by lia. change (firstn 1 (s :: mid ++ s :: post)) with [s] in F.
        rewrite <- (firstn_skipn (S (length a)) l) at 1. rewrite F, <- app_assoc. reflexivity. }
      set (r := skipn (S (length a)) l) in *. clearbody r.
      assert (Hsr : ~ In s r /\ ~ In s a).
      { rewrite E4 in Hl. apply NoDup_remove_2 in Hl. rewrite in_app_iff in Hl. tauto. }
      destruct Hsr as [Hsr Hsa].
      rewrite E4 in E1. rewrite <- app_assoc in E1. apply app_inv_head in E1. cbn [app] in E1. injection E1 as E1.
      destruct n as [|n].
      { exfalso. cbn [repeat concat] in E1. rewrite app_nil_r in E1. apply Hsr. rewrite E1. apply in_or_app. right. left. reflexivity. }
      cbn [repeat concat] in E1. rewrite <- app_assoc in E1. cbn [app] in E1. rewrite app_assoc in E1.
      assert (Hm : mid = r ++ a).
      { assert (Hra : ~ In s (r ++ a)) by (rewrite in_app_iff; tauto). clear - E1 Hmid Hra. revert E1 Hra. generalize (r ++ a).
        intros q. revert mid Hmid. induction q as [|x q IHq]; intros [|z mid] Hmid E1 Hra; cbn in E1; try reflexivity.
        - injection E1 as <- _. exfalso. apply Hmid. left. reflexivity.
        - injection E1 as -> _. exfalso. apply Hra. left. reflexivity.
        - injection E1 as -> E1. f_equal. apply IHq; auto. intros K. apply Hmid. right. exact K. intros K. apply Hra. right. exact K. }
      subst mid. rewrite E4 in Hy. rewrite in_app_iff in *. cbn [In] in Hy. intuition congruence.
    - apply (IH (skipn (length l) a)).
      assert (F : skipn (length l) (l ++ concat (repeat l n)) = skipn (length l) (a ++ s :: mid ++ s :: post)) by (rewrite E1; reflexivity).
      rewrite skipn_app, skipn_all in F. replace (length l - length l)%nat with 0%nat in F by lia. cbn [app skipn] in F.
      rewrite skipn_app in F. replace (length l - length a)%nat with 0%nat in F by lia. exact F. }
  apply distinct_incl in Q. assert (Hsl : In s l).
  { assert (K : In s (concat (repeat l n))) by (rewrite E1; apply in_or_app; right; left; reflexivity).
    apply in_concat in K. destruct K as (x & K1 & K2). apply repeat_spec in K1. subst x. exact K2. }
  rewrite (distinct_nodup (without s l)) in Q by (apply without_nodup; exact Hl).
  assert (L : S (length (without s l)) = length l).
  { change (S (length (without s l))) with (length (s :: without s l)). apply same_length; auto.
    - constructor; [rewrite without_in; tauto|apply without_nodup; exact Hl].
    - intros x. cbn [In]. rewrite without_in. destruct (str_eq_dec x s); intuition congruence. }
  lia.
Qed.

(** ** Programs *)
Lemma run_texts {A} cap c ok (p : wprog A) : (1 <= cap)%nat -> forall n h m, Holding cap c h m ->
  let '(out, a, log) := runL cap c ok n m p in
  (out, a) = effect (vwidth c) ok n p /\ map fst log = texts (vwidth c) ok n p
  /\ map snd log = map snd (measureAll cap c m (texts (vwidth c) ok n p)).
Proof.
  intros Hcap. induction p as [a|s k IH|txt k IH]; intros n h m Hm; cbn [runL effect texts measureAll].
  - auto.
  - destruct (visualWidthL_step cap c h m s Hcap Hm) as (b & m' & -> & Hm' & _).
    specialize (IH (vwidth c s) n (s :: h) m' Hm'). destruct (runL cap c ok n m' (k (vwidth c s))) as [[out a] log].
    destruct IH as (I1 & I2 & I3). cbn [map fst snd]. rewrite I2, I3. auto.
  - specialize (IH (ok n) (S n) h m Hm). destruct (runL cap c ok (S n) m (k (ok n))) as [[out a] log].
    destruct IH as (I1 & I2 & I3). rewrite <- I1. auto.
Qed.

(** ** Formatting and printing *)
Lemma concat_concat_map {A} (l : list (list (list A))) : concat (concat l) = concat (map (@concat A) l).
Proof. induction l as [|x l IH]; [reflexivity|]. cbn. rewrite concat_app, IH. reflexivity. Qed.

Fixpoint ptexts {A} (w : str -> Z) (p : prog A) : list str :=
  match p with
  | Ret _ => []
  | Call s k => s :: ptexts w (k (w s))
  end.
Lemma ptexts_bind {A B} w (p : prog A) (f : A -> prog B) : ptexts w (bind p f) = ptexts w p ++ ptexts w (f (value w p)).
Proof. induction p as [a|s k IH]; cbn; [reflexivity|]. f_equal. apply IH. Qed.
Lemma ptexts_pbind {E A B} w (p : prog (outcome E A)) (f : A -> prog (outcome E B)) a : value w p = Ok a ->
  ptexts w (pbind p f) = ptexts w p ++ ptexts w (f a) /\ value w (pbind p f) = value w (f a).
Proof. intros H. unfold pbind. rewrite ptexts_bind, value_bind, H. auto. Qed.
Lemma texts_first {A B} w ok n (p : prog A) (f : A -> wprog B) : texts w ok n (first p f) = ptexts w p ++ texts w ok n (f (value w p)).
Proof. induction p as [a|s k IH]; cbn; [reflexivity|]. f_equal. apply IH. Qed.

Section Types.
Context {Item Val E : Type}.
Variable w : str -> Z.
Notation PT := (PTable Item Val E).
Notation PC := (PColumn Item Val E).

Lemma raise_texts (t : PT) k n : ptWidth t <> None -> exists t', raiseP t k n = (t', Ok tt) /\ ptColumns t' = ptColumns t /\ ptWidth t' <> None.
Proof.
  intros H. unfold raiseP. destruct (n >? widthP t k); [|eauto]. destruct (ptWidth t); [|congruence].
  eexists. split; [reflexivity|]. split; [reflexivity|]. discriminate.
Qed.

Lemma formatItem_texts (item : Item) (cols : list PC) row : Forall2 (fun col s => Gives col item s) cols row -> forall (t : PT) done, ptWidth t <> None ->
  ptexts w (formatItemP_loop t (map Some cols) item done) = row
  /\ exists t', value w (formatItemP_loop t (map Some cols) item done) = (t', Ok (done ++ row)) /\ ptColumns t' = ptColumns t /\ ptWidth t' <> None.
Proof.
  induction 1 as [|col s cols row (g & v & E1 & E2 & E3) _ IH]; intros t done Ht; cbn [map formatItemP_loop].
  - cbn. rewrite app_nil_r. eauto.
  - rewrite E1, E2. cbn [bind]. rewrite E3. cbn [bind ptexts value].
    destruct (raise_texts t (pcName col) (w s) Ht) as (t' & -> & C1 & C2).
    destruct (IH t' (done ++ [s]) C2) as (I1 & t2 & I2 & I3 & I4). rewrite <- app_assoc in I2. split; [f_equal; exact I1|].
    exists t2. split; [exact I2|]. split; [congruence|exact I4].
Qed.

Lemma formatAll_texts (cols : list PC) items rows : Forall2 (fun item row => Forall2 (fun col s => Gives col item s) cols row) items rows ->
  forall (t : PT) done, ptColumns t = map Some cols -> ptWidth t <> None ->
  ptexts w (formatAllP t items done) = concat rows
  /\ exists t', value w (formatAllP t items done) = (t', Ok (done ++ rows)) /\ ptColumns t' = map Some cols /\ ptWidth t' <> None.
Proof.
  induction 1 as [|item row items rows Hr _ IH]; intros t done Hc Ht; cbn [formatAllP concat].
  - cbn. rewrite app_nil_r. eauto.
  - unfold formatItemP. rewrite Hc. destruct (formatItem_texts item cols row Hr t [] Ht) as (F1 & t' & F2 & F3 & F4).
    rewrite ptexts_bind, value_bind, F1, F2. cbn [app].
    destruct (IH t' (done ++ [row]) ltac:(congruence) F4) as (I1 & t2 & I2 & I3 & I4). rewrite <- app_assoc in I2.
    split; [f_equal; exact I1|]. exists t2. auto.
Qed.

Lemma built_texts (col : PC) s n : Built col ->
  exists a, ptexts w (match pcAlignment col with Some f => f | None => alignLeftP end s n) = [s]
    /\ value w (match pcAlignment col with Some f => f | None => alignLeftP end s n) = a.
Proof. intros [-> | [-> | [-> | -> ] ] ]; eexists; split; reflexivity. Qed.

Lemma cells_texts gw gi (cols : list PC) : Forall Built cols -> forall item done,
  (forall i, Z.of_nat (length done) <= i < Z.of_nat (length done) + Z.of_nat (length cols) -> exists n, gw i gi = Ok n) ->
  length item = length cols ->
  ptexts w (cellsP (E := E) gw (map Some cols) (done ++ item) (Z.of_nat (length done)) gi) = item
  /\ exists cells, value w (cellsP gw (map Some cols) (done ++ item) (Z.of_nat (length done)) gi) = Ok cells.
Proof.
  induction 1 as [|col cols Hb _ IH]; intros item done Hgw Hlen.
  - destruct item; [|discriminate]. cbn. eauto.
  - destruct item as [|s item]; [discriminate|]. cbn [map cellsP].
    assert (EI : index (E := E) (done ++ s :: item) (Z.of_nat (length done)) = Ok s).
    { unfold index, at_index. replace (Z.of_nat (length done) <? 0) with false by lia. rewrite Nat2Z.id.
      rewrite nth_error_app2 by lia. rewrite Nat.sub_diag. reflexivity. }
    rewrite EI. destruct (Hgw (Z.of_nat (length done)) ltac:(cbn [length]; lia)) as (n & ->).
    destruct (built_texts col s n Hb) as (a & B1 & B2). rewrite ptexts_bind, value_bind, B1, B2.
    destruct (IH item (done ++ [s])) as (I1 & cells & I2).
    + intros i Hi. apply Hgw. rewrite app_length in Hi. cbn [length] in *. lia.
    + cbn in Hlen. lia.
    + rewrite <- app_assoc in I1, I2. cbn [app] in I1, I2.
      assert (L : Z.of_nat (length (done ++ [s])) = Z.of_nat (length done) + 1) by (rewrite app_length; cbn [length]; lia).
      rewrite L in I1, I2.
      destruct (ptexts_pbind w (cellsP gw (map Some cols) (done ++ s :: item) (Z.of_nat (length done) + 1) gi)
        (fun cells => Ret (Ok (a :: cells))) cells I2) as [P1 P2]. rewrite P1, P2, I1. cbn. rewrite app_nil_r. eauto.
Qed.

Lemma default_ok (t : PT) (cols : list PC) i gi : ptColumns t = map Some cols -> 0 <= i < Z.of_nat (length cols) ->
  exists n, getWidthP_default t i gi = Ok n.
Proof.
  intros Hc Hi. unfold getWidthP_default, index, at_index. rewrite Hc. replace (i <? 0) with false by lia.
  rewrite nth_error_map. destruct (nth_error cols (Z.to_nat i)) as [col|] eqn:K; [cbn; eauto|].
  apply nth_error_None in K. lia.
Qed.

Lemma render_texts (t : PT) (cols : list PC) rows i gi row : ptColumns t = map Some cols -> Forall Built cols ->
  nth_error rows i = Some row -> length row = length cols ->
  ptexts w (renderP t (listP rows) (getWidthP_default t) (Z.of_nat i) gi) = row
  /\ exists b, value w (renderP t (listP rows) (getWidthP_default t) (Z.of_nat i) gi) = Ok b.
Proof.
  intros Hc Hb Hi Hl. unfold renderP.
  assert (EG : piGet (listP (E := E) rows) (Z.of_nat i) = Ret (Ok row)).
  { cbn. unfold at_index. replace (Z.of_nat i <? 0) with false by lia. rewrite Nat2Z.id, Hi. reflexivity. }
  rewrite EG, Hc. unfold pbind at 1 3. cbn [bind].
  destruct (cells_texts (getWidthP_default t) gi cols Hb row []) as (C1 & cells & C2).
  { intros j Hj. apply (default_ok t cols); auto. }
  { exact Hl. }
  cbn [app length Z.of_nat] in C1, C2.
  destruct (ptexts_pbind w (cellsP (getWidthP_default t) (map Some cols) row 0 gi) (fun cells => Ret (Ok (join innerSep cells))) cells C2) as [P1 P2].
  rewrite P1, P2, C1. cbn. rewrite app_nil_r. eauto.
Qed.

Lemma groups_texts (t : PT) (cols : list PC) rows base : ptColumns t = map Some cols -> Forall Built cols ->
  Forall (fun row => length row = length cols) rows -> forall n j,
  ptexts w (groupsP (slen rows) (fun gi => Z.of_nat base + gi) (renderP t (listP rows) (getWidthP_default t)) (map Z.of_nat (seq j n)))
    = concat (firstn n (skipn (base + j) rows))
  /\ exists bs, value w (groupsP (slen rows) (fun gi => Z.of_nat base + gi) (renderP t (listP rows) (getWidthP_default t)) (map Z.of_nat (seq j n))) = Ok bs.
Proof.
  intros Hc Hb Hl. induction n as [|n IH]; intros j; cbn [seq map groupsP firstn concat].
  - cbn. eauto.
  - destruct (Z.geb_spec (Z.of_nat base + Z.of_nat j) (slen rows)) as [G|G].
    + unfold slen in G. rewrite skipn_all2 by lia. cbn. eauto.
    + unfold slen in G. destruct (nth_error rows (base + j)) as [row|] eqn:K; [|apply nth_error_None in K; lia].
      assert (Hrl : length row = length cols) by (rewrite Forall_forall in Hl; apply Hl; eapply nth_error_In; eauto).
      rewrite <- Nat2Z.inj_add.
      destruct (render_texts t cols rows (base + j) (Z.of_nat j) row Hc Hb K Hrl) as (R1 & b & R2).
      destruct (IH (S j)) as (I1 & bs & I2).
      set (rest := groupsP _ _ _ (map Z.of_nat (seq (S j) n))) in *.
      destruct (ptexts_pbind w (renderP t (listP rows) (getWidthP_default t) (Z.of_nat (base + j)) (Z.of_nat j))
        (fun block => pbind rest (fun blocks => Ret (Ok (block :: blocks)))) b R2) as [P1 P2]. rewrite P1, P2.
      destruct (ptexts_pbind w rest (fun blocks => Ret (Ok (b :: blocks))) bs I2) as [P3 P4]. rewrite P3, P4, R1, I1.
      split; [|cbn; eauto]. cbn [ptexts]. rewrite app_nil_r.
      assert (ES : skipn (base + j) rows = row :: skipn (base + S j) rows).
      { rewrite Nat.add_succ_r. clear - K. revert K. generalize (base + j)%nat. intros q. revert rows.
        induction q as [|q IHq]; intros [|x rows] K; try discriminate; cbn in K |- *; [congruence|]. exact (IHq rows K). }
      rewrite ES. reflexivity.
Qed.

Lemma lines_texts ok (line : Z -> prog (outcome E str)) (f : nat -> list str) : (forall n, ok n = true) ->
  (forall l, ptexts w (line (Z.of_nat l)) = f l /\ exists txt, value w (line (Z.of_nat l)) = Ok txt) -> forall n l k,
  texts w ok k (linesP line (map Z.of_nat (seq l n))) = concat (map f (seq l n)).
Proof.
  intros Hok H. induction n as [|n IH]; intros l k; [reflexivity|]. cbn [seq map linesP concat].
  destruct (H l) as (H1 & txt & H2). rewrite texts_first, H1, H2. cbn [texts]. rewrite Hok. f_equal. apply IH.
Qed.

Lemma firstn_split {A} (q : list A) g m : firstn g q ++ firstn m (skipn g q) = firstn (g + m) q.
Proof. revert q. induction g as [|g IH]; intros [|x q]; cbn; try reflexivity; [apply firstn_nil|]. f_equal. apply IH. Qed.
Lemma skipn_more {A} (q : list A) g m : skipn (g + m) q = skipn g (skipn m q).
Proof. revert g q. induction m as [|m IH]; intros g [|x q]; rewrite ?Nat.add_0_r, ?skipn_nil; auto. rewrite Nat.add_succ_r. cbn. apply IH. Qed.
Lemma chunks {A} (rows : list A) g n : forall l, concat (map (fun l => firstn g (skipn (l * g) rows)) (seq l n)) = firstn (n * g) (skipn (l * g) rows).
Proof.
  induction n as [|n IH]; intros l; [reflexivity|]. cbn [seq map concat]. rewrite IH.
  replace (S l * g)%nat with (g + l * g)%nat by lia. replace (S n * g)%nat with (g + n * g)%nat by lia.
  rewrite skipn_more. apply firstn_split.
Qed.

(** Printing one item after the other measures each cell once, in order. *)
Lemma print_texts ok (t : PT) (cols : list PC) rows maxWidth sep gc : (forall n, ok n = true) -> ptColumns t = map Some cols -> Forall Built cols ->
  Forall (fun row => length row = length cols) rows -> groupCountP t maxWidth sep = Ok gc -> forall k,
  texts w ok k (mergeHP 1 t (listP rows) maxWidth sep false) = concat rows.
Proof.
  intros Hok Hc Hb Hl Hg k. unfold mergeHP. rewrite Hg. unfold emitP. cbn [piLen listP].
  assert (Hgc : 1 <= gc).
  { unfold groupCountP, obind in Hg. destruct (tableWidthP t (u16 (slen sep))); try discriminate.
    destruct (_ =? 0); [discriminate|]. injection Hg as <-. destruct (Z.ltb_spec (u16 (clampWidth maxWidth + u16 (slen sep)) / u16 (a + u16 (slen sep))) 1); lia. }
  set (g := Z.to_nat gc). assert (Eg : gc = Z.of_nat g) by lia. rewrite Eg.
  change (zrange (lineCountOf (slen rows) (Z.of_nat g))) with (map Z.of_nat (seq 0 (Z.to_nat (lineCountOf (slen rows) (Z.of_nat g))))).
  rewrite (lines_texts ok _ (fun l => concat (firstn g (skipn (l * g) rows)))).
  - set (n := Z.to_nat (lineCountOf (slen rows) (Z.of_nat g))).
    assert (Hn : (length rows <= n * g)%nat).
    { unfold n, lineCountOf, slen. destruct rows as [|r rows]; [cbn; lia|].
      rewrite Z.quot_div_nonneg by (cbn [length]; lia).
      pose proof (Z.mul_succ_div_gt (Z.of_nat (length (r :: rows)) - 1) (Z.of_nat g) ltac:(lia)) as K.
      pose proof (Z.div_pos (Z.of_nat (length (r :: rows)) - 1) (Z.of_nat g) ltac:(cbn [length]; lia) ltac:(lia)).
      set (d := (Z.of_nat (length (r :: rows)) - 1) / Z.of_nat g) in *. clearbody d. nia. }
    rewrite <- (map_map (fun l => firstn g (skipn (l * g) rows)) (@concat str)).
    rewrite <- concat_concat_map. rewrite chunks. cbn [Nat.mul skipn]. rewrite firstn_all2 by exact Hn. reflexivity.
  - exact Hok.
  - intros l. unfold zrange. rewrite Nat2Z.id. destruct (groups_texts t cols rows (l * g) Hc Hb Hl g 0) as (G1 & bs & G2).
    rewrite Nat.add_0_r in G1. rewrite Nat2Z.inj_mul in G1, G2.
    destruct (ptexts_pbind w _ (fun blocks => Ret (Ok (join sep blocks))) bs G2) as [P1 P2]. cbv beta in P1, P2. rewrite P1, P2, G1.
    cbn. rewrite app_nil_r. eauto.
Qed.

Lemma lines_finish ok (line : Z -> prog (outcome E str)) : (forall n, ok n = true) ->
  (forall l, exists txt, value w (line (Z.of_nat l)) = Ok txt) -> forall n l k,
  snd (effect w ok k (linesP line (map Z.of_nat (seq l n)))) = Finished.
Proof.
  intros Hok H. induction n as [|n IH]; intros l k; [reflexivity|]. cbn [seq map linesP].
  destruct (H l) as (txt & H2). rewrite effect_first, H2. cbn [effect]. rewrite Hok.
  specialize (IH (S l) (S k)). destruct (effect w ok (S k) (linesP line (map Z.of_nat (seq (S l) n)))) as [out a]. exact IH.
Qed.

Lemma print_finishes ok (t : PT) (cols : list PC) rows maxWidth sep gc : (forall n, ok n = true) -> ptColumns t = map Some cols -> Forall Built cols ->
  Forall (fun row => length row = length cols) rows -> groupCountP t maxWidth sep = Ok gc -> 0 <= gc -> forall k,
  snd (effect w ok k (mergeHP 1 t (listP rows) maxWidth sep false)) = Finished.
Proof.
  intros Hok Hc Hb Hl Hg Hgc k. unfold mergeHP. rewrite Hg. unfold emitP. cbn [piLen listP].
  set (g := Z.to_nat gc). assert (Eg : gc = Z.of_nat g) by lia. rewrite Eg.
  change (zrange (lineCountOf (slen rows) (Z.of_nat g))) with (map Z.of_nat (seq 0 (Z.to_nat (lineCountOf (slen rows) (Z.of_nat g))))).
  apply lines_finish; [exact Hok|].
  intros l. unfold zrange. rewrite Nat2Z.id. destruct (groups_texts t cols rows (l * g) Hc Hb Hl g 0) as (G1 & bs & G2).
  rewrite Nat2Z.inj_mul in G2. destruct (ptexts_pbind w _ (fun blocks => Ret (Ok (join sep blocks))) bs G2) as [P1 P2]. cbv beta in P2. rewrite P2. cbn. eauto.
Qed.

Lemma session_texts ok (t : PT) (cols : list PC) items rows maxWidth sep : (forall n, ok n = true) -> ptColumns t = map Some cols -> ptWidth t <> None ->
  Forall Built cols -> Forall2 (fun item row => Forall2 (fun col s => Gives col item s) cols row) items rows ->
  snd (effect w ok 0 (formatAndPrintP t items maxWidth sep)) = Finished ->
  texts w ok 0 (formatAndPrintP t items maxWidth sep) = concat rows ++ concat rows.
Proof.
  intros Hok Hc Ht Hb Hr Hf. unfold formatAndPrintP in *. rewrite effect_first in Hf. rewrite texts_first.
  destruct (formatAll_texts cols items rows Hr t [] Hc Ht) as (F1 & t' & F2 & F3 & F4). cbn [app] in F2. rewrite F1, F2 in *. f_equal.
  destruct (groupCountP t' maxWidth sep) as [gc|e|p] eqn:Hg.
  - eapply print_texts; eauto. clear - Hr. induction Hr as [|item row items rows H _ IH]; constructor; auto.
    clear - H. induction H; cbn; congruence.
  - unfold mergeHP in Hf. rewrite Hg in Hf. discriminate.
  - unfold mergeHP in Hf. rewrite Hg in Hf. discriminate.
Qed.
End Types.

(** ** The theorems *)

(** Any program: results as without a cache, and which calls compute. *)
Lemma program_runs {A} cap c ok (p : wprog A) out a log : (1 <= cap)%nat -> runL cap c ok 0 [] p = (out, a, log) ->
  (out, a) = effect (vwidth c) ok 0 p /\ map fst log = texts (vwidth c) ok 0 p
  /\ (forall pre s b post, log = pre ++ (s, b) :: post -> (b = true <-> Computed cap c (rev (map fst pre)) s))
  /\ (zeros c (map fst log) + visible c (map fst log) <= count (map snd log))%nat
  /\ ((distinct (map fst log) <= cap)%nat -> count (map snd log) = (zeros c (map fst log) + visible c (map fst log))%nat).
Proof.
  intros Hcap R. pose proof (run_texts cap c ok p Hcap 0 [] [] (holding_nil cap c)) as K. rewrite R in K. destruct K as (K1 & K2 & K3).
  split; [exact K1|]. split; [exact K2|]. rewrite <- K2 in K3. split; [|split].
  - intros pre s b post E1. rewrite E1 in K3. rewrite !map_app in K3. cbn [map fst snd] in K3.
    destruct (exactly cap c (map fst pre) s (map fst post) Hcap) as (b' & N1 & N2).
    assert (b = b'); [|subst; exact N2].
    apply (f_equal (fun l => nth_error l (length pre))) in K3.
    rewrite nth_error_app2 in K3 by (rewrite map_length; lia). rewrite map_length, Nat.sub_diag in K3. cbn [nth_error] in K3.
    rewrite nth_error_map in K3. rewrite map_length in N1. rewrite N1 in K3. cbn in K3. congruence.
  - rewrite K3. apply least. exact Hcap.
  - intros Hd. rewrite K3. apply enough; auto.
Qed.

Lemma session_computes {Item Val E} cap c (t : PTable Item Val E) cols items rows maxWidth sep out st log :
  (1 <= cap)%nat -> ptColumns t = map Some cols -> ptWidth t <> None -> Forall Built cols ->
  Forall2 (fun item row => Forall2 (fun col s => Gives col item s) cols row) items rows ->
  runL cap c (fun _ => true) 0 [] (formatAndPrintP t items maxWidth sep) = (out, st, log) -> st = Finished ->
  map fst log = concat rows ++ concat rows
  /\ ((distinct (concat rows) <= cap)%nat -> Forall (fun s => vwidth c s <> 0) (concat rows) -> count (map snd log) = distinct (concat rows))
  /\ (NoDup (concat rows) -> (cap < length (concat rows))%nat -> count (map snd log) = (2 * length (concat rows))%nat).
Proof.
  intros Hcap Hc Ht Hb Hr R Hst. pose proof (run_texts cap c (fun _ => true) (formatAndPrintP t items maxWidth sep) Hcap 0 [] [] (holding_nil cap c)) as K.
  rewrite R in K. destruct K as (K1 & K2 & K3).
  assert (HT : texts (vwidth c) (fun _ => true) 0 (formatAndPrintP t items maxWidth sep) = concat rows ++ concat rows).
  { eapply session_texts; eauto. rewrite <- K1. exact Hst. }
  rewrite HT in *. split; [exact K2|]. split.
  - intros Hd Hv. rewrite K3, enough; [|exact Hcap|].
    + assert (Z0 : zeros c (concat rows ++ concat rows) = 0%nat).
      { unfold zeros. assert (F : Forall (fun s => vwidth c s <> 0) (concat rows ++ concat rows)) by (apply Forall_app; auto).
        clear - F. induction F as [|s l Hs _ IH]; [reflexivity|]. cbn. replace (vwidth c s =? 0) with false by lia. exact IH. }
      rewrite Z0. cbn [Nat.add]. unfold visible. apply distinct_same. intros x. rewrite filter_In, in_app_iff.
      rewrite Forall_forall in Hv. split; [tauto|]. intros Hx. split; [tauto|]. specialize (Hv x Hx). lia.
    + rewrite (distinct_same _ (concat rows)); [exact Hd|]. intros x. rewrite in_app_iff. tauto.
  - intros Hn Hl. rewrite K3. pose proof (rounds cap c (concat rows) 2 Hcap Hn Hl) as Q. cbn [repeat concat] in Q. rewrite app_nil_r in Q.
    rewrite Q. unfold count. clear. assert (G : forall l : list str, length (filter (fun b : bool => b) (map (fun _ => true) l)) = length l).
    { induction l as [|x l IH]; [reflexivity|]. cbn. f_equal. exact IH. }
    rewrite G, app_length. lia.
Qed.
