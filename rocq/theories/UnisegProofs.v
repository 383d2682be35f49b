(** * UnisegProofs: segmentation. *)
From Verif Require Import GoBase Utf8 Utf8Proofs IntervalSpec Pointwise TableProofs PropConst
  GraphemeData Uniseg GraphemeSpec.
From Coq Require Import ZifyBool ZifyNat.
Local Open Scope Z_scope.
Ltac Zify.zify_post_hook ::= Z.div_mod_to_equations.

(** ** Classes *)

Definition gprop (r : Z) : Z := property graphemeCodePoints r.

Lemma gprop_lookup r : gprop r = lookup graphemeCodePoints r.
Proof.
  unfold gprop. apply property_spec; [apply grapheme_sorted|]. apply lookup_HasProperty.
Qed.

Lemma lookup_in d r (Q : Z -> bool) : Q 0 = true -> forallb (fun e => Q (snd e)) d = true ->
  Q (lookup d r) = true.
Proof.
  intros H0. induction d as [|((a, b), p) d IH]; intros H; cbn [lookup]; auto.
  cbn [forallb] in H. apply andb_true_iff in H. destruct H as [H1 H2].
  destruct ((a <=? r) && (r <=? b)); auto.
Qed.

Lemma of_code_code p : existsb (fun g => code g =? p) all_gcb = true -> code (of_code p) = p.
Proof.
  unfold of_code. intros H. destruct (find _ _) as [g|] eqn:E.
  - apply find_some in E. lia.
  - rewrite existsb_exists in H. destruct H as (g & Hg & H).
    apply (find_none _ _ E) in Hg. congruence.
Qed.

Lemma gprop_class r : gprop r = code (class r).
Proof.
  rewrite gprop_lookup. unfold class. symmetry. apply of_code_code.
  apply (lookup_in _ r (fun p => existsb (fun g => code g =? p) all_gcb));
    vm_compute; reflexivity.
Qed.

(** ** The state machine against the rules *)

(** The state the machine is in after [before]. *)
Definition st_of (before : list gcb) : Z :=
  match before with
  | [] => -1
  | a :: prev =>
    match a with
    | Other | SpacingMark => grAny
    | CR => grCR
    | LF | Control => grControlLF
    | Extend => if pict_extend prev then grExtendedPictographic else grAny
    | ZWJ => if pict_extend prev then grExtendedPictographicZWJ else grAny
    | RI => if Nat.odd (ri_count before) then grRIOdd else grRIEven
    | Prepend => grPrepend
    | HL => grL
    | HV | HLV => grLVV
    | HT | HLVT => grLVTT
    | Pict => grExtendedPictographic
    end
  end.

Lemma transition_st_of before b :
  transition (st_of before) (code b) = (st_of (b :: before), breaks before b) \/
  (before = [] /\ fst (transition (-1) (code b)) = st_of [b]).
Proof.
  destruct before as [|a prev]; [right; split; [auto|destruct b; reflexivity]|left].
  destruct a; cbn [st_of pict_extend ri_count];
  try (destruct b; cbn [st_of pict_extend ri_count breaks is_control];
       try reflexivity; fail).
  - (* Extend *) destruct (pict_extend prev) eqn:E; destruct b;
      cbn [st_of pict_extend ri_count breaks is_control]; rewrite ?E; reflexivity.
  - (* ZWJ *) destruct (pict_extend prev) eqn:E; destruct b;
      cbn [st_of pict_extend ri_count breaks is_control]; rewrite ?E; reflexivity.
  - (* RI *) rewrite Nat.odd_succ. destruct (Nat.even (ri_count prev)) eqn:E; destruct b;
      cbn [st_of pict_extend ri_count breaks is_control];
      rewrite ?Nat.odd_succ, ?Nat.even_succ, <- ?Nat.negb_even, ?E; reflexivity.
Qed.

Lemma transition_ne before b : before <> [] ->
  transition (st_of before) (code b) = (st_of (b :: before), breaks before b).
Proof. intros H. destruct (transition_st_of before b) as [E|[E _]]; [auto|congruence]. Qed.

Lemma transition_first b : fst (transition (-1) (code b)) = st_of [b].
Proof. destruct b; reflexivity. Qed.

Lemma st_of_range before : before <> [] -> 0 <= st_of before <= 10.
Proof.
  destruct before as [|a prev]; [congruence|]. intros _. destruct a; cbn [st_of];
    try (destruct (pict_extend prev)); try (destruct (Nat.odd _)); vm_compute; intuition congruence.
Qed.

(** After a boundary the machine has forgotten what came before. *)
Lemma breaks_forget before b : breaks before b = true -> st_of (b :: before) = st_of [b].
Proof.
  destruct before as [|a prev]; [reflexivity|].
  destruct b; try reflexivity.
  - destruct a; cbn [breaks is_control st_of pict_extend ri_count]; try reflexivity; discriminate.
  - destruct a; cbn [breaks is_control st_of pict_extend ri_count]; try reflexivity; discriminate.
  - destruct a; cbn [breaks is_control st_of pict_extend ri_count]; try reflexivity.
    rewrite !Nat.odd_succ, Nat.even_succ, <- Nat.negb_even. destruct (Nat.even _); auto. discriminate.
Qed.

Lemma st_of_breaks b1 b2 b : b1 <> [] -> b2 <> [] -> st_of b1 = st_of b2 ->
  breaks b1 b = breaks b2 b /\ st_of (b :: b1) = st_of (b :: b2).
Proof.
  intros H1 H2 E. pose proof (transition_ne b1 b H1) as T1.
  pose proof (transition_ne b2 b H2) as T2. rewrite E, T2 in T1.
  injection T1 as T3 T4. auto.
Qed.

(** ** Segmentation as a function on runes *)

Fixpoint seg (before : list gcb) (cur l : list Z) : list (list Z) :=
  match l with
  | [] => [cur]
  | r :: l' =>
    if breaks before (class r) then cur :: seg (class r :: before) [r] l'
    else seg (class r :: before) (cur ++ [r]) l'
  end.

Definition segments (l : list Z) : list (list Z) :=
  match l with [] => [] | r :: l' => seg [class r] [r] l' end.

Lemma seg_state l : forall b1 b2 cur, b1 <> [] -> b2 <> [] -> st_of b1 = st_of b2 ->
  seg b1 cur l = seg b2 cur l.
Proof.
  induction l as [|r l IH]; intros b1 b2 cur H1 H2 E; auto. cbn [seg].
  destruct (st_of_breaks b1 b2 (class r) H1 H2 E) as [Eb Es]. rewrite Eb.
  destruct (breaks b2 (class r)); [f_equal|]; apply IH; congruence.
Qed.

Lemma seg_boundary before r l cur : before <> [] -> breaks before (class r) = true ->
  seg before cur (r :: l) = cur :: segments (r :: l).
Proof.
  intros Hne Hb. cbn [seg segments]. rewrite Hb. f_equal.
  apply seg_state; try congruence. apply breaks_forget; auto.
Qed.

Lemma seg_app l1 : forall before cur r l2, before <> [] ->
  breaks (rev (map class l1) ++ before) (class r) = true ->
  seg before cur (l1 ++ r :: l2) = seg before cur l1 ++ segments (r :: l2).
Proof.
  induction l1 as [|x l1 IH]; intros before cur r l2 Hne Hb.
  - cbn [app]. rewrite seg_boundary by auto. reflexivity.
  - cbn [app seg]. cbn [map rev] in Hb. rewrite <- app_assoc in Hb. cbn [app] in Hb.
    destruct (breaks before (class x)).
    + cbn [app]. f_equal. apply IH; [congruence|auto].
    + apply IH; [congruence|auto].
Qed.

(** Cutting the text at a boundary cuts the segmentation. *)
Lemma segments_app l1 r l2 : breaks (rev (map class l1)) (class r) = true ->
  segments (l1 ++ r :: l2) = segments l1 ++ segments (r :: l2).
Proof.
  destruct l1 as [|x l1]; [reflexivity|]. intros Hb. cbn [app segments].
  apply seg_app; [congruence|]. cbn [map rev] in Hb. exact Hb.
Qed.

Lemma seg_concat l : forall before cur, concat (seg before cur l) = cur ++ l.
Proof.
  induction l as [|r l IH]; intros before cur; cbn [seg concat]; auto.
  destruct (breaks _ _); cbn [concat]; rewrite IH; auto. rewrite <- app_assoc. reflexivity.
Qed.

Lemma segments_concat l : concat (segments l) = l.
Proof. destruct l; [reflexivity|]. cbn [segments]. rewrite seg_concat. reflexivity. Qed.

Lemma seg_nonempty l : forall before cur, cur <> [] -> ~ In [] (seg before cur l).
Proof.
  induction l as [|r l IH]; intros before cur Hc; cbn [seg].
  - simpl. intuition.
  - destruct (breaks _ _).
    + intros [H|H]; [congruence|]. revert H. apply IH. congruence.
    + apply IH. intros H. apply app_eq_nil in H. destruct H. congruence.
Qed.

Lemma segments_nonempty l : ~ In [] (segments l).
Proof. destruct l; [simpl; auto|]. apply seg_nonempty. congruence. Qed.

(** Splits of a segmentation determine prefixes uniquely. *)
Lemma concat_prefix_nonempty (a b : list (list Z)) : ~ In [] (a ++ b) ->
  concat a = [] -> a = [].
Proof.
  destruct a as [|x a]; auto. simpl. intros H E. apply app_eq_nil in E. destruct E. exfalso. auto.
Qed.

Lemma seg_splits l : forall before cur, before <> [] -> cur <> [] ->
  forall pre r post, l = pre ++ r :: post ->
  ((exists a b, seg before cur l = a ++ b /\ concat a = cur ++ pre) <->
   breaks (rev (map class pre) ++ before) (class r) = true).
Proof.
  induction l as [|x l IH]; intros before cur Hb Hc pre r post E;
    [destruct pre; discriminate|].
  destruct pre as [|y pre].
  - cbn [app] in E. injection E as -> ->. rewrite app_nil_r. cbn [map rev app].
    cbn [seg]. destruct (breaks before (class r)) eqn:Eb.
    + split; auto. intros _. exists [cur]. eexists. split; [reflexivity|]. simpl. apply app_nil_r.
    + split; [|discriminate]. intros (a & b & E1 & E2). exfalso.
      pose proof (seg_nonempty post (class r :: before) (cur ++ [r])) as Hne.
      (* the first cluster contains at least cur ++ [r] *)
      assert (Hfirst : forall l b c, c <> [] -> exists tl q, seg b c l = (c ++ q) :: tl).
      { clear. induction l as [|z l IHl]; intros b c Hc; cbn [seg].
        - exists [], []. rewrite app_nil_r. reflexivity.
        - destruct (breaks b (class z)).
          + eexists _, []. rewrite app_nil_r. reflexivity.
          + destruct (IHl (class z :: b) (c ++ [z])) as (tl & q & E).
            { intros H. apply app_eq_nil in H. destruct H. discriminate. }
            exists tl, (z :: q). rewrite E, <- app_assoc. reflexivity. }
      destruct (Hfirst post (class r :: before) (cur ++ [r])) as (tl & q & Ef).
      { intros H. apply app_eq_nil in H. destruct H. discriminate. }
      rewrite Ef in E1. destruct a as [|a0 a].
      * simpl in E2. congruence.
      * cbn [app] in E1. injection E1 as E1 _. subst a0. cbn [concat] in E2.
        apply (f_equal (@length Z)) in E2. rewrite !app_length in E2. simpl in E2. lia.
  - cbn [app] in E. injection E as -> ->. cbn [map rev]. rewrite <- app_assoc. cbn [app].
    cbn [seg]. destruct (breaks before (class y)) eqn:Eb.
    + rewrite <- (IH (class y :: before) [y] ltac:(congruence) ltac:(congruence) pre r post eq_refl).
      split.
      * intros (a & b & E1 & E2). destruct a as [|a0 a].
        { simpl in E2. symmetry in E2. apply app_eq_nil in E2. destruct E2; congruence. }
        cbn [app] in E1. injection E1 as <- E1. exists a, b. split; auto.
        cbn [concat] in E2. apply app_inv_head in E2. exact E2.
      * intros (a & b & E1 & E2). exists (cur :: a), b. split.
        { cbn [app]. f_equal. exact E1. } cbn [concat]. rewrite E2. reflexivity.
    + rewrite <- (IH (class y :: before) (cur ++ [y]) ltac:(congruence)
        ltac:(intros H; apply app_eq_nil in H; destruct H; discriminate) pre r post eq_refl).
      rewrite <- app_assoc. reflexivity.
Qed.

Lemma segments_IsSegmentation l : IsSegmentation l (segments l).
Proof.
  split; [apply segments_concat|]. split; [apply segments_nonempty|].
  intros pre r post E Hne. destruct pre as [|x pre]; [congruence|].
  subst l. cbn [app segments].
  rewrite (seg_splits (pre ++ r :: post) [class x] [x] ltac:(congruence) ltac:(congruence)
             pre r post eq_refl).
  cbn [map rev]. reflexivity.
Qed.

(** The rules leave no choice. *)
Lemma IsSegmentation_unique_len (l : list Z) c1 c2 : concat c1 = l -> concat c2 = l ->
  ~ In [] c1 -> ~ In [] c2 ->
  (forall pre r post, l = pre ++ r :: post -> pre <> [] ->
    ((exists a b, c1 = a ++ b /\ concat a = pre) <->
     (exists a b, c2 = a ++ b /\ concat a = pre))) -> c1 = c2.
Proof.
  revert l c2. induction c1 as [|x c1 IH]; intros l c2 E1 E2 N1 N2 H.
  - simpl in E1. subst l. destruct c2 as [|y c2]; auto. cbn [concat] in E2.
    apply app_eq_nil in E2. destruct E2 as [-> _]. exfalso. apply N2. simpl. auto.
  - destruct c2 as [|y c2].
    { cbn [concat] in E1, E2. rewrite <- E2 in E1. apply app_eq_nil in E1. destruct E1 as [-> _].
      exfalso. apply N1. simpl. auto. }
    cbn [concat] in E1, E2.
    assert (Hx : x <> []) by (intros ->; apply N1; simpl; auto).
    assert (Hy : y <> []) by (intros ->; apply N2; simpl; auto).
    (* x = y : the shorter is a boundary of the other *)
    assert (Exy : x = y).
    { assert (Hgen : forall (u v : list Z) cu cv, u <> [] -> v <> [] ->
        u ++ concat cu = v ++ concat cv -> (length u < length v)%nat ->
        (exists a b, v :: cv = a ++ b /\ concat a = u) -> False).
      { clear. intros u v cu cv Hu Hv E L (a & b & Ea & Eu). destruct a as [|a0 a].
        - simpl in Eu. congruence.
        - cbn [app] in Ea. injection Ea as <- _. cbn [concat] in Eu. subst u.
          rewrite app_length in L. lia. }
      assert (Hl : x ++ concat c1 = y ++ concat c2) by congruence.
      destruct (Nat.lt_trichotomy (length x) (length y)) as [L|[L|L]].
      - exfalso. destruct (concat c1) as [|r post] eqn:Ec.
        { rewrite app_nil_r in Hl. subst x. rewrite app_length in L. lia. }
        destruct (H x r post ltac:(congruence) Hx) as [H1 _].
        apply (Hgen x y c1 c2); auto; [congruence|].
        apply H1. exists [x], c1. simpl. rewrite app_nil_r. auto.
      - assert (firstn (length x) (x ++ concat c1) = firstn (length y) (y ++ concat c2)) as Ef
          by congruence.
        rewrite !firstn_app, !firstn_all, !Nat.sub_diag in Ef. cbn [firstn] in Ef.
        rewrite !app_nil_r in Ef. exact Ef.
      - exfalso. destruct (concat c2) as [|r post] eqn:Ec.
        { rewrite app_nil_r in Hl. subst y. rewrite app_length in L. lia. }
        destruct (H y r post ltac:(congruence) Hy) as [_ H1].
        apply (Hgen y x c2 c1); auto; [congruence|].
        apply H1. exists [y], c2. simpl. rewrite app_nil_r. auto. }
    subst y. f_equal.
    apply (IH (concat c1)); auto.
    + rewrite <- E1 in E2. apply app_inv_head in E2. auto.
    + intros Hin. apply N1. simpl. auto.
    + intros Hin. apply N2. simpl. auto.
    + intros pre r post El Hpre. specialize (H (x ++ pre) r post).
      rewrite <- E1, El, app_assoc in H. specialize (H eq_refl).
      assert (Hxp : x ++ pre <> []) by (intros K; apply app_eq_nil in K; tauto).
      specialize (H Hxp).
      assert (Hs : forall cc, (exists a b, x :: cc = a ++ b /\ concat a = x ++ pre) <->
                              (exists a b, cc = a ++ b /\ concat a = pre)).
      { intros cc. split; intros (a & b & Ea & Eb).
        - destruct a as [|a0 a].
          + simpl in Eb. symmetry in Eb. tauto.
          + cbn [app] in Ea. injection Ea as <- Ea. cbn [concat] in Eb.
            apply app_inv_head in Eb. exists a, b. auto.
        - exists (x :: a), b. cbn [app concat]. rewrite Ea, Eb. auto. }
      rewrite (Hs c1), (Hs c2) in H. exact H.
Qed.

Lemma IsSegmentation_unique l c1 c2 : IsSegmentation l c1 -> IsSegmentation l c2 -> c1 = c2.
Proof.
  intros (E1 & N1 & H1) (E2 & N2 & H2). apply (IsSegmentation_unique_len l); auto.
  intros pre r post E Hp. rewrite (H1 pre r post E Hp), (H2 pre r post E Hp). reflexivity.
Qed.

(** ** The byte-level loop *)

(** What [step_loop] consumes: runes up to the next boundary. *)
Fixpoint take_seg (before : list gcb) (l : list (Z * Z)) : list (Z * Z) * list (Z * Z) :=
  match l with
  | [] => ([], [])
  | x :: l' =>
    if breaks before (class (fst x)) then ([], l)
    else let '(p, q) := take_seg (class (fst x) :: before) l' in (x :: p, q)
  end.

Lemma take_seg_app before l : fst (take_seg before l) ++ snd (take_seg before l) = l.
Proof.
  revert before. induction l as [|x l IH]; intros before; cbn [take_seg]; auto.
  destruct (breaks _ _); auto. specialize (IH (class (fst x) :: before)).
  destruct (take_seg _ l) as [p q]. cbn [fst snd app] in *. congruence.
Qed.

Lemma seg_take l : forall before cur, before <> [] ->
  seg before cur (map fst l) =
  (cur ++ map fst (fst (take_seg before l))) :: segments (map fst (snd (take_seg before l))).
Proof.
  induction l as [|x l IH]; intros before cur Hne; cbn [map seg take_seg].
  - cbn [fst snd map]. rewrite app_nil_r. reflexivity.
  - destruct (breaks before (class (fst x))) eqn:E.
    + cbn [fst snd map]. rewrite app_nil_r. rewrite <- seg_boundary with (before := before) by auto.
      cbn [seg]. rewrite E. reflexivity.
    + rewrite IH by congruence. destruct (take_seg _ l) as [p q]. cbn [fst snd map].
      rewrite <- app_assoc. reflexivity.
Qed.

(** Cluster widths as the loop accumulates them. *)
Definition wfold (firstProp : Z) (w : Z) (l : list (Z * Z)) : Z :=
  fold_left (fun w x => step_width firstProp w (fst x) (gprop (fst x))) l w.

(** The state [StepString] may be given for a text: negative, or what a
    preceding call returned for it. *)
Definition pack (g : gcb) : Z := Z.lor (st_of [g]) (Z.shiftl (code g) shiftPropState).

Definition Good (state : Z) (s : str) : Prop :=
  state < 0 \/ s = [] \/ exists r n l, decode s = (r, n) :: l /\ state = pack (class r).

Lemma pack_unpack g : Z.land (pack g) maskGraphemeState = st_of [g]
  /\ Z.shiftr (pack g) shiftPropState = code g.
Proof. destruct g; vm_compute; auto. Qed.

Lemma pack_nonneg g : 0 <= pack g.
Proof. destruct g; vm_compute; congruence. Qed.

Lemma transitionGraphemeState_eq before r : before <> [] ->
  transitionGraphemeState (st_of before) r =
  (st_of (class r :: before), code (class r), breaks before (class r)).
Proof.
  intros H. unfold transitionGraphemeState. fold (gprop r). rewrite gprop_class.
  rewrite transition_ne by auto. reflexivity.
Qed.

Lemma slen_drop_le s n : 0 <= n -> slen (drop n s) <= slen s.
Proof. intros H. unfold slen, drop. rewrite skipn_length. lia. Qed.

Lemma drop_ge s n : slen s <= n -> drop n s = [].
Proof. intros H. unfold drop. apply skipn_all2. unfold slen in H. lia. Qed.

Lemma drop_ne s n : 0 <= n < slen s -> drop n s <> [].
Proof. intros H E. pose proof (slen_drop n s ltac:(lia)) as L. rewrite E, slen_nil in L. lia. Qed.

Lemma take_ge s n : slen s <= n -> take n s = s.
Proof. intros H. unfold take. apply firstn_all2. unfold slen in H. lia. Qed.

Lemma step_loop_spec fuel : forall s len before fp w,
  before <> [] -> 0 <= len < slen s -> (Z.to_nat (slen s - len) <= fuel)%nat ->
  exists ns,
  let pq := take_seg before (decode (drop len s)) in
  let n := len + nb (fst pq) in
  step_loop fuel s (drop len s) len (st_of before) fp w =
    Some (take n s, drop n s, Z.shiftl (wfold fp w (fst pq)) ShiftWidth, ns)
  /\ 0 <= ns
  /\ (snd pq = [] \/ exists r m l, snd pq = (r, m) :: l /\ ns = pack (class r)).
Proof.
  induction fuel as [|f IH]; intros s len before fp w Hb Hlen Hf; [lia|].
  cbn [step_loop].
  assert (Hd : drop len s <> []) by (apply drop_ne; lia).
  pose proof (DecodeRune_size (drop len s) Hd) as [S1 S2].
  rewrite (decode_cons (drop len s)) by auto.
  destruct (DecodeRune (drop len s)) as [r l] eqn:E. cbn [snd] in *.
  rewrite slen_drop in S2 by lia.
  rewrite transitionGraphemeState_eq by auto. cbn [take_seg fst].
  destruct (breaks before (class r)) eqn:Eb.
  - exists (pack (class r)). cbn [fst snd]. unfold nb at 1 2. cbn [map zsum fold_right].
    rewrite !Z.add_0_r. split.
    { rewrite breaks_forget by auto. unfold pack, wfold. cbn [fold_left]. reflexivity. }
    split; [apply pack_nonneg|]. right. exists r, l. eauto.
  - destruct (Z.leb_spec (slen s) (len + l)) as [Hend|Hmore].
    + assert (Ed : drop l (drop len s) = []) by (rewrite drop_drop by lia; apply drop_ge; lia).
      rewrite Ed, decode_nil. cbn [take_seg fst snd]. eexists.
      unfold nb at 1 2. cbn [map zsum fold_right snd]. rewrite Z.add_0_r.
      rewrite (take_ge s), (drop_ge s) by lia. split.
      { unfold wfold. cbn [fold_left fst]. rewrite gprop_class. reflexivity. }
      split; [|auto]. destruct (class r); vm_compute; congruence.
    + rewrite drop_drop by lia.
      destruct (IH s (len + l) (class r :: before) fp (step_width fp w r (code (class r)))
                  ltac:(congruence) ltac:(lia) ltac:(lia)) as (ns & Hs & Hn & Hq).
      exists ns. destruct (take_seg _ (decode (drop (len + l) s))) as [p q]. cbn [fst snd] in *.
      rewrite nb_cons. cbn [snd]. rewrite Z.add_assoc.
      split; [|auto]. rewrite Hs. unfold wfold at 2. cbn [fold_left fst]. rewrite gprop_class.
      reflexivity.
Qed.

Lemma trans_lookup_neg m st p : forallb (fun e => 0 <=? fst (fst e)) m = true -> st < 0 ->
  trans_lookup m st p = None.
Proof.
  induction m as [|((k, q), v) m IH]; intros H Hs; cbn [trans_lookup]; auto.
  cbn [forallb fst] in H. apply andb_true_iff in H. destruct H as [H1 H2].
  destruct (Z.eqb_spec k st); [lia|]. cbn [andb]. auto.
Qed.

Lemma transition_neg st p : st < 0 -> transition st p = transition (-1) p.
Proof.
  intros H. unfold transition.
  rewrite !(trans_lookup_neg grTransitions st) by (auto; vm_compute; reflexivity).
  rewrite !(trans_lookup_neg grTransitions (-1)) by (try lia; vm_compute; reflexivity).
  reflexivity.
Qed.

(** With any admissible state [StepString] does the same as with state -1. *)
Lemma StepString_Good s state : Good state s -> StepString s state = StepString s (-1).
Proof.
  intros [H|[->|(r & n & l & H & ->)]]; [|reflexivity|].
  - unfold StepString. destruct s as [|c s]; auto.
    destruct (DecodeRune (c :: s)) as [r n]. destruct (_ <=? _); auto.
    destruct (Z.ltb_spec state 0); [|lia]. cbn [Z.ltb Z.compare].
    unfold transitionGraphemeState. rewrite transition_neg by auto. reflexivity.
  - unfold StepString. destruct s as [|c s]; auto.
    rewrite decode_cons in H by congruence.
    destruct (DecodeRune (c :: s)) as [r' n'].
    assert (r' = r) by congruence. subst r'. clear H. destruct (_ <=? _); auto.
    destruct (Z.ltb_spec (pack (class r)) 0) as [K|K].
    { pose proof (pack_nonneg (class r)). lia. }
    destruct (pack_unpack (class r)) as [E1 E2]. rewrite E1, E2. cbn [Z.ltb Z.compare].
    unfold transitionGraphemeState. fold (gprop r). rewrite gprop_class.
    pose proof (transition_first (class r)) as T.
    destruct (transition (-1) (code (class r))) as [ns b]. cbn [fst] in T. subst ns. reflexivity.
Qed.

(** The cluster width [StepString] reports, as a function of the cluster. *)
Definition step_cluster_width (l : list (Z * Z)) : Z :=
  match l with
  | [] => 0
  | (r, _) :: l' => wfold (gprop r) (uniRuneWidth r (gprop r)) l'
  end.

Lemma StepString_spec s : s <> [] ->
  exists p q ns,
    StepString s (-1) = Some (p, q, Z.shiftl (step_cluster_width (decode p)) ShiftWidth, ns)
    /\ s = p ++ q /\ p <> [] /\ decode s = decode p ++ decode q
    /\ segments (map fst (decode s)) = map fst (decode p) :: segments (map fst (decode q))
    /\ Good ns q /\ 0 <= ns.
Proof.
  intros Hs. pose proof (DecodeRune_size s Hs) as [S1 S2].
  pose proof (decode_cons s Hs) as Hd.
  unfold StepString. destruct (DecodeRune s) as [r n] eqn:E. cbn [snd] in *.
  destruct s as [|c s']; [congruence|]. set (s := c :: s') in *.
  destruct (Z.leb_spec (slen s) n) as [Hn|Hn].
  - (* single rune *)
    exists s, [], grAny. rewrite app_nil_r, decode_nil, app_nil_r.
    rewrite (drop_ge s n) in Hd by lia. rewrite decode_nil in Hd.
    rewrite Hd. cbn [map fst segments seg step_cluster_width wfold fold_left].
    repeat split; auto; [|vm_compute; congruence]. right. left. reflexivity.
  - cbn [Z.ltb Z.compare]. unfold transitionGraphemeState. fold (gprop r).
    pose proof (transition_first (class r)) as T. rewrite <- gprop_class in T.
    destruct (transition (-1) (gprop r)) as [st b]. cbn [fst] in T. subst st.
    destruct (step_loop_spec (length s) s n [class r] (gprop r) (uniRuneWidth r (gprop r))
                ltac:(congruence) ltac:(lia) ltac:(unfold slen in *; lia)) as (ns & Hst & Hns & Hq).
    pose proof (take_seg_app [class r] (decode (drop n s))) as Happ.
    pose proof (seg_take (decode (drop n s)) [class r] [r] ltac:(congruence)) as Hseg.
    destruct (take_seg [class r] (decode (drop n s))) as [lp lq]. cbn [fst snd] in *.
    assert (Hdec : decode s = ((r, n) :: lp) ++ lq) by (rewrite Hd; cbn [app]; congruence).
    destruct (decode_split _ _ _ Hdec) as (p & q & Es & Hp & Hqd & Hlen).
    exists p, q, ns.
    assert (Etake : take (n + nb lp) s = p).
    { rewrite Es. replace (n + nb lp) with (slen p) by (rewrite Hlen, nb_cons; reflexivity).
      apply take_app_exact. }
    assert (Edrop : drop (n + nb lp) s = q).
    { rewrite Es at 1. replace (n + nb lp) with (slen p) by (rewrite Hlen, nb_cons; reflexivity).
      apply drop_app_exact. }
    rewrite Etake, Edrop in Hst. rewrite Hp, Hqd. cbn [step_cluster_width].
    split; [exact Hst|]. split; [exact Es|]. split.
    { intros ->. rewrite decode_nil in Hp. discriminate. }
    split; [exact Hdec|]. split.
    { rewrite Hd. cbn [map fst segments]. exact Hseg. }
    split; [|exact Hns].
    destruct Hq as [Hq|(r' & m & l & Hq & Hns')].
    + right. left. apply decode_nil_inv. congruence.
    + right. right. exists r', m, l. rewrite Hqd. auto.
Qed.

(** ** Iteration *)

(** The successive clusters of a string (as bytes) with their offsets. *)
Lemma iterate_spec fuel : forall g, (length (g_remaining g) < fuel)%nat ->
  Good (g_state g) (g_remaining g) ->
  exists gs, iterate fuel g = Some gs
  /\ concat (map g_cluster gs) = g_remaining g
  /\ map (fun h => runes (g_cluster h)) gs = segments (runes (g_remaining g))
  /\ Forall (fun h => g_cluster h <> [] /\ 0 <= g_state h) gs
  /\ (forall h gs1 gs2, gs = gs1 ++ h :: gs2 ->
        g_offset h = g_offset g + slen (g_cluster g) + slen (concat (map g_cluster gs1))
        /\ g_remaining h = concat (map g_cluster gs2))
  /\ Forall (fun h => g_boundaries h =
        Z.shiftl (step_cluster_width (decode (g_cluster h))) ShiftWidth) gs.
Proof.
  induction fuel as [|f IH]; intros g Hf Hg; [lia|].
  cbn [iterate]. unfold Next. destruct (g_remaining g) as [|c rem] eqn:Er.
  - exists []. repeat split; auto; try constructor; destruct gs1; discriminate.
  - rewrite StepString_Good by auto.
    destruct (StepString_spec (c :: rem) ltac:(congruence))
      as (p & q & ns & Hst & Es & Hp & Hd & Hseg & HG & Hns).
    rewrite Hst. set (g' := {| g_original := _ |}).
    destruct (IH g') as (gs & Hi & Hc & Hr & Hne & Ho & Hbw).
    { cbn [g_remaining g']. apply (f_equal (@length byte)) in Es. rewrite app_length in Es.
      destruct p; [congruence|]. cbn [length] in *. lia. }
    { exact HG. }
    rewrite Hi. exists (g' :: gs). split; [reflexivity|].
    split. { cbn [map concat]. rewrite Hc. symmetry. exact Es. }
    split. { cbn [map]. rewrite Hr. unfold runes. rewrite Hseg. reflexivity. }
    split. { constructor; [split; [exact Hp|exact Hns]|exact Hne]. }
    split.
    + intros h gs1 gs2 E. destruct gs1 as [|h1 gs1].
      * cbn [app] in E. injection E as <- <-. cbn [map concat]. rewrite slen_nil, Hc.
        split; [|reflexivity]. cbn [g_offset g']. lia.
      * cbn [app] in E. injection E as <- E. destruct (Ho h gs1 gs2 E) as [H1 H2].
        split; [|exact H2]. rewrite H1. cbn [map concat g_offset g_cluster g'].
        rewrite slen_app. lia.
    + constructor; [reflexivity|exact Hbw].
Qed.

Definition graphemes (s : str) : list Graphemes :=
  match iterate (S (length s)) (NewGraphemes s) with Some gs => gs | None => [] end.

Lemma iterate_new s fuel : (length s < fuel)%nat ->
  exists gs, iterate fuel (NewGraphemes s) = Some gs
  /\ concat (map g_cluster gs) = s
  /\ map Runes gs = segments (runes s)
  /\ Forall (fun h => g_cluster h <> []) gs
  /\ (forall h gs1 gs2, gs = gs1 ++ h :: gs2 ->
        g_offset h = slen (concat (map g_cluster gs1))
        /\ g_remaining h = concat (map g_cluster gs2))
  /\ Forall (fun h => g_boundaries h =
        Z.shiftl (step_cluster_width (decode (g_cluster h))) ShiftWidth) gs.
Proof.
  intros Hf. destruct (iterate_spec fuel (NewGraphemes s)) as (gs & Hi & Hc & Hr & Hne & Ho & Hb).
  - exact Hf.
  - left. vm_compute. reflexivity.
  - exists gs. split; [exact Hi|]. split; [exact Hc|]. split.
    { change (g_remaining (NewGraphemes s)) with s in Hr. rewrite <- Hr. apply map_ext_in. intros h Hh. rewrite Forall_forall in Hne.
      destruct (Hne h Hh) as [_ Hs]. unfold Runes. destruct (Z.ltb_spec (g_state h) 0); [lia|auto]. }
    split. { eapply Forall_impl; [|exact Hne]. simpl. tauto. }
    split; [|exact Hb]. intros h gs1 gs2 E. destruct (Ho h gs1 gs2 E) as [H1 H2]. split; auto.
Qed.

(** After the end, [Next] keeps returning false. *)
Lemma Next_end g : g_remaining g = [] ->
  exists g', Next g = Some (g', false) /\ g_remaining g' = [] /\ Runes g' = [].
Proof. intros H. unfold Next. rewrite H. eexists. split; [reflexivity|]. split; reflexivity. Qed.
