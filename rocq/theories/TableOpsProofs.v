(** * TableOpsProofs: table.go. *)
From Coq Require Import Permutation Strings.String.
From Verif Require Import GoBase Utf8 Utf8Proofs GraphemeSpec Runewidth ConditionSpec
  StringWidthProofs Width TextSpec AlignSpec WidthProofs WidthTheory Table AlignProofs TableContract
  CacheProofs.
From Coq Require Import ZifyBool ZifyNat.
Local Open Scope Z_scope.

Lemma vwidth_range c s : 0 <= vwidth c s < 65536.
Proof. apply u16_range. Qed.

Section Types.
Context {Item Val E : Type}.
Notation Column := (Column Item Val E).
Notation TSpec := (TableSpec Item Val E).
Notation Table := (Table Item Val E).
Implicit Types t : Table.

(** ** Widths *)
Lemma wset_same m k v : wset m k v k = v.
Proof. unfold wset. rewrite str_eqb_refl. reflexivity. Qed.
Lemma wset_other m k v x : x <> k -> wset m k v x = m x.
Proof. intros H. unfold wset. destruct (str_eqb_spec x k); congruence. Qed.

Lemma raise_ok t k w : columnWidth t <> None ->
  exists t', raise_width t k w = (t', Ok tt : outcome E unit) /\ tSpec t' = tSpec t
    /\ columnWidth t' <> None
    /\ forall n, Width t' n = if str_eqb n k then Z.max (Width t n) w else Width t n.
Proof.
  intros H. unfold raise_width. fold (Width t k). destruct (Z.gtb_spec w (Width t k)).
  - destruct (columnWidth t) as [m|] eqn:Em; [|congruence]. eexists. split; [reflexivity|].
    cbn [set_width tSpec columnWidth]. repeat split; [congruence|]. intros n.
    unfold Width, set_width. cbn [columnWidth wread]. unfold Width in *. rewrite Em in *. cbn [wread] in *.
    destruct (str_eqb_spec n k) as [->|Hn]; [rewrite wset_same; lia|apply wset_other; auto].
  - exists t. repeat split; auto. intros n. destruct (str_eqb_spec n k) as [->|]; auto. lia.
Qed.

Lemma raise_nil t k w : columnWidth t = None ->
  raise_width t k w = (t, if w >? 0 then Panic NilMapWrite else Ok tt).
Proof. intros H. unfold raise_width. rewrite H. cbn [wread]. destruct (w >? 0); reflexivity. Qed.

(** The widths in a list for a name. *)
Lemma update_spec l : forall t, columnWidth t <> None ->
  exists t', UpdateWidth t l = (t', Ok tt : outcome E unit) /\ tSpec t' = tSpec t
    /\ columnWidth t' <> None
    /\ forall n, IsMax (fun w => w = Width t n \/ In (n, w) l) (Width t' n).
Proof.
  induction l as [|[k w] l IH]; intros t H; cbn [UpdateWidth].
  - exists t. repeat split; auto. intros x [->|[]]. lia.
  - destruct (raise_ok t k w H) as (t1 & E1 & Hs1 & Hm1 & Hw1). rewrite E1.
    destruct (IH t1 Hm1) as (t2 & E2 & Hs2 & Hm2 & Hw2). rewrite E2. exists t2.
    split; [reflexivity|]. split; [congruence|]. split; auto. intros n.
    destruct (Hw2 n) as [Ha Hb]. rewrite Hw1 in Ha, Hb. clear Hw2. destruct (str_eqb_spec n k) as [En|Hn]; [subst n|].
    + split.
      * destruct Ha as [Ha|Ha]; [|right; right; auto].
        rewrite Ha. destruct (Z.max_spec (Width t k) w) as [[_ ->]|[_ ->]]; [right; left; auto|left; auto].
      * intros x [->|[Hx|Hx]].
        -- specialize (Hb _ (or_introl eq_refl)). lia.
        -- injection Hx as <-. specialize (Hb _ (or_introl eq_refl)). lia.
        -- apply Hb. auto.
    + split.
      * destruct Ha as [Ha|Ha]; [left; auto|right; right; auto].
      * intros x [->|[Hx|Hx]]; [apply Hb; auto|congruence|apply Hb; auto].
Qed.

Lemma IsMax_unique S m m' : IsMax S m -> IsMax S m' -> m = m'.
Proof. intros [H1 H2] [H3 H4]. apply Z.le_antisymm; auto. Qed.

Lemma IsMax_ext (S S' : Z -> Prop) m : (forall x, S x <-> S' x) -> IsMax S m -> IsMax S' m.
Proof. intros H [H1 H2]. split; [apply H; auto|]. intros x Hx. apply H2. apply H. auto. Qed.

Lemma update_order t l l' : columnWidth t <> None -> Permutation l l' ->
  forall n, Width (fst (UpdateWidth (E := E) t l)) n = Width (fst (UpdateWidth (E := E) t l')) n.
Proof.
  intros H HP n. destruct (update_spec l t H) as (t1 & -> & _ & _ & H1).
  destruct (update_spec l' t H) as (t2 & -> & _ & _ & H2). cbn [fst].
  eapply IsMax_unique; [apply H1|]. eapply IsMax_ext; [|apply H2]. intros x. cbn beta.
  split; (intros [K|K]; [left; auto|right]); [eapply Permutation_in; [apply Permutation_sym; eauto|eauto]|
    eapply Permutation_in; eauto].
Qed.

Lemma update_map t l : columnWidth t <> None -> NoDup (map fst l) ->
  (forall k w, In (k, w) l -> Width (fst (UpdateWidth (E := E) t l)) k = Z.max (Width t k) w)
  /\ (forall k, ~ In k (map fst l) -> Width (fst (UpdateWidth (E := E) t l)) k = Width t k).
Proof.
  intros H HN. destruct (update_spec l t H) as (t1 & -> & _ & _ & H1). cbn [fst]. split.
  - intros k w Hin. eapply IsMax_unique; [apply H1|].
    assert (U : forall w', In (k, w') l -> w' = w).
    { clear -HN Hin. intros w' Hin'. induction l as [|[k0 w0] l IH]; [contradiction|].
      cbn [map fst] in HN. inversion HN; subst. destruct Hin as [Hin|Hin], Hin' as [Hin'|Hin'].
      - congruence.
      - injection Hin as <- <-. exfalso. apply H1. apply (in_map fst) in Hin'. exact Hin'.
      - injection Hin' as <- <-. exfalso. apply H1. apply (in_map fst) in Hin. exact Hin.
      - auto. }
    split.
    + destruct (Z.max_spec (Width t k) w) as [[_ ->]|[_ ->]]; auto.
    + intros x [->|Hx]; [lia|]. rewrite (U x Hx). lia.
  - intros k Hk. eapply IsMax_unique; [apply H1|]. split; auto.
    intros x [->|Hx]; [lia|]. exfalso. apply Hk. apply (in_map fst) in Hx. exact Hx.
Qed.

(** On the nil map of a zero [Table]. *)
Lemma update_nil t l : columnWidth t = None ->
  UpdateWidth t l = (t, if existsb (fun e => snd e >? 0) l then Panic NilMapWrite else Ok tt : outcome E unit).
Proof.
  intros H. induction l as [|[k w] l IH]; cbn [UpdateWidth existsb snd]; [reflexivity|].
  rewrite (raise_nil t k w H). destruct (w >? 0); [reflexivity|exact IH].
Qed.

(** ** FormatItem *)
Lemma SeenIn_nil c cols name w : ~ SeenIn (Item := Item) (Val := Val) (E := E) c cols [] name w.
Proof. intros (i & col & v & _ & H & _). destruct i; discriminate. Qed.

Lemma SeenIn_cons c col cols v vs name w :
  SeenIn (Item := Item) (Val := Val) (E := E) c (Some col :: cols) (v :: vs) name w <->
  (colName col = name /\ w = vwidth c v) \/ SeenIn c cols vs name w.
Proof.
  split.
  - intros ([|i] & col' & v' & H1 & H2 & H3 & H4); cbn [nth_error] in *.
    + injection H1 as <-. injection H2 as <-. auto.
    + right. exists i, col', v'. auto.
  - intros [[H1 H2]|(i & col' & v' & H1 & H2 & H3)].
    + exists 0%nat, col, v. auto.
    + exists (S i), col', v'. auto.
Qed.

Lemma formatItem_spec c item cols : forall t done t' out, columnWidth t <> None ->
  formatItem_loop c t cols item done = (t', out) ->
  exists pre vs,
    ((pre = cols /\ AllOk (cell item) cols vs /\ out = Ok (done ++ vs)) \/ FirstFailure (cell item) cols pre vs out)
    /\ tSpec t' = tSpec t /\ columnWidth t' <> None
    /\ forall n, IsMax (fun w => w = Width t n \/ SeenIn c pre vs n w) (Width t' n).
Proof.
  assert (Stay : forall c t n, IsMax (fun w => w = Width t n \/ SeenIn (Item := Item) (Val := Val) (E := E) c [] [] n w) (Width t n)).
  { intros c0 t n. split; auto. intros x [->|H]; [lia|]. apply SeenIn_nil in H. contradiction. }
  induction cols as [|o cols IH]; intros t done t' out Ht E0; cbn [formatItem_loop] in E0.
  - injection E0 as <- <-. exists [], []. split; [left; split; [auto|split; [constructor|rewrite app_nil_r; auto]]|].
    repeat split; auto; apply Stay.
  - assert (Fail : cell item o = match out with Ok _ => Panic NilDereference | Err e => Err e | Panic p => Panic p end ->
      (forall x, out <> Ok x) -> t' = t -> exists pre vs,
      ((pre = o :: cols /\ AllOk (cell item) (o :: cols) vs /\ out = Ok (done ++ vs)) \/ FirstFailure (cell item) (o :: cols) pre vs out)
      /\ tSpec t' = tSpec t /\ columnWidth t' <> None
      /\ forall n, IsMax (fun w => w = Width t n \/ SeenIn c pre vs n w) (Width t' n)).
    { intros Hc Hno ->. exists [], []. split; [right|repeat split; auto; apply Stay].
      exists o, cols. split; [reflexivity|]. split; [constructor|].
      destruct out as [x|e|p]; [exfalso; apply (Hno x); auto|left|right]; eauto. }
    destruct o as [col|]; [|injection E0 as <- <-; apply Fail; auto; congruence].
    cbn [cell] in Fail. destruct (colGetter col) as [g|] eqn:Eg; [|injection E0 as <- <-; apply Fail; auto; congruence].
    destruct (getValue g item) as [v|e|p] eqn:Ev; [|injection E0 as <- <-; apply Fail; auto; congruence..].
    destruct (getFormat g item v) as [s|e|p] eqn:Ef; [|injection E0 as <- <-; apply Fail; auto; congruence..].
    clear Fail. destruct (raise_ok t (colName col) (vwidth c s) Ht) as (t1 & E1 & Hs1 & Hm1 & Hw1).
    rewrite E1 in E0. destruct (IH t1 (done ++ [s]) t' out Hm1 E0) as (pre & vs & Hres & Hs & Hm & Hw).
    assert (Hcell : cell item (Some col) = Ok s) by (cbn [cell]; rewrite Eg, Ev; exact Ef).
    exists (Some col :: pre), (s :: vs). split; [|split; [congruence|split; [auto|]]].
    + destruct Hres as [(-> & HA & ->)|(a & post & -> & HA & Hf)].
      * left. split; auto. split; [constructor; auto|]. rewrite <- app_assoc. reflexivity.
      * right. exists a, post. split; [reflexivity|]. split; [constructor; auto|exact Hf].
    + intros n. specialize (Hw n). rewrite Hw1 in Hw. destruct Hw as [Ha Hb].
      pose proof (Hb _ (or_introl eq_refl)) as Hb0.
      split.
      * destruct Ha as [Ha|Ha]; [|right; apply SeenIn_cons; right; auto].
        destruct (str_eqb_spec n (colName col)) as [En|En]; [|left; auto].
        rewrite Ha. destruct (Z.max_spec (Width t n) (vwidth c s)) as [[_ ->]|[_ ->]]; [|left; auto].
        right. apply SeenIn_cons. left. auto.
      * intros x [->|Hx].
        -- destruct (str_eqb_spec n (colName col)); lia.
        -- apply SeenIn_cons in Hx. destruct Hx as [[En ->]|Hx]; [|apply Hb; auto].
           destruct (str_eqb_spec n (colName col)); [lia|congruence].
Qed.

Lemma FormatItem_spec c t item t' out : columnWidth t <> None -> FormatItem c t item = (t', out) ->
  exists pre vs,
    ((pre = Columns (tSpec t) /\ AllOk (cell item) (Columns (tSpec t)) vs /\ out = Ok vs)
     \/ FirstFailure (cell item) (Columns (tSpec t)) pre vs out)
    /\ tSpec t' = tSpec t /\ columnWidth t' <> None
    /\ forall n, IsMax (fun w => w = Width t n \/ SeenIn c pre vs n w) (Width t' n).
Proof. intros H E0. exact (formatItem_spec c item _ t [] t' out H E0). Qed.

Lemma AllOk_app {A B} (f : A -> outcome E B) l1 l2 vs : AllOk f (l1 ++ l2) vs ->
  exists v1 v2, vs = v1 ++ v2 /\ AllOk f l1 v1 /\ AllOk f l2 v2.
Proof.
  intros H. apply Forall2_app_inv_l in H. destruct H as (v1 & v2 & H1 & H2 & ->). eauto 6.
Qed.

Lemma AllOk_nth {A B} (f : A -> outcome E B) l vs : AllOk f l vs -> forall i a v,
  nth_error l i = Some a -> nth_error vs i = Some v -> f a = Ok v.
Proof.
  induction 1 as [|a v l vs Hav H IH]; intros [|i] a' v' H1 H2; cbn in *; try discriminate; eauto. congruence.
Qed.

Lemma AllOk_nth_l {A B} (f : A -> outcome E B) l vs : AllOk f l vs -> forall i a,
  nth_error l i = Some a -> exists v, nth_error vs i = Some v /\ f a = Ok v.
Proof.
  induction 1 as [|a v l vs Hav H IH]; intros [|i] a' H1; cbn in *; try discriminate; eauto.
  injection H1 as <-. eauto.
Qed.

Lemma AllOk_fun {A B} (f : A -> outcome E B) l v1 v2 : AllOk f l v1 -> AllOk f l v2 -> v1 = v2.
Proof.
  intros H. revert v2. induction H; intros v2 H2; inversion H2; subst; auto.
  f_equal; [congruence|auto].
Qed.

(** ** Histories *)
Definition hist_ok (cols0 : list (option Column)) (ops : list (table_op Item Val E)) t : Prop :=
  columnWidth t <> None /\ Columns (tSpec t) = cols0 ++ added ops
  /\ forall n, IsMax (Shown cols0 ops n) (Width t n).

Lemma added_app ops1 ops2 : added (Item := Item) (Val := Val) (E := E) (ops1 ++ ops2) = added ops1 ++ added ops2.
Proof. apply flat_map_app. Qed.

Lemma Shown_more cols0 ops o n w : Shown cols0 ops n w -> Shown (Item := Item) (Val := Val) (E := E) cols0 (ops ++ [o]) n w.
Proof.
  intros H. destruct H.
  - apply shown_zero.
  - subst. eapply shown_update; [rewrite <- app_assoc; cbn [app]; reflexivity|eauto].
  - subst. eapply shown_format; [rewrite <- app_assoc; cbn [app]; reflexivity|eauto..].
Qed.

Lemma app_last_inv {A} (l1 l2 l3 : list A) x y : l1 ++ [x] = l2 ++ y :: l3 ->
  (l3 = [] /\ l1 = l2 /\ x = y) \/ exists l3', l3 = l3' ++ [x] /\ l1 = l2 ++ y :: l3'.
Proof.
  intros H. destruct l3 as [|z l3 _] using rev_ind.
  - apply app_inj_tail in H. destruct H. left. auto.
  - right. rewrite app_comm_cons, app_assoc in H. apply app_inj_tail in H. destruct H as [H1 H2]. subst z.
    exists l3. auto.
Qed.

Lemma Shown_last cols0 ops o n w : Shown (Item := Item) (Val := Val) (E := E) cols0 (ops ++ [o]) n w ->
  Shown cols0 ops n w
  \/ (exists l, o = OpUpdate l /\ In (n, w) l)
  \/ (exists c item pre col post vs v, o = OpFormat c item /\ cols0 ++ added ops = pre ++ Some col :: post
      /\ AllOk (cell item) pre vs /\ cell item (Some col) = Ok v /\ colName col = n /\ w = vwidth c v).
Proof.
  intros H. inversion H as [|before l after w' E0 Hin|before c item after pre col post vs v E0 E1 HA Hc Hn]; subst.
  - left. apply shown_zero.
  - apply app_last_inv in E0. destruct E0 as [(-> & -> & ->)|(l3 & -> & ->)].
    + right. left. eauto.
    + left. eapply shown_update; eauto.
  - apply app_last_inv in E0. destruct E0 as [(-> & -> & ->)|(l3 & -> & ->)].
    + right. right. exists c, item, pre, col, post, vs, v. auto 10.
    + left. eapply shown_format; eauto.
Qed.

Lemma SeenIn_prefix c item (pre : list (option Column)) vs n w : AllOk (cell item) pre vs -> SeenIn c pre vs n w ->
  exists p1 col p2 v1 v, pre = p1 ++ Some col :: p2 /\ AllOk (cell item) p1 v1
    /\ cell item (Some col) = Ok v /\ colName col = n /\ w = vwidth c v.
Proof.
  intros HA (i & col & v & H1 & H2 & H3 & H4). pose proof (AllOk_nth _ _ _ HA i _ _ H1 H2) as Hc.
  apply nth_error_split in H1. destruct H1 as (p1 & p2 & -> & _).
  apply AllOk_app in HA. destruct HA as (v1 & v2 & -> & HA1 & _).
  exists p1, col, p2, v1, v. auto 6.
Qed.

Lemma Prefix_SeenIn c item (cols pre p1 p2 : list (option Column)) col vs v v1 :
  (cols = pre \/ exists a post, cols = pre ++ a :: post /\ (forall x, cell item a <> Ok x)) ->
  AllOk (cell item) pre vs -> cols = p1 ++ Some col :: p2 -> AllOk (cell item) p1 v1 ->
  cell item (Some col) = Ok v -> SeenIn c pre vs (colName col) (vwidth c v).
Proof.
  intros Hcols HA E0 HA1 Hv.
  assert (Hi : nth_error cols (List.length p1) = Some (Some col)).
  { rewrite E0. rewrite nth_error_app2, Nat.sub_diag by lia. reflexivity. }
  assert (Hp : nth_error pre (List.length p1) = Some (Some col)).
  { destruct Hcols as [<-|(a & post & Ec & Ha)]; [exact Hi|].
    destruct (Nat.lt_trichotomy (List.length p1) (List.length pre)) as [L|[L|L]].
    - rewrite Ec, nth_error_app1 in Hi by auto. exact Hi.
    - rewrite Ec, nth_error_app2 in Hi by lia. rewrite L, Nat.sub_diag in Hi. cbn in Hi. injection Hi as ->.
      exfalso. eapply Ha; eauto.
    - exfalso. (* the failing column lies inside p1 *)
      assert (Hpa : nth_error p1 (List.length pre) = Some a).
      { assert (nth_error cols (List.length pre) = Some a) as K
          by (rewrite Ec, nth_error_app2, Nat.sub_diag by lia; reflexivity).
        rewrite E0, nth_error_app1 in K by auto. exact K. }
      destruct (AllOk_nth_l _ _ _ HA1 _ _ Hpa) as (x & _ & Hx). eapply Ha; eauto. }
  destruct (AllOk_nth_l _ _ _ HA _ _ Hp) as (v' & H1 & H2).
  exists (List.length p1), col, v'. repeat split; auto. congruence.
Qed.

Lemma history_step cols0 ops o t : uint16_op o -> hist_ok cols0 ops t ->
  hist_ok cols0 (ops ++ [o]) (table_step t o).
Proof.
  intros Hu (Hm & Hc & Hw). destruct o as [l|c item|col]; cbn [table_step].
  - destruct (update_spec l t Hm) as (t' & E1 & Hs & Hm' & Hw'). rewrite E1. cbn [fst].
    split; auto. split.
    { rewrite Hs, Hc, added_app. cbn [added flat_map]. rewrite app_nil_r. reflexivity. }
    intros n. destruct (Hw' n) as [Ha Hb]. destruct (Hw n) as [Hc1 Hc2]. split.
    + destruct Ha as [->|Ha]; [apply Shown_more; auto|]. eapply shown_update; [reflexivity|eauto].
    + intros x Hx. apply Shown_last in Hx. destruct Hx as [Hx|[(l' & E0 & Hin)|(c & item & pre & col & post & vs & v & E0 & _)]].
      * apply Hc2 in Hx. specialize (Hb _ (or_introl eq_refl)). lia.
      * injection E0 as <-. apply Hb. auto.
      * discriminate.
  - destruct (FormatItem c t item) as [t' out] eqn:E1. cbn [fst].
    destruct (FormatItem_spec c t item t' out Hm E1) as (pre & vs & Hres & Hs & Hm' & Hw').
    rewrite Hc in Hres.
    assert (HA : AllOk (cell item) pre vs /\ exists post, cols0 ++ added ops = pre ++ post).
    { destruct Hres as [(-> & HA & _)|(a & post & Ec & HA & _)]; split; auto.
      - exists []. rewrite app_nil_r. auto.
      - eauto. }
    assert (Hcols : (cols0 ++ added ops = pre \/ exists a post, cols0 ++ added ops = pre ++ a :: post /\ (forall x, cell item a <> Ok x))).
    { destruct Hres as [(-> & _)|(a & post & Ec & _ & Hf)]; [left; auto|right]. exists a, post. split; auto.
      intros x K. destruct Hf as [(e & Hf & _)|(p & Hf & _)]; congruence. }
    destruct HA as [HA (post & Epost)]. clear Hres.
    split; auto. split.
    { rewrite Hs, Hc, added_app. cbn [added flat_map]. rewrite app_nil_r. reflexivity. }
    intros n. destruct (Hw' n) as [Ha Hb]. destruct (Hw n) as [Hc1 Hc2]. split.
    + destruct Ha as [->|Ha]; [apply Shown_more; auto|].
      destruct (SeenIn_prefix c item pre vs n _ HA Ha) as (p1 & col & p2 & v1 & v & -> & HA1 & Hv & Hn & ->).
      rewrite <- app_assoc in Epost. cbn [app] in Epost.
      eapply shown_format; [reflexivity|exact Epost|eauto..].
    + intros x Hx. apply Shown_last in Hx.
      destruct Hx as [Hx|[(l' & E0 & _)|(c' & item' & p1 & col & p2 & v1 & v & E0 & Ep & HA1 & Hv & Hn & ->)]].
      * apply Hc2 in Hx. specialize (Hb _ (or_introl eq_refl)). lia.
      * discriminate.
      * injection E0 as <- <-. apply Hb. right. subst n. eapply Prefix_SeenIn; eauto.
  - split; [auto|]. split.
    { cbn [tSpec]. unfold AddColumn. rewrite added_app, app_assoc, <- Hc. cbn [added flat_map app].
      destruct col as [cl|]; [destruct (ColumnByName (tSpec t))|]; reflexivity. }
    intros n. destruct (Hw n) as [Hc1 Hc2].
    change (Width {| tSpec := fst (AddColumn (tSpec t) col); columnWidth := columnWidth t |} n) with (Width t n).
    split; [apply Shown_more; auto|]. intros x Hx. apply Shown_last in Hx.
    destruct Hx as [Hx|[(l' & E0 & _)|(c' & item' & p1 & col' & p2 & v1 & v & E0 & _)]]; try discriminate. auto.
Qed.

Lemma Shown_nonneg cols0 ops n w : Forall uint16_op ops ->
  Shown (Item := Item) (Val := Val) (E := E) cols0 ops n w -> 0 <= w < 65536.
Proof.
  intros HU H. destruct H.
  - lia.
  - subst. apply Forall_app in HU. destruct HU as [_ HU]. inversion HU as [|? ? Hl _]; subst.
    cbn in Hl. rewrite Forall_forall in Hl. apply (Hl (n, w)). auto.
  - apply vwidth_range.
Qed.

Lemma history_max (spec : option TSpec) ops : Forall uint16_op ops ->
  forall n, IsMax (Shown (match spec with None => [] | Some s => Columns s end) ops n)
                  (Width (table_run (NewTable spec) ops) n).
Proof.
  intros HU. set (cols0 := match spec with None => [] | Some s => Columns s end).
  assert (K : hist_ok cols0 ops (table_run (NewTable spec) ops)).
  { induction ops as [|o ops IH] using rev_ind.
    - split; [cbn; congruence|]. split; [cbn [added flat_map]; rewrite app_nil_r; subst cols0; destruct spec; reflexivity|].
      intros n. split; [apply shown_zero|]. intros x Hx. change (Width (table_run (NewTable spec) []) n) with 0.
      inversion Hx; subst; try lia; destruct before; discriminate.
    - apply Forall_app in HU. destruct HU as [HU Ho]. inversion Ho; subst. unfold table_run.
      rewrite fold_left_app. cbn [fold_left]. apply history_step; auto. }
  destruct K as (_ & _ & K). exact K.
Qed.

(** Widths never decrease. *)
Lemma history_mono (spec : option TSpec) ops ops' n : Forall uint16_op (ops ++ ops') ->
  Width (table_run (NewTable spec) ops) n <= Width (table_run (NewTable spec) (ops ++ ops')) n.
Proof.
  intros HU. destruct (history_max spec (ops ++ ops') HU n) as [_ H].
  apply Forall_app in HU. destruct HU as [HU _].
  destruct (history_max spec ops HU n) as [H' _]. apply H.
  clear -H'. induction ops' as [|o ops' IH] using rev_ind; [rewrite app_nil_r; auto|].
  rewrite app_assoc. apply Shown_more. exact IH.
Qed.

(** ** C25 *)
Lemma FormatItem_ok c t item vs : columnWidth t <> None ->
  (exists t', FormatItem c t item = (t', Ok vs)) <-> AllOk (cell item) (Columns (tSpec t)) vs.
Proof.
  intros H. destruct (FormatItem c t item) as [t' out] eqn:E0.
  destruct (FormatItem_spec c t item t' out H E0) as (pre & vs' & Hres & _). split.
  - intros (t1 & E1). injection E1 as <- ->. destruct Hres as [(_ & HA & E1)|(a & post & _ & _ & Hf)].
    + congruence.
    + destruct Hf as [(e & _ & Hf)|(p & _ & Hf)]; discriminate.
  - intros HA. destruct Hres as [(_ & HA' & ->)|(a & post & Ec & _ & Hf)].
    + rewrite (AllOk_fun _ _ _ _ HA HA'). eauto.
    + exfalso. destruct (AllOk_nth_l _ _ _ HA (List.length pre) a) as (v & _ & Hv).
      { rewrite Ec, nth_error_app2, Nat.sub_diag by lia. reflexivity. }
      destruct Hf as [(e & Hf & _)|(p & Hf & _)]; congruence.
Qed.

Lemma FormatItem_fails c t item t' out : columnWidth t <> None -> FormatItem c t item = (t', out) ->
  (forall vs, out <> Ok vs) -> exists pre vs, FirstFailure (cell item) (Columns (tSpec t)) pre vs out
    /\ forall n, IsMax (fun w => w = Width t n \/ SeenIn c pre vs n w) (Width t' n).
Proof.
  intros H E0 Hno. destruct (FormatItem_spec c t item t' out H E0) as (pre & vs & Hres & _ & _ & Hw).
  exists pre, vs. split; auto. destruct Hres as [(_ & _ & ->)|Hf]; auto. exfalso. eapply Hno; eauto.
Qed.

Lemma FormatItem_widths c t item t' vs : columnWidth t <> None -> FormatItem c t item = (t', Ok vs) ->
  forall n, IsMax (fun w => w = Width t n \/ SeenIn c (Columns (tSpec t)) vs n w) (Width t' n).
Proof.
  intros H E0. destruct (FormatItem_spec c t item t' _ H E0) as (pre & vs' & Hres & _ & _ & Hw).
  destruct Hres as [(-> & _ & E1)|(a & post & _ & _ & Hf)].
  - injection E1 as <-. exact Hw.
  - destruct Hf as [(e & _ & Hf)|(p & _ & Hf)]; discriminate.
Qed.

(** ** C26 *)
Definition tail_join (sep : str) (vs : list str) : str := concat (map (fun v => sep ++ v) vs).

Lemma join_cons sep v vs : join sep (v :: vs) = v ++ tail_join sep vs.
Proof.
  revert v. induction vs as [|x vs IH]; intros v; [cbn; rewrite app_nil_r; reflexivity|].
  change (join sep (v :: x :: vs)) with (v ++ sep ++ join sep (x :: vs)).
  rewrite (IH x). unfold tail_join. cbn [map concat]. rewrite <- app_assoc. reflexivity.
Qed.

Lemma basic_loop_spec (cols : list (option Column)) (item : Item) sep : forall index acc, 0 <= index ->
  (exists vs, AllOk (basic_cell item) cols vs /\
     formatItemBasic_loop cols item sep index acc =
       Ok (acc ++ (if index >? 0 then tail_join sep vs else join sep vs)))
  \/ exists pre vs, FirstFailure (basic_cell item) cols pre vs (formatItemBasic_loop cols item sep index acc).
Proof.
  induction cols as [|o cols IH]; intros index acc Hi.
  - left. exists []. split; [constructor|]. cbn. destruct (index >? 0); rewrite app_nil_r; reflexivity.
  - assert (Fail : forall r : outcome E str, formatItemBasic_loop (o :: cols) item sep index acc = r ->
      basic_cell item o = r -> (forall x, r <> Ok x) ->
      exists pre vs, FirstFailure (basic_cell item) (o :: cols) pre vs (formatItemBasic_loop (o :: cols) item sep index acc)).
    { intros r Er Hc Hno. exists [], []. exists o, cols. split; [reflexivity|]. split; [constructor|]. rewrite Er.
      destruct r as [x|e|p]; [exfalso; apply (Hno x); auto|left|right]; eauto. }
    destruct o as [col|].
    2:{ right. apply (Fail (Panic NilDereference)); [reflexivity|reflexivity|congruence]. }
    cbn [formatItemBasic_loop basic_cell] in *. destruct (colGetter col) as [g|] eqn:Eg.
    2:{ right. apply (Fail (Panic NilDereference)); [reflexivity|reflexivity|congruence]. }
    destruct (getValueString g (colName col) item) as [s|e|p] eqn:Ev.
    2:{ right. apply (Fail (Err e)); [reflexivity|reflexivity|congruence]. }
    2:{ right. apply (Fail (Panic p)); [reflexivity|reflexivity|congruence]. }
    clear Fail. cbn [obind]. set (acc' := (if index >? 0 then acc ++ sep else acc) ++ s).
    assert (Hc : basic_cell item (Some col) = Ok s) by (cbn [basic_cell]; rewrite Eg; exact Ev).
    destruct (IH (index + 1) acc' ltac:(lia)) as [(vs & HA & Er)|(pre & vs & Hf)].
    + left. exists (s :: vs). split; [constructor; auto|]. rewrite Er. f_equal.
      destruct (Z.gtb_spec (index + 1) 0); [|lia]. subst acc'.
      destruct (Z.gtb_spec index 0).
      * unfold tail_join. cbn [map concat]. rewrite <- !app_assoc. reflexivity.
      * rewrite join_cons, app_assoc. reflexivity.
    + right. destruct Hf as (a & post & -> & HA & Hf). exists (Some col :: pre), (s :: vs).
      exists a, post. split; [reflexivity|]. split; [constructor; auto|exact Hf].
Qed.

Lemma FormatItemBasic_spec t item sep :
  (exists vs, AllOk (basic_cell item) (Columns (tSpec t)) vs /\ FormatItemBasic t item sep = Ok (join sep vs))
  \/ exists pre vs, FirstFailure (basic_cell item) (Columns (tSpec t)) pre vs (FormatItemBasic t item sep).
Proof. exact (basic_loop_spec (Columns (tSpec t)) item sep 0 [] (Z.le_refl 0)). Qed.

(** ** C27 *)
Definition aligned_cell t (o : option Column) (s : str) : str :=
  match o with
  | Some col => match colAlignment col with None => s | Some al => al s (Width t (colName col)) end
  | None => s
  end.

Fixpoint zip_with {A B C} (f : A -> B -> C) (l : list A) (m : list B) : list C :=
  match l, m with
  | a :: l, b :: m => f a b :: zip_with f l m
  | _, _ => []
  end.

Lemma align_loop_ok t cols : forall done todo, List.length todo = List.length cols -> ~ In None cols ->
  alignFormatted_loop t cols done todo =
  (done ++ zip_with (aligned_cell t) cols todo, Ok (done ++ zip_with (aligned_cell t) cols todo)).
Proof.
  induction cols as [|o cols IH]; intros done todo L Hn.
  - destruct todo; [|discriminate]. reflexivity.
  - destruct todo as [|s todo]; [discriminate|]. destruct o as [col|]; [|exfalso; apply Hn; left; auto].
    cbn [alignFormatted_loop zip_with aligned_cell]. injection L as L.
    assert (Hn' : ~ In None cols) by (intros K; apply Hn; right; auto).
    destruct (colAlignment col) as [al|]; rewrite (IH _ _ L Hn'), <- app_assoc; reflexivity.
Qed.

Lemma align_loop_nil t cols : forall pre post done todo, cols = pre ++ None :: post -> ~ In None pre ->
  List.length todo = List.length cols ->
  alignFormatted_loop t cols done todo =
  (done ++ zip_with (aligned_cell t) pre todo ++ skipn (List.length pre) todo, Panic NilDereference).
Proof.
  induction cols as [|o cols IH]; intros pre post done todo Ec Hn L; [destruct pre; discriminate|].
  destruct todo as [|s todo]; [discriminate|]. injection L as L. destruct pre as [|o' pre].
  - injection Ec as -> ->. reflexivity.
  - injection Ec as <- ->. destruct o as [col|]; [|exfalso; apply Hn; left; auto].
    cbn [alignFormatted_loop zip_with aligned_cell skipn List.length].
    assert (Hn' : ~ In None pre) by (intros K; apply Hn; right; auto).
    destruct (colAlignment col) as [al|]; rewrite (IH pre post _ _ eq_refl Hn' L), <- app_assoc; reflexivity.
Qed.

Lemma nth_zip_with {A B C} (f : A -> B -> C) l : forall m i a b, nth_error l i = Some a ->
  nth_error m i = Some b -> nth_error (zip_with f l m) i = Some (f a b).
Proof.
  induction l as [|x l IH]; intros [|y m] [|i] a b H1 H2; cbn in *; try discriminate; auto.
  congruence.
Qed.
Lemma length_zip_with {A B C} (f : A -> B -> C) l : forall m, List.length l = List.length m ->
  List.length (zip_with f l m) = List.length m.
Proof. induction l as [|x l IH]; intros [|y m] H; cbn in *; try discriminate; auto. Qed.

Lemma Align_bad_length t formatted : List.length formatted <> List.length (Columns (tSpec t)) ->
  AlignFormattedItem t formatted = (formatted, Err (slen formatted, ColumnCount (tSpec t))).
Proof.
  intros H. unfold AlignFormattedItem, ColumnCount.
  destruct (Z.eqb_spec (slen formatted) (slen (Columns (tSpec t)))); [unfold slen in *; lia|reflexivity].
Qed.

Lemma Align_good t formatted : List.length formatted = List.length (Columns (tSpec t)) ->
  ~ In None (Columns (tSpec t)) ->
  exists cells, AlignFormattedItem t formatted = (cells, Ok cells)
    /\ List.length cells = List.length formatted
    /\ forall i col s, nth_error (Columns (tSpec t)) i = Some (Some col) -> nth_error formatted i = Some s ->
       nth_error cells i = Some (match colAlignment col with None => s | Some al => al s (Width t (colName col)) end).
Proof.
  intros L Hn. exists (zip_with (aligned_cell t) (Columns (tSpec t)) formatted).
  unfold AlignFormattedItem, ColumnCount.
  destruct (Z.eqb_spec (slen formatted) (slen (Columns (tSpec t)))); [|unfold slen in *; lia]. cbn [negb].
  split; [apply (align_loop_ok t _ [] formatted L Hn)|]. split; [apply length_zip_with; auto|].
  intros i col s H1 H2. rewrite (nth_zip_with _ _ _ i _ _ H1 H2). reflexivity.
Qed.

Lemma Align_error_iff t formatted : ~ In None (Columns (tSpec t)) ->
  ((exists e, snd (AlignFormattedItem t formatted) = Err e) <-> List.length formatted <> List.length (Columns (tSpec t))).
Proof.
  intros Hn. split.
  - intros (e & H) L. destruct (Align_good t formatted L Hn) as (cells & E0 & _). rewrite E0 in H. discriminate.
  - intros H. rewrite (Align_bad_length t formatted H). cbn. eauto.
Qed.

(** ** C28 *)
Lemma Formats_spec c t items t' rows : columnWidth t <> None -> Formats c t items t' rows ->
  columnWidth t' <> None /\ tSpec t' = tSpec t /\ (forall n, Width t n <= Width t' n)
  /\ List.length rows = List.length items
  /\ Forall (fun row => List.length row = List.length (Columns (tSpec t)) /\ ~ In None (Columns (tSpec t)) /\
      forall n w, SeenIn c (Columns (tSpec t)) row n w -> w <= Width t' n) rows.
Proof.
  intros Hm HF. induction HF as [t|t item rest t1 row t2 rows E0 HF IH].
  - repeat split; auto. intros; lia.
  - destruct (FormatItem_spec c t item t1 _ Hm E0) as (pre & vs & Hres & Hs & Hm1 & Hw).
    destruct Hres as [(-> & HA & E1)|(a & post & _ & _ & Hf)].
    2:{ exfalso. destruct Hf as [(e & _ & Hf)|(p & _ & Hf)]; discriminate. }
    injection E1 as <-. destruct (IH Hm1) as (Hm2 & Hs2 & Hmono & HL & HR).
    split; auto. split; [congruence|]. split.
    { intros n. specialize (Hmono n). destruct (Hw n) as [_ Hb]. specialize (Hb _ (or_introl eq_refl)). lia. }
    split; [cbn; congruence|]. rewrite Hs in *. constructor; auto. split; [|split].
    + symmetry. eapply Forall2_len; eauto.
    + intros K. apply In_nth_error in K. destruct K as (i & K).
      destruct (AllOk_nth_l _ _ _ HA _ _ K) as (v & _ & Hv). discriminate.
    + intros n w Hsn. destruct (Hw n) as [_ Hb]. specialize (Hb w (or_intror Hsn)). specialize (Hmono n). lia.
Qed.

Lemma FormatItem_range c t item t' out : columnWidth t <> None -> FormatItem c t item = (t', out) ->
  (forall n, 0 <= Width t n < 65536) -> forall n, 0 <= Width t' n < 65536.
Proof.
  intros H E0 Hr n. destruct (FormatItem_spec c t item t' out H E0) as (pre & vs & _ & _ & _ & Hw).
  destruct (Hw n) as [[->|(i & col & v & _ & _ & _ & ->)] _]; [apply Hr|apply vwidth_range].
Qed.

Lemma Formats_range c t items t' rows : columnWidth t <> None -> Formats c t items t' rows ->
  (forall n, 0 <= Width t n < 65536) -> forall n, 0 <= Width t' n < 65536.
Proof.
  intros Hm HF. induction HF as [t|t item rest t1 row t2 rows E0 HF IH]; auto.
  intros Hr. apply IH; [|eapply FormatItem_range; eauto].
  destruct (FormatItem_spec c t item t1 _ Hm E0) as (pre & vs & _ & _ & H & _). exact H.
Qed.

Lemma rows_line_up c t items t' rows : Reachable c -> columnWidth t <> None ->
  (forall n, 0 <= Width t n < 65536) -> Formats c t items t' rows ->
  forall row, In row rows -> exists cells, AlignFormattedItem t' row = (cells, Ok cells) /\
  forall i col a s, nth_error (Columns (tSpec t)) i = Some (Some col) -> nth_error row i = Some s ->
    colAlignment col = Some (align a c) -> Paddable a s ->
    exists cl, nth_error cells i = Some cl /\ vwidth c cl = Width t' (colName col).
Proof.
  intros Hc Hm Hr0 HF row Hin.
  pose proof (Formats_range c t items t' rows Hm HF Hr0) as Hr.
  destruct (Formats_spec c t items t' rows Hm HF) as (_ & Hs & _ & _ & HR).
  rewrite Forall_forall in HR. destruct (HR row Hin) as (HL & Hn & Hw).
  rewrite <- Hs in HL, Hn. destruct (Align_good t' row HL Hn) as (cells & E0 & _ & Hcells).
  exists cells. split; auto. intros i col a s H1 H2 Ha Hp. rewrite <- Hs in H1.
  specialize (Hcells i col s H1 H2). rewrite Ha in Hcells. eexists. split; [exact Hcells|].
  rewrite align_vwidth; auto.
  assert (vwidth c s <= Width t' (colName col)); [|lia].
  apply Hw. rewrite <- Hs. exists i, col, s. auto.
Qed.


Lemma run_table_range (spec : option TSpec) ops : Forall uint16_op ops ->
  columnWidth (table_run (NewTable spec) ops) <> None
  /\ forall n, 0 <= Width (table_run (NewTable spec) ops) n < 65536.
Proof.
  intros HU. split.
  - clear HU. assert (K : forall t, columnWidth t <> None -> columnWidth (table_run t ops) <> None).
    { induction ops as [|o ops IH]; intros t H; [exact H|]. cbn [table_run fold_left]. apply IH.
      destruct o as [l|c item|col]; cbn [table_step].
      - destruct (update_spec l t H) as (t' & -> & _ & H' & _). exact H'.
      - destruct (FormatItem c t item) as [t' out] eqn:E0.
        destruct (FormatItem_spec c t item t' out H E0) as (pre & vs & _ & _ & H' & _). exact H'.
      - exact H. }
    apply K. cbn. congruence.
  - intros n. destruct (history_max spec ops HU n) as [H _]. eapply Shown_nonneg; eauto.
Qed.

(** The whole story, from a new table: any history, then a list of items
    formatted one after the other, then each row aligned. *)
Lemma rows_line_up_new c (spec : option TSpec) ops items t' rows : Reachable c -> Forall uint16_op ops ->
  Formats c (table_run (NewTable spec) ops) items t' rows ->
  forall row, In row rows -> exists cells, AlignFormattedItem t' row = (cells, Ok cells) /\
  forall i col a s, nth_error (Columns (tSpec (table_run (NewTable spec) ops))) i = Some (Some col) ->
    nth_error row i = Some s -> colAlignment col = Some (align a c) -> Paddable a s ->
    exists cl, nth_error cells i = Some cl /\ vwidth c cl = Width t' (colName col).
Proof.
  intros Hc HU. destruct (run_table_range spec ops HU) as [H1 H2].
  apply rows_line_up; auto.
Qed.

(** ** C29 *)
Lemma add_all_app (s : TSpec) l l' : add_all s (l ++ l') = add_all (add_all s l) l'.
Proof. apply fold_left_app. Qed.

Definition last_named (name : str) (cols : list (option Column)) : option Column :=
  fold_left (fun acc o => match o with Some cl => if str_eqb name (colName cl) then Some cl else acc | None => acc end) cols None.

Lemma add_all_new cols : Columns (add_all (E := E) NewTableSpec cols) = cols
  /\ exists m, ColumnByName (add_all (E := E) NewTableSpec cols) = Some m
     /\ forall name, col_lookup m name = last_named name cols.
Proof.
  induction cols as [|o cols IH] using rev_ind; [split; [reflexivity|exists []; split; reflexivity]|].
  destruct IH as (IH1 & m & IH2 & IH3). rewrite add_all_app. cbn [add_all fold_left].
  change (fold_left (fun s col => fst (AddColumn (E := E) s col)) cols NewTableSpec) with (add_all (E := E) NewTableSpec cols).
  unfold AddColumn. rewrite IH1, IH2. unfold last_named. setoid_rewrite fold_left_app. cbn [fold_left].
  destruct o as [cl|]; cbn [fst Columns ColumnByName].
  - split; [reflexivity|]. eexists. split; [reflexivity|]. intros name. cbn [col_lookup].
    destruct (str_eqb name (colName cl)); [reflexivity|apply IH3].
  - split; [reflexivity|]. exists m. auto.
Qed.

Lemma last_named_spec name cols :
  match last_named name cols with
  | Some cl => colName cl = name /\ exists pre post, cols = pre ++ Some cl :: post
      /\ forall cl', In (Some cl') post -> colName cl' <> name
  | None => forall cl, In (Some cl) cols -> colName cl <> name
  end.
Proof.
  induction cols as [|o cols IH] using rev_ind; [intros cl []|].
  unfold last_named in *. rewrite fold_left_app. cbn [fold_left].
  destruct o as [cl|].
  - destruct (str_eqb_spec name (colName cl)) as [En|En].
    + split; [auto|]. exists cols, []. split; [auto|]. intros cl' [].
    + destruct (fold_left _ cols None) as [cl0|].
      * destruct IH as (Hn & pre & post & -> & Hp). split; auto. exists pre, (post ++ [Some cl]).
        split; [rewrite <- app_assoc; reflexivity|]. intros cl' Hin. apply in_app_or in Hin.
        destruct Hin as [Hin|[Hin|[]]]; auto. congruence.
      * intros cl' Hin. apply in_app_or in Hin. destruct Hin as [Hin|[Hin|[]]]; auto. congruence.
  - destruct (fold_left _ cols None) as [cl0|].
    + destruct IH as (Hn & pre & post & -> & Hp). split; auto. exists pre, (post ++ [None]).
      split; [rewrite <- app_assoc; reflexivity|]. intros cl' Hin. apply in_app_or in Hin.
      destruct Hin as [Hin|[Hin|[]]]; auto. discriminate.
    + intros cl' Hin. apply in_app_or in Hin. destruct Hin as [Hin|[Hin|[]]]; auto. discriminate.
Qed.

Lemma registry_columns (cols : list (option Column)) : Columns (add_all (E := E) NewTableSpec cols) = cols
  /\ ColumnCount (add_all (E := E) NewTableSpec cols) = Z.of_nat (List.length cols).
Proof. destruct (add_all_new cols) as [H _]. split; auto. unfold ColumnCount. rewrite H. reflexivity. Qed.

Lemma registry_has (cols : list (option Column)) name :
  HasColumn (add_all (E := E) NewTableSpec cols) name = true <->
  exists cl, In (Some cl) cols /\ colName cl = name.
Proof.
  destruct (add_all_new cols) as (_ & m & H1 & H2). unfold HasColumn. rewrite H1, H2.
  pose proof (last_named_spec name cols) as K. destruct (last_named name cols) as [cl|].
  - destruct K as (Hn & pre & post & -> & _). split; auto. intros _. exists cl. split; auto.
    apply in_or_app. right. left. auto.
  - split; [discriminate|]. intros (cl & Hin & Hn). exfalso. eapply K; eauto.
Qed.

Lemma registry_latest (cols : list (option Column)) name cl pre post : cols = pre ++ Some cl :: post -> colName cl = name ->
  (forall cl', In (Some cl') post -> colName cl' <> name) ->
  exists m, ColumnByName (add_all (E := E) NewTableSpec cols) = Some m /\ col_lookup m name = Some cl.
Proof.
  intros -> Hn Hp. destruct (add_all_new (pre ++ Some cl :: post)) as (_ & m & H1 & H2).
  exists m. split; auto. rewrite H2. unfold last_named. rewrite fold_left_app. cbn [fold_left].
  destruct (str_eqb_spec name (colName cl)); [|congruence].
  clear -Hp. induction post as [|o post IH]; [reflexivity|]. cbn [fold_left].
  destruct o as [cl'|].
  - destruct (str_eqb_spec name (colName cl')) as [En|_].
    + exfalso. eapply Hp; [left; reflexivity|auto].
    + apply IH. intros. apply Hp. right; auto.
  - apply IH. intros. apply Hp. right; auto.
Qed.

Lemma add_outcome (s : TSpec) o : Columns (fst (AddColumn (E := E) s o)) = Columns s ++ [o]
  /\ snd (AddColumn (E := E) s o) =
     match o, ColumnByName s with
     | None, _ => Panic NilDereference
     | Some _, None => Panic NilMapWrite
     | Some _, Some _ => Ok tt
     end.
Proof. unfold AddColumn. destruct o; [destruct (ColumnByName s)|]; split; reflexivity. Qed.

(** ** C30 *)
Definition header_text (w : Z) (title short : str) : str :=
  if slen title <=? w then title else if slen short <=? w then short else [].

Lemma header_cell c t (col : Column) : 0 < Width t (colName col) ->
  padColumnHeader c t col =
  AlignmentCenter c (header_text (Width t (colName col)) (colTitle col) (colShortTitle col)) (Width t (colName col)).
Proof.
  intros H. unfold padColumnHeader, header_text. destruct (Z.eqb_spec (Width t (colName col)) 0); [lia|].
  f_equal. destruct (Z.gtb_spec (slen (colTitle col)) (Width t (colName col)));
    destruct (Z.leb_spec (slen (colTitle col)) (Width t (colName col))); try lia; auto.
  destruct (Z.gtb_spec (slen (colShortTitle col)) (Width t (colName col)));
    destruct (Z.leb_spec (slen (colShortTitle col)) (Width t (colName col))); try lia; auto.
Qed.

Lemma header_zero c t (col : Column) : Width t (colName col) = 0 -> padColumnHeader c t col = colTitle col.
Proof. intros H. unfold padColumnHeader. rewrite H. reflexivity. Qed.

Lemma header_text_len w title short : 0 <= w -> slen (header_text w title short) <= w.
Proof.
  intros H. unfold header_text. destruct (Z.leb_spec (slen title) w); auto.
  destruct (Z.leb_spec (slen short) w); auto.
Qed.

Lemma header_text_cases (P : str -> Prop) w title short : P title -> P short -> P [] -> P (header_text w title short).
Proof. intros. unfold header_text. destruct (slen title <=? w); auto. destruct (slen short <=? w); auto. Qed.

Lemma header_width c t (col : Column) : Reachable c -> 0 < Width t (colName col) < 65536 ->
  (forall s, s = colTitle col \/ s = colShortTitle col ->
     ~ In 0x9B (runes s) /\ ~ JoinsPrevious s /\ ~ JoinsNext s
     /\ ((exists st, Behaves c false st) \/ ValidUTF8 s)) ->
  vwidth c (padColumnHeader c t col) = Width t (colName col).
Proof.
  intros Hc Hw HT. rewrite header_cell by lia. set (w := Width t (colName col)) in *.
  set (s := header_text w (colTitle col) (colShortTitle col)).
  assert (Hs : ~ In 0x9B (runes s) /\ ~ JoinsPrevious s /\ ~ JoinsNext s
     /\ ((exists st, Behaves c false st) \/ ValidUTF8 s)).
  { apply header_text_cases; [apply HT; auto|apply HT; auto|].
    split; [auto|]. split; [apply not_joins_prev_nil|]. split; [apply not_joins_next_nil|right; constructor]. }
  destruct Hs as (H9 & HP & HN & HB).
  assert (HL : StringWidth c s <= w).
  { eapply Z.le_trans; [|apply (header_text_len w (colTitle col) (colShortTitle col)); lia].
    destruct HB as [(st & HB)|HV]; [eapply StringWidth_plain_bytes; eauto|apply StringWidth_valid_bytes; auto]. }
  change (AlignmentCenter c s w) with (align ACenter c s w).
  rewrite align_vwidth; [|auto|lia|split; auto].
  rewrite (vwidth_exact c s Hc H9) by lia. pose proof (no_underflow c s Hc H9). lia.
Qed.

Lemma header_loop c t sep cols : forall acc, ~ In None cols ->
  formatHeader_loop (E := E) c t cols sep acc =
  Ok (acc ++ concat (map (fun o => match o with Some col => padColumnHeader c t col ++ sep | None => [] end) cols) ++ [x0a]).
Proof.
  induction cols as [|o cols IH]; intros acc Hn; [reflexivity|].
  destruct o as [col|]; [|exfalso; apply Hn; left; auto].
  cbn [formatHeader_loop map concat]. rewrite IH by (intros K; apply Hn; right; auto).
  rewrite <- !app_assoc. reflexivity.
Qed.

Lemma header_line c t sep cols : Columns (tSpec t) = map Some cols ->
  FormatHeader c t sep = Ok (concat (map (fun col => padColumnHeader c t col ++ sep) cols) ++ [x0a] : str) :> outcome E str.
Proof.
  intros H. unfold FormatHeader. rewrite H, header_loop.
  - rewrite map_map. reflexivity.
  - intros K. apply in_map_iff in K. destruct K as (x & K & _). discriminate.
Qed.

(** ** C31 *)
Lemma u16_idem_l x y : u16 (u16 x + y) = u16 (x + y).
Proof. unfold u16. apply Zplus_mod_idemp_l. Qed.

Lemma tableWidth_loop_spec t cols : forall w,
  tableWidth_loop (E := E) t (map Some cols) (u16 w) =
  Ok (u16 (w + zsum (map (fun col : Column => Width t (colName col)) cols))).
Proof.
  induction cols as [|col cols IH]; intros w; cbn [map tableWidth_loop].
  - change (zsum []) with 0. rewrite Z.add_0_r. reflexivity.
  - rewrite u16_idem_l, IH, zsum_cons. f_equal. f_equal. lia.
Qed.

Lemma TableWidth_spec t margin cols : Columns (tSpec t) = map Some cols ->
  TableWidth t margin = Ok ((zsum (map (fun col => Width t (colName col)) cols)
                           + (slen cols - 1) * margin) mod 65536) :> outcome E Z.
Proof.
  intros H. unfold TableWidth, ColumnCount. rewrite H.
  assert (E0 : u16 (u16 (u16 (slen (map Some cols)) - 1) * margin) = u16 ((slen cols - 1) * margin)).
  { unfold slen. rewrite map_length. unfold u16.
    rewrite (Zmult_mod_idemp_l (_ - 1)). rewrite Zmult_mod, Zminus_mod, Zmod_mod, <- Zminus_mod, <- Zmult_mod.
    reflexivity. }
  rewrite E0, tableWidth_loop_spec. unfold u16. f_equal. f_equal. lia.
Qed.

Lemma TableWidth_exact t margin cols : Columns (tSpec t) = map Some cols -> cols <> [] -> 0 <= margin ->
  (forall n, 0 <= Width t n) ->
  zsum (map (fun col => Width t (colName col)) cols) + (slen cols - 1) * margin < 65536 ->
  TableWidth t margin = Ok (zsum (map (fun col => Width t (colName col)) cols) + (slen cols - 1) * margin) :> outcome E Z.
Proof.
  intros H Hne Hm Hw Hlt. rewrite (TableWidth_spec t margin cols H). f_equal. apply Z.mod_small. split; auto.
  assert (0 <= zsum (map (fun col : Column => Width t (colName col)) cols)).
  { clear -Hw. induction cols as [|x l IH]; [apply Z.le_refl|]. cbn [map]. rewrite zsum_cons. specialize (Hw (colName x)). lia. }
  assert (1 <= slen cols) by (destruct cols; [congruence|rewrite slen_cons; pose proof (slen_nonneg cols); lia]). nia.
Qed.

Lemma TableWidth_empty t margin : Columns (tSpec t) = [] ->
  TableWidth t margin = Ok ((- margin) mod 65536) :> outcome E Z.
Proof. intros H. rewrite (TableWidth_spec t margin [] H). f_equal. Qed.

End Types.
