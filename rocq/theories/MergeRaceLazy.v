(** * MergeRaceLazy: merging a list that formats its items when asked for them. *)
From Coq Require Import ZifyBool ZifyNat.
From Verif Require Import GoBase CacheProofs Runewidth Width AlignSpec Table Merge TableContract TableOpsProofs MergeSpec MergeLayout
  MergeRender MergeSearch TableRace TableRaceSpec TableRaceProofs TableRaceCases MergeRace MergeRaceSpec MergeRaceProofs.
Local Open Scope Z_scope.

(** ** One goroutine that changes widths *)
Fixpoint alone {A} (m : wmap) (p : sprog A) : wmap * A :=
  match p with
  | SRet a => (m, a)
  | SGet name k => alone m (k (m name))
  | SCheck name w q => alone (if w >? m name then wset m name w else m) q
  | SPut name w q => alone (wset m name w) q
  end.
Lemma alone_step {A} m (p : sprog A) m' p' more : sstep m p = Some (m', p', more) -> alone m p = alone m' p'.
Proof.
  destruct p as [a|n k|n w q|n w q]; cbn [sstep]; intros S; try discriminate; injection S as <- <- <-; auto.
  cbn [alone]. destruct (w >? m n); reflexivity.
Qed.
Lemma alone_runs {A} m (p : sprog A) m' p' : runs m p m' p' -> alone m p = alone m' p'.
Proof. induction 1 as [|m t m1 t1 more m2 t2 S R IH]; auto. rewrite (alone_step _ _ _ _ _ S). exact IH. Qed.
Lemma alone_bind {A B} (p : sprog A) (f : A -> sprog B) : forall m, alone m (sbind p f) = alone (fst (alone m p)) (f (snd (alone m p))).
Proof. induction p as [a|n k IH|n w q IH|n w q IH]; intros m; cbn [sbind alone fst snd]; auto. Qed.
Lemma alone_still {A} (p : sprog A) : Still p -> forall m, alone m p = (m, at_rest m p).
Proof. induction 1; intros m; cbn; auto. Qed.
Lemma gives_alone {A} (p : sprog A) a : Gives p a -> forall m, snd (alone m p) = a.
Proof. induction 1; intros m; cbn; auto. Qed.

Lemma exec_alone {A} P m0 (b0 : list (sprog A)) t0 a0 m ts seen : Forall Still (b0 ++ a0) -> sexec P m0 (b0 ++ t0 :: a0) m ts seen ->
  exists b t a, ts = b ++ t :: a /\ length b = length b0 /\ Forall Still (b ++ a) /\ alone m t = alone m0 t0.
Proof.
  intros H X. induction X as [|m before t after seen m' t' more X IH HP S].
  - exists b0, t0, a0. auto.
  - destruct IH as (b & u & a & e & L & F & R).
    assert (ST : forall x, Still t -> t' = x -> Still x /\ m' = m).
    { intros x HS <-. inversion HS as [|n k HK e1]; subst; cbn [sstep] in S; [discriminate|]. injection S as <- <- <-. auto. }
    apply app_eq_app in e. destruct e as (l & [[e1 e2]|[e1 e2]]).
    + destruct l as [|y l]; cbn [app] in e2; injection e2 as e2 e3.
      * rewrite app_nil_r in e1. subst. exists b, t', after. repeat split; auto. rewrite <- R. symmetry. eapply alone_step; eauto.
      * subst y a. exists b, u, (l ++ t' :: after). rewrite e1, <- app_assoc. split; [reflexivity|]. split; auto.
        rewrite !Forall_app, !Forall_cons_iff in *. destruct F as (F1 & F2 & F3 & F4).
        destruct (ST t' F3 eq_refl) as [S1 ->]. auto 10.
    + destruct l as [|y l]; cbn [app] in e2; injection e2 as e2 e3.
      * rewrite app_nil_r in e1. subst. eexists before, t', _. repeat split; eauto. rewrite <- R. symmetry. eapply alone_step; eauto.
      * subst y after. exists (before ++ t' :: l), u, a. rewrite <- app_assoc. split; [reflexivity|].
        subst b. split; [rewrite <- L, !app_length; reflexivity|].
        rewrite !Forall_app, !Forall_cons_iff in *. destruct F as ((F1 & F2 & F3) & F4).
        destruct (ST t' F2 eq_refl) as [S1 ->]. auto 10.
Qed.

(** ** Widths only grow, up to those compared *)
Definition Up (m m' : wmap) : Prop := forall n, m n <= m' n.
Lemma up_trans m m1 m2 : Up m m1 -> Up m1 m2 -> Up m m2.
Proof. intros H1 H2 n. specialize (H1 n). specialize (H2 n). lia. Qed.
Lemma up_check m n w : Up m (if w >? m n then wset m n w else m).
Proof.
  intros x. destruct (Z.gtb_spec w (m n)); [|lia]. unfold wset. destruct (str_eqb_spec x n) as [->|]; lia.
Qed.
Lemma alone_up {A} (p : sprog A) : Clean p -> forall m, Up m (fst (alone m p)).
Proof.
  induction 1 as [a|n k H IH|n w q H IH]; intros m; cbn [alone fst].
  - intros x. lia.
  - apply IH.
  - eapply up_trans; [apply up_check|apply IH].
Qed.

Fixpoint Bound {A} (M : wmap) (p : sprog A) : Prop :=
  match p with
  | SRet _ => True
  | SGet name k => forall w, Bound M (k w)
  | SCheck name w q => w <= M name /\ Bound M q
  | SPut _ _ _ => False
  end.
Lemma bound_clean {A} M (p : sprog A) : Bound M p -> Clean p.
Proof. induction p; cbn; intros; try tauto; constructor; auto; tauto. Qed.
Lemma bound_bind {A B} M (p : sprog A) (f : A -> sprog B) : Bound M p -> (forall a, Bound M (f a)) -> Bound M (sbind p f).
Proof. induction p; cbn; intros; auto; intuition. Qed.
Lemma bound_obind {E A B} M (p : sprog (outcome E A)) (f : A -> sprog (outcome E B)) :
  Bound M p -> (forall a, Bound M (f a)) -> Bound M (sobind p f).
Proof. intros H1 H2. apply bound_bind; auto. intros [a|e|x]; cbn; auto. Qed.
Lemma bound_map {E A B} M (f : A -> sprog (outcome E B)) l : (forall a, Bound M (f a)) -> Bound M (smap f l).
Proof. intros H. induction l; cbn [smap]; [exact Logic.I|]. apply bound_obind; auto. intros b. apply bound_obind; auto. intros; exact Logic.I. Qed.
Lemma alone_bound {A} M (p : sprog A) : Bound M p -> forall m, Up m M -> Up (fst (alone m p)) M.
Proof.
  induction p as [a|n k IH|n w q IH|n w q IH]; cbn [Bound alone fst]; intros HB m HU; auto; [|tauto].
  destruct HB as [H1 H2]. apply IH; auto. intros x. specialize (HU x). destruct (w >? m n); auto.
  unfold wset. destruct (str_eqb_spec x n) as [->|]; lia.
Qed.
Lemma alone_mg {A} M (p : sprog A) : Bound M p -> forall m, (forall n, m n = M n) -> MayGive (fun n w => w = M n) p (snd (alone m p)).
Proof.
  induction p as [a|n k IH|n w q IH|n w q IH]; cbn [Bound alone]; intros HB m HE.
  - constructor.
  - econstructor; [apply HE|]. apply IH; auto.
  - destruct HB as [H1 H2]. constructor. rewrite <- HE in H1. destruct (Z.gtb_spec w (m n)); [lia|]. apply IH; auto.
  - tauto.
Qed.
Lemma mg_bind_intro {A B} F (p : sprog A) (f : A -> sprog B) a b : MayGive F p a -> MayGive F (f a) b -> MayGive F (sbind p f) b.
Proof. induction 1; cbn [sbind]; intros; [auto|econstructor; eauto|constructor; auto..]. Qed.

(** [p] makes the widths reach [Q]. *)
Definition Lasting (Q : wmap -> Prop) : Prop := forall m m', Up m m' -> Q m -> Q m'.
Definition Forces {A} (p : sprog A) (Q : wmap -> Prop) : Prop := forall m, Q (fst (alone m p)).
Lemma forces_bind {A B} Q (p : sprog A) (f : A -> sprog B) : Lasting Q -> Forces p Q -> (forall a, Clean (f a)) -> Forces (sbind p f) Q.
Proof. intros L Hp Hc m. rewrite alone_bind. eapply L; [apply alone_up, Hc|]. apply Hp. Qed.
Lemma forces_then {A B} Q (p : sprog A) (f : A -> sprog B) a : Gives p a -> Forces (f a) Q -> Forces (sbind p f) Q.
Proof. intros G H m. rewrite alone_bind, (gives_alone _ _ G). apply H. Qed.
Lemma clean_obind {E A B} (p : sprog (outcome E A)) (f : A -> sprog (outcome E B)) :
  Clean p -> (forall a, Clean (f a)) -> Clean (sobind p f).
Proof.
  intros H1 H2. unfold sobind. induction H1; cbn [sbind]; [|constructor; auto..]. destruct a; auto; constructor.
Qed.
Lemma clean_map {E A B} (f : A -> sprog (outcome E B)) l : (forall a, Clean (f a)) -> Clean (smap f l).
Proof. intros H. induction l; cbn [smap]; [constructor|]. apply clean_obind; auto. intros b. apply clean_obind; auto. intros; constructor. Qed.
Lemma forces_obind {E A B} Q (p : sprog (outcome E A)) (f : A -> sprog (outcome E B)) :
  Lasting Q -> Forces p Q -> (forall a, Clean (f a)) -> Forces (sobind p f) Q.
Proof. intros L H1 H2. apply forces_bind; auto. intros [a|e|x]; [apply H2|constructor..]. Qed.
Lemma forces_othen {E A B} Q (p : sprog (outcome E A)) (f : A -> sprog (outcome E B)) a :
  Gives p (Ok a) -> Forces (f a) Q -> Forces (sobind p f) Q.
Proof. intros G H. eapply forces_then; [exact G|exact H]. Qed.
Lemma forces_map {E A B} Q (f : A -> sprog (outcome E B)) l a : Lasting Q -> (forall a, Clean (f a)) ->
  (forall a, In a l -> exists b, Gives (f a) (Ok b)) -> In a l -> Forces (f a) Q -> Forces (smap f l) Q.
Proof.
  intros L C. induction l as [|x l IH]; intros G Ha HF; [destruct Ha|]. cbn [smap].
  assert (C2 : forall b, Clean (sobind (smap f l) (fun bs => SRet (Ok (b :: bs))))).
  { intros b. apply clean_obind; [apply clean_map; auto|constructor]. }
  destruct Ha as [->|Ha].
  - apply forces_obind; auto.
  - destruct (G x (or_introl eq_refl)) as (b & Gb). eapply forces_othen; [exact Gb|].
    apply forces_obind; auto; [|constructor]. apply IH; auto. intros a' Ha'. apply G. right. auto.
Qed.

(** ** Formatting *)
Section Format.
Context {Item Val E : Type}.
Notation Column := (Column Item Val E).

Lemma format_gives {A} c item (cs : list (option Column)) vs done (k : outcome E (list str) -> sprog A) a :
  AllOk (cell item) cs vs -> Gives (k (Ok (done ++ vs))) a -> Gives (formatS c cs item done k) a.
Proof.
  intros H. revert done. induction H as [|[col|] v cs vs Hv H IH]; intros done G; cbn [formatS].
  - rewrite app_nil_r in G. exact G.
  - cbn [cell] in Hv. destruct (colGetter col); [|discriminate]. destruct (getValue _ _); try discriminate. rewrite Hv.
    constructor. apply IH. rewrite <- app_assoc. exact G.
  - discriminate.
Qed.
Lemma format_bound {A} M c item (cs : list (option Column)) vs done (k : outcome E (list str) -> sprog A) :
  AllOk (cell item) cs vs -> (forall n w, SeenIn c cs vs n w -> w <= M n) -> (forall r, Bound M (k r)) -> Bound M (formatS c cs item done k).
Proof.
  intros H. revert done. induction H as [|[col|] v cs vs Hv H IH]; intros done HS HK; cbn [formatS]; auto.
  cbn [cell] in Hv. destruct (colGetter col); auto. destruct (getValue _ _); auto. rewrite Hv. cbn [Bound]. split.
  - apply HS. apply SeenIn_cons. auto.
  - apply IH; auto. intros n w Hs. apply HS. apply SeenIn_cons. auto.
Qed.
Definition covers c (cs : list (option Column)) (row : list str) (m : wmap) : Prop := forall n w, SeenIn c cs row n w -> w <= m n.
Lemma covers_lasting c cs row : Lasting (covers c cs row).
Proof. intros m m' U H n w Hs. specialize (H n w Hs). specialize (U n). lia. Qed.
Lemma format_forces c item (cs : list (option Column)) vs done : AllOk (cell item) cs vs -> Forces (formatS c cs item done SRet) (covers c cs vs).
Proof.
  intros H. revert done. induction H as [|[col|] v cs vs Hv H IH]; intros done m; cbn [formatS].
  - intros n w (i & col & x & e & _). destruct i; discriminate.
  - pose proof Hv as Hv'. cbn [cell] in Hv. destruct (colGetter col) as [g|]; [|discriminate]. destruct (getValue _ _) as [val|e|x] eqn:Eg; try discriminate. rewrite Hv.
    cbn [alone]. intros n w Hs. apply SeenIn_cons in Hs. destruct Hs as [[<- ->]|Hs]; [|exact (IH _ _ n w Hs)].
    set (m1 := if vwidth c v >? m (colName col) then wset m (colName col) (vwidth c v) else m).
    assert (U : Up m1 (fst (alone m1 (formatS c cs item (done ++ [v]) SRet)))).
    { apply alone_up. eapply bound_clean with (M := fun _ => 65536). eapply format_bound; [exact H| |intros; exact Logic.I].
      intros n w (i & col' & x & _ & _ & _ & ->). pose proof (vwidth_range c x). lia. }
    specialize (U (colName col)). assert (vwidth c v <= m1 (colName col)); [|lia]. unfold m1.
    destruct (Z.gtb_spec (vwidth c v) (m (colName col))); [|lia]. unfold wset. destruct (str_eqb_spec (colName col) (colName col)); [lia|congruence].
  - discriminate.
Qed.

Lemma Formats_cells c (t : Table Item Val E) its t' rows : columnWidth t <> None -> Formats c t its t' rows ->
  Forall2 (fun item row => AllOk (cell item) (Columns (tSpec t)) row) its rows /\
  forall n, Width t' n = Width t n \/ exists row, In row rows /\ SeenIn c (Columns (tSpec t)) row n (Width t' n).
Proof.
  intros Hm HF. induction HF as [t|t item rest t1 row t2 rows E0 HF IH].
  - split; auto.
  - destruct (FormatItem_spec c t item t1 _ Hm E0) as (pre & vs & Hres & Hs & Hm1 & Hw).
    destruct Hres as [(-> & HA & E1)|(a & post & _ & _ & Hf)].
    2:{ exfalso. destruct Hf as [(e & _ & Hf)|(p & _ & Hf)]; discriminate. }
    injection E1 as <-. destruct (IH Hm1) as (I1 & I2). rewrite Hs in *. split; [constructor; auto|].
    intros n. destruct (I2 n) as [->|(r & Hr & Hsn)]; [|right; exists r; split; [right|]; auto].
    destruct (Hw n) as [[K|K] _]; [auto|]. right. exists row. split; [left; auto|exact K].
Qed.
End Format.

(** ** The list *)
Section Lazy.
Context {Item Val E : Type}.
Context {c : Condition} {t t' : Table Item Val E} {cols : list (Column Item Val E)} {its : list Item} {rows : list (list str)} {m0 : wmap}.
Hypothesis HF : Formats c t its t' rows.
Hypothesis HC : Columns (tSpec t) = map Some cols.
Hypothesis Hm : columnWidth t = Some m0.
Notation ocols := (map Some cols).
Notation items := (lazy c ocols its).
Notation M := (fun n => Width t' n).

Definition plainly : FormattedItemList E :=
  {| fiLen := slen rows; fiGet := fun i => match at_index rows i with Some row => Ok row | None => Panic IndexOutOfRange end |}.
Lemma not_nil : columnWidth t <> None. Proof. rewrite Hm. discriminate. Qed.
Lemma its_rows : Forall2 (fun item row => AllOk (cell item) ocols row) its rows.
Proof. rewrite <- HC. exact (proj1 (Formats_cells c t its t' rows not_nil HF)). Qed.
Lemma lazy_steady : Steady items plainly.
Proof.
  pose proof its_rows as HR. split.
  - cbn. unfold slen. f_equal. eapply Forall2_len; eauto.
  - intros i. cbn. unfold at_index. destruct (i <? 0); [constructor|]. generalize (Z.to_nat i) as k. clear -HR.
    induction HR as [|item row its rows Ha HR IH]; intros [|k]; cbn [nth_error]; try constructor; auto.
    eapply format_gives; [exact Ha|]. constructor.
Qed.
Lemma lazy_printable : Printable t cols plainly rows.
Proof.
  split; auto.
  - split; [reflexivity|]. intros i row Hi. cbn. unfold at_index. destruct (Z.ltb_spec (Z.of_nat i) 0); [lia|].
    rewrite Nat2Z.id, Hi. reflexivity.
  - pose proof its_rows as HR. apply Forall_forall. intros row Hr. apply In_nth_error in Hr. destruct Hr as (i & Hi).
    assert (exists item, AllOk (cell item) ocols row) as (item & Ha).
    { clear -HR Hi. revert i Hi. induction HR as [|item row' its rows Ha HR IH]; intros [|i] Hi; cbn in Hi; try discriminate; eauto. injection Hi as ->. eauto. }
    apply Forall2_len in Ha. rewrite map_length in Ha. lia.
Qed.
Lemma lazy_item i row : nth_error rows i = Some row -> exists item, nth_error its i = Some item /\ AllOk (cell item) ocols row.
Proof.
  pose proof its_rows as HR. clear -HR. revert i. induction HR as [|item row' its rows Ha HR IH]; intros [|i] Hi; cbn in *; try discriminate; eauto.
  injection Hi as ->. eauto.
Qed.
Lemma rows_covered row : In row rows -> covers c ocols row M.
Proof.
  intros Hr n w Hs. destruct (Formats_spec c t its t' rows not_nil HF) as (_ & _ & _ & _ & HA).
  rewrite Forall_forall in HA. destruct (HA row Hr) as (_ & _ & K). apply K. rewrite HC. exact Hs.
Qed.
Lemma lazy_bound i : Bound M (siGet items i).
Proof.
  cbn. unfold at_index. destruct (i <? 0); [exact Logic.I|]. destruct (nth_error its (Z.to_nat i)) as [item|] eqn:Ei; [|exact Logic.I].
  destruct (nth_error rows (Z.to_nat i)) as [row|] eqn:Er.
  - destruct (lazy_item _ _ Er) as (item' & e & Ha). rewrite Ei in e. injection e as <-.
    eapply format_bound; [exact Ha| |intros; exact Logic.I]. apply rows_covered. eapply nth_error_In; eauto.
  - apply nth_error_None in Er. apply nth_some_lt in Ei. pose proof its_rows as HR. apply Forall2_len in HR. lia.
Qed.
Lemma lazy_forces i row : nth_error rows i = Some row -> Forces (siGet items (Z.of_nat i)) (covers c ocols row).
Proof.
  intros Hi. destruct (lazy_item _ _ Hi) as (item & e & Ha). cbn. unfold at_index.
  destruct (Z.ltb_spec (Z.of_nat i) 0); [lia|]. rewrite Nat2Z.id, e. apply format_forces. exact Ha.
Qed.

(** All parts stay within the final widths. *)
Lemma bound_cells src cs item colI k : Bound M (cellsS (E := E) c src ocols cs item colI k).
Proof.
  revert colI. induction cs as [|[col|] cs IH]; intros colI; cbn [cellsS]; try exact Logic.I.
  apply bound_obind; [exact Logic.I|]. intros txt. apply bound_obind.
  - destruct src; cbn [getWidthS]; [|exact Logic.I]. apply bound_obind; [exact Logic.I|]. intros [cl|]; cbn; auto.
  - intros w. apply bound_obind; auto. intros; exact Logic.I.
Qed.
Lemma bound_emit sep ok gc src pos : Bound M (emitS c ocols items sep ok gc src pos).
Proof.
  assert (R : forall i k, Bound M (renderS c ocols items src i k)).
  { intros i k. apply bound_obind; [apply lazy_bound|]. intros item. apply bound_obind; [apply bound_cells|]. intros; exact Logic.I. }
  assert (G : forall n idx gs, Bound M (groupsS n idx (renderS c ocols items src) gs)).
  { intros n idx. induction gs as [|g gs IH]; cbn [groupsS]; [exact Logic.I|]. destruct (_ >=? _); [exact Logic.I|].
    apply bound_obind; auto. intros b. apply bound_obind; auto. intros; exact Logic.I. }
  assert (L : forall line ls k acc, (forall l, Bound M (line l)) -> Bound M (linesS (E := E) ok line ls k acc)).
  { intros line ls. induction ls as [|l ls IH]; intros k acc HL; cbn [linesS]; [exact Logic.I|]. apply bound_bind; auto.
    intros [x|e|p]; try exact Logic.I. destruct (ok k); [auto|exact Logic.I]. }
  apply L. intros l. apply bound_obind; auto. intros; exact Logic.I.
Qed.
Lemma bound_maxCell colI js mw : Bound M (maxCellS c items colI js mw).
Proof.
  revert mw. induction js as [|j js IH]; intros mw; cbn [maxCellS]; [exact Logic.I|]. apply bound_obind; [apply lazy_bound|].
  intros item. apply bound_obind; [exact Logic.I|]. intros txt. apply IH.
Qed.
Lemma bound_widths n idxs gc : Bound M (widthsS c items n idxs gc).
Proof. apply bound_obind; [|intros; exact Logic.I]. apply bound_map. intros g. apply bound_map. intros i. apply bound_maxCell. Qed.
Definition mergedS (m : mode) := match m with H => mergedHS c ocols items | V => mergedVS c ocols items end.
Lemma bound_merged m gc : Bound M (mergedS m gc).
Proof.
  destruct m; cbn [mergedS]; unfold mergedHS, mergedVS; [|destruct (_ =? 0); [exact Logic.I|]; destruct (_ >? _); [exact Logic.I|]];
    (apply bound_obind; [apply bound_widths|intros; exact Logic.I]).
Qed.
Lemma bound_calc m fuel n maxWidth margin g0 extra cw : Bound M (calcS fuel (mergedS m) n maxWidth margin g0 extra cw).
Proof.
  revert extra cw. induction fuel as [|f IH]; intros extra cw; cbn [calcS]; [exact Logic.I|]. apply bound_bind; [apply bound_merged|].
  intros [[l|]|e|p]; try exact Logic.I. destruct (_ >? _); [exact Logic.I|apply IH].
Qed.

(** Looking for the widths of groups formats every item. *)
Lemma pos_all m g i : (2 <= g)%nat -> (i < length rows)%nat -> exists k, (k < g)%nat /\ In (Z.of_nat i) (gidx m (length rows) g (Z.of_nat k)).
Proof.
  intros Hg Hi. pose proof (lineCount_spec (length rows) g ltac:(lia) ltac:(lia)) as HL.
  pose proof (lineCount_pos (length rows) g ltac:(lia)) as HL1. set (L := lineCount (length rows) g) in *. destruct m.
  - exists (i mod g)%nat. split; [apply Nat.mod_upper_bound; lia|]. apply gidx_spec; [lia|apply Nat.mod_upper_bound; lia|].
    exists (i / g)%nat. fold L. cbn [pos]. pose proof (Nat.div_mod i g ltac:(lia)) as D. split; [|split; lia].
    apply Nat.div_lt_upper_bound; lia.
  - assert (Hk : (i / L < g)%nat) by (apply Nat.div_lt_upper_bound; lia).
    exists (i / L)%nat. split; auto. apply gidx_spec; [lia|auto|].
    exists (i mod L)%nat. fold L. cbn [pos]. pose proof (Nat.div_mod i L ltac:(lia)) as D. split; [|split; lia].
    apply Nat.mod_upper_bound; lia.
Qed.
Lemma maxCell_forces colI js mw i row : (colI < length cols)%nat ->
  (forall j, In j js -> exists jn, j = Z.of_nat jn /\ (jn < length rows)%nat) ->
  In (Z.of_nat i) js -> nth_error rows i = Some row -> Forces (maxCellS c items (Z.of_nat colI) js mw) (covers c ocols row).
Proof.
  intros Hc Hj Hi Hr. revert mw Hj Hi. induction js as [|j js IH]; intros mw Hj Hi; [destruct Hi|]. cbn [maxCellS].
  destruct Hi as [->|Hi].
  - apply forces_obind; [apply covers_lasting|apply lazy_forces; auto|]. intros item. apply clean_obind; [constructor|].
    intros txt. eapply bound_clean, bound_maxCell.
  - destruct (Hj j (or_introl eq_refl)) as (jn & -> & Hjn).
    destruct (nth_error rows jn) as [row1|] eqn:Er; [|apply nth_error_None in Er; lia].
    eapply forces_othen; [apply (items_get lazy_printable lazy_steady); exact Er|].
    pose proof (pr_long _ _ _ _ lazy_printable) as HL. rewrite Forall_forall in HL. specialize (HL row1 (nth_error_In _ _ Er)).
    destruct (nth_error row1 colI) as [s|] eqn:Es; [|apply nth_error_None in Es; lia].
    eapply forces_othen; [rewrite (index_nat _ _ _ Es); constructor|]. apply IH; auto. intros j' Hj'. apply Hj. right. auto.
Qed.
Lemma widths_forces m g idxs row : (2 <= g)%nat -> (forall k, (k < g)%nat -> idxs (Z.of_nat k) = gidx m (length rows) g (Z.of_nat k)) ->
  In row rows -> Forces (widthsS c items (slen ocols) idxs (Z.of_nat g)) (covers c ocols row).
Proof.
  intros Hg Hidx Hr. apply In_nth_error in Hr. destruct Hr as (i & Hi).
  destruct cols as [|col0 cols0] eqn:Ecols.
  { intros mm n w (j & cl & x & e & _). destruct j; discriminate. }
  rewrite <- Ecols in *. assert (Hc : (0 < length cols)%nat) by (rewrite Ecols; cbn; lia). clear Ecols col0 cols0.
  unfold widthsS. apply forces_obind; [apply covers_lasting| |constructor].
  destruct (pos_all m g i Hg (nth_some_lt _ _ _ Hi)) as (k & Hk & Hin).
  assert (R : forall k j, (k < g)%nat -> In j (gidx m (length rows) g (Z.of_nat k)) -> exists jn, j = Z.of_nat jn /\ (jn < length rows)%nat).
  { intros k0 j Hk0 Hj. apply gidx_spec in Hj; [|lia|auto]. destruct Hj as (l & _ & -> & Hlt). eauto. }
  assert (G1 : forall k i, (k < g)%nat -> (i < length cols)%nat -> exists w, Gives (maxCellS c items (Z.of_nat i) (idxs (Z.of_nat k)) 0) (Ok w)).
  { intros k0 i0 Hk0 Hi0. destruct (maxCell_ok lazy_printable (c := c) i0 Hi0 (idxs (Z.of_nat k0)) 0) as [K|K]; [|eexists|lia].
    - rewrite Hidx by auto. eauto.
    - rewrite <- K. clear -HF HC Hm. generalize (idxs (Z.of_nat k0)) as js. generalize 0 as mw. intros mw js. revert mw.
      induction js as [|j js IH]; intros mw; cbn [maxCellS maxCell]; [constructor|]. apply gives_obind; [apply lazy_steady|].
      intros item. apply gives_obind; [constructor|]. intros txt. apply IH. }
  apply (forces_map _ _ _ (Z.of_nat k)).
  - apply covers_lasting.
  - intros g'. apply clean_map. intros ci. eapply bound_clean, bound_maxCell.
  - intros gz Hgz. rewrite zrange_nat in Hgz. apply in_map_iff in Hgz. destruct Hgz as (k0 & <- & Hk0). apply in_seq in Hk0.
    assert (K : forall l, (forall x, In x l -> exists b, Gives (maxCellS c items x (idxs (Z.of_nat k0)) 0) (Ok b)) ->
      exists b, Gives (smap (fun colI => maxCellS c items colI (idxs (Z.of_nat k0)) 0) l) (Ok b)).
    { induction l as [|x l IH]; intros Hx; cbn [smap]; [eexists; constructor|].
      destruct (Hx x (or_introl eq_refl)) as (b & Gb). destruct IH as (bs & Gbs). { intros y Hy. apply Hx. right. auto. }
      exists (b :: bs). eapply gives_bind; [exact Gb|]. eapply gives_bind; [exact Gbs|]. constructor. }
    apply K. intros x Hx. unfold slen in Hx. rewrite map_length, zrange_nat in Hx. apply in_map_iff in Hx. destruct Hx as (i0 & <- & Hi0). apply in_seq in Hi0.
    apply G1; lia.
  - rewrite zrange_nat. apply in_map, in_seq. lia.
  - apply (forces_map _ _ _ (Z.of_nat 0)).
    + apply covers_lasting.
    + intros ci. eapply bound_clean, bound_maxCell.
    + intros x Hx. unfold slen in Hx. rewrite map_length, zrange_nat in Hx. apply in_map_iff in Hx. destruct Hx as (i0 & <- & Hi0). apply in_seq in Hi0.
      apply G1; lia.
    + unfold slen. rewrite map_length, zrange_nat. apply in_map, in_seq. lia.
    + rewrite Hidx by auto. apply (maxCell_forces 0 _ 0 i row); auto. intros j Hj. eapply R; eauto.
Qed.
Lemma merged_forces m g row : (2 <= g)%nat -> worth_b m (length rows) g = true -> In row rows ->
  Forces (mergedS m (Z.of_nat g)) (covers c ocols row).
Proof.
  intros Hg Hw Hr. pose proof (items_len lazy_printable lazy_steady) as HL. destruct m; cbn [mergedS].
  - unfold mergedHS. apply forces_obind; [apply covers_lasting| |constructor]. apply (widths_forces H); auto.
    intros k Hk. rewrite HL. reflexivity.
  - pose proof (mergedV_ok lazy_printable (c := c) g Hg) as HV. rewrite Hw in HV. unfold mergedRowsWidthV in HV. unfold mergedVS.
    replace (fiLen plainly) with (siLen items) in HV by apply lazy_steady.
    destruct (_ =? 0); [discriminate|]. destruct (_ >? _); [discriminate|].
    apply forces_obind; [apply covers_lasting| |constructor]. apply (widths_forces V); auto.
    intros k Hk. rewrite HL, lineCountOf_nat by lia. reflexivity.
Qed.

(** The widths are then those of having formatted all items. *)
Lemma merged_final m g : (2 <= g)%nat -> worth_b m (length rows) g = true ->
  forall n, fst (alone m0 (mergedS m (Z.of_nat g))) n = M n.
Proof.
  intros Hg Hw n. pose proof (bound_merged m (Z.of_nat g)) as HB.
  assert (E0 : Width t n = m0 n) by (unfold Width; rewrite Hm; reflexivity).
  assert (U : Up m0 M).
  { intros x. destruct (Formats_spec c t its t' rows not_nil HF) as (_ & _ & K & _). specialize (K x). unfold Width in K at 1. rewrite Hm in K. exact K. }
  pose proof (alone_bound _ _ HB m0 U n) as H1. pose proof (alone_up _ (bound_clean _ _ HB) m0 n) as H2.
  destruct (Formats_cells c t its t' rows not_nil HF) as [_ K]. destruct (K n) as [e|(row & Hr & Hs)].
  - cbv beta in *. lia.
  - rewrite HC in Hs. pose proof (merged_forces m g row Hg Hw Hr m0 n _ Hs) as H3. cbv beta in *. lia.
Qed.

Lemma still_groupCount maxWidth sep : Still (groupCountS (E := E) ocols maxWidth sep).
Proof.
  unfold groupCountS, tableWidthS. generalize (u16 (u16 (u16 (slen ocols) - 1) * u16 (slen sep))) as w. generalize cols at 1 as cs.
  induction cs as [|col cs IH]; intros w; cbn [map tableWidthS_loop]; constructor. intros x. apply IH.
Qed.

Lemma alone_same {A} (p : sprog A) m : Bound M p -> (forall n, m n = M n) -> forall n, fst (alone m p) n = M n.
Proof.
  intros HB HE n. assert (U : Up m M) by (intros x; rewrite HE; lia).
  pose proof (alone_bound _ _ HB m U n). pose proof (alone_up _ (bound_clean _ _ HB) m n). rewrite HE in *. cbv beta in *. lia.
Qed.
Lemma lazy_alone m fuel maxWidth sep g0 : reckoned t cols sep mod 65536 <> 0 -> Z.of_nat g0 = estimate t cols sep maxWidth ->
  Worth m rows (S g0) -> (1 <= fuel)%nat ->
  Printed (fun n w => w = Width t' n) fuel c cols sep maxWidth m rows true g0
    (snd (alone m0 (mergeS m fuel c ocols (fun _ => true) items maxWidth sep true))).
Proof.
  intros Hr Eg Hw Hf. assert (Hg0 : (1 <= g0)%nat) by (pose proof (estimate_pos t cols sep maxWidth); lia).
  apply worth_spec in Hw; [|lia].
  rewrite merge_is, alone_bind, (alone_still _ (still_groupCount maxWidth sep)). cbn [fst snd].
  assert (Ei : at_rest m0 (groupCountS ocols maxWidth sep) = Ok (Z.of_nat g0)).
  { rewrite <- HC, (rest_groupCount Hm), (estimate_ok t cols maxWidth sep HC), Eg.
    destruct (Z.eqb_spec (reckoned t cols sep mod 65536) 0); [lia|reflexivity]. }
  rewrite Ei. apply (after_outcome lazy_printable lazy_steady); auto.
  destruct fuel as [|f]; [lia|]. unfold after.
  fold (mergedS m). cbn [calcS]. replace (Z.of_nat g0 + 0 + 1) with (Z.of_nat (S g0)) by lia.
  match goal with |- MayGive _ (sbind (sbind ?p ?K2) ?K) _ => set (mg := p); set (k2 := K2); set (k := K) end.
  assert (B2 : forall o, Bound M (k2 o)).
  { intros [[l|]|e|p]; try exact Logic.I. unfold k2. destruct (_ >? _); [exact Logic.I|apply bound_calc]. }
  assert (B3 : forall o, Bound M (k o)).
  { intros [[[extra cw]|e|p]|]; try exact Logic.I. unfold k. destruct (extra >? 0); apply bound_emit. }
  rewrite !alone_bind. pose proof (merged_final m (S g0) ltac:(lia) Hw) as HM. fold mg in HM.
  apply mg_bind_intro with (a := snd (alone (fst (alone m0 mg)) (k2 (snd (alone m0 mg)))));
    [apply mg_bind_intro with (a := snd (alone m0 mg))|].
  - assert (G : exists o, Gives mg o).
    { pose proof (gives_mergedH (c := c) (t := t) lazy_steady (Z.of_nat (S g0))) as K1.
      pose proof (gives_mergedV (c := c) (t := t) lazy_steady (Z.of_nat (S g0))) as K2. rewrite HC in K1, K2.
      unfold mg, mergedS. destruct m; eauto. }
    destruct G as (o & G). rewrite (gives_alone _ _ G m0), <- (gives_alone _ _ G M). apply alone_mg; [apply bound_merged|reflexivity].
  - apply alone_mg; auto.
  - apply alone_mg; auto. intros n. apply alone_same; auto.
Qed.
End Lazy.

Lemma lazy_merge {Item Val E A} (t t' : Table Item Val E) m0 (ts1 ts2 : list (sprog A)) m1 ts seen (f : run E -> A) a
    m fuel c cols its rows maxWidth sep g0 :
  Formats c t its t' rows -> Columns (tSpec t) = map Some cols -> columnWidth t = Some m0 ->
  reckoned t cols sep mod 65536 <> 0 -> Z.of_nat g0 = estimate t cols sep maxWidth -> Worth m rows (S g0) -> (1 <= fuel)%nat ->
  Forall Still (ts1 ++ ts2) ->
  sexec anyhow m0 (ts1 ++ sbind (mergeS m fuel c (map Some cols) (fun _ => true) (lazy c (map Some cols) its) maxWidth sep true)
                            (fun r => SRet (f r)) :: ts2) m1 ts seen ->
  nth_error ts (length ts1) = Some (SRet a) ->
  exists r, a = f r /\ Printed (fun n w => w = Width t' n) fuel c cols sep maxWidth m rows true g0 r.
Proof.
  intros HF HC Hm Hr Eg Hw Hf HS X Hi. destruct (exec_alone _ _ _ _ _ _ _ _ HS X) as (b & u & a' & -> & L & _ & R).
  rewrite <- L, nth_mid in Hi. injection Hi as ->. rewrite alone_bind in R. cbn [alone] in R.
  pose proof (f_equal snd R) as Ra. cbn [snd] in Ra. eexists. split; [exact Ra|]. eapply lazy_alone; eauto.
Qed.
