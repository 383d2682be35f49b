(** * MergeRaceEach: plain merging of items formatted on demand. *)
From Coq Require Import ZifyBool ZifyNat.
From Verif Require Import GoBase CacheProofs Runewidth Width Table Merge TableContract TableOpsProofs MergeSpec MergeLayout MergeRender MergeSearch
  TableRace TableRaceSpec TableRaceProofs TableRaceCases MergeRace MergeRaceSpec MergeRaceProofs MergeRaceLazy.
Local Open Scope Z_scope.

Section Each.
Context {Item Val E : Type}.
Context {c : Condition} {cols : list (Column Item Val E)} {its : list Item}.
Notation ocols := (map Some cols).
Notation items := (lazy c ocols its).
Notation Table := (Table Item Val E).

Lemma alone_format (t : Table) m item row : columnWidth t = Some m -> Columns (tSpec t) = ocols -> AllOk (cell item) ocols row ->
  exists m1, FormatItem c t item = (set_width t m1, Ok row) /\ alone m (formatS c ocols item [] SRet) = (m1, Ok row).
Proof.
  intros Hm HC HA. destruct (format_runs c item ocols t m [] SRet Hm) as (m1 & e & R).
  apply alone_runs in R. cbn [alone] in R. pose proof (format_gives c item ocols row [] SRet _ HA (gv_ret _)) as G.
  pose proof (gives_alone _ _ G m) as Gv. rewrite R in Gv. cbn [snd app] in Gv. exists m1. split.
  - unfold FormatItem. rewrite HC. rewrite (surjective_pairing (formatItem_loop _ _ _ _ _)), e, Gv. reflexivity.
  - rewrite R, Gv. reflexivity.
Qed.

Lemma still_bind {A B} (p : sprog A) (f : A -> sprog B) : Still p -> (forall a, Still (f a)) -> Still (sbind p f).
Proof. intros H1 H2. induction H1; cbn [sbind]; auto. constructor. auto. Qed.
Lemma still_obind {A B} (p : sprog (outcome E A)) (f : A -> sprog (outcome E B)) : Still p -> (forall a, Still (f a)) -> Still (sobind p f).
Proof. intros H1 H2. apply still_bind; auto. intros [a|e|r]; auto; constructor. Qed.
Lemma still_cells item k : forall cs i, Still (cellsS (E := E) c Recorded ocols (map Some cs) item i k).
Proof.
  induction cs as [|col cs IH]; intros i; cbn [map cellsS]; [constructor|].
  apply still_obind; [constructor|]. intros txt. apply still_obind.
  - cbn [getWidthS]. apply still_obind; [constructor|]. intros [cl|]; repeat constructor.
  - intros w. apply still_obind; auto. constructor.
Qed.
Lemma still_bound {A} M (p : sprog A) : Still p -> Bound M p.
Proof. induction 1; cbn [Bound]; auto. Qed.
Lemma ws_are (m : wmap) (cs : list (Column Item Val E)) ws : Forall2 (fun col w => w = m (colName col)) cs ws -> ws = map (fun col => m (colName col)) cs.
Proof. induction 1; cbn [map]; congruence. Qed.
Lemma alone_cells m item k : (length cols <= length item)%nat ->
  alone m (cellsS (E := E) c Recorded ocols ocols item 0 k) = (m, Ok (cells c cols (map (fun col => m (colName col)) cols) item)).
Proof.
  intros HL. pose proof (still_cells item k cols 0) as HS. pose proof (alone_still _ HS m) as Ha.
  pose proof (alone_mg m _ (still_bound m _ HS) m (fun n => eq_refl)) as G. change 0 with (Z.of_nat 0) in G at 1.
  apply mg_cells in G; auto. destruct G as (ws & Hw & e). apply ws_are in Hw. subst ws. cbn [skipn] in e.
  rewrite Ha in e |- *. cbn [snd] in e. f_equal. exact e.
Qed.
Lemma alone_obind {A B} m (p : sprog (outcome E A)) (f : A -> sprog (outcome E B)) m1 a : alone m p = (m1, Ok a) ->
  alone m (sobind p f) = alone m1 (f a).
Proof. intros e. unfold sobind. rewrite alone_bind, e. reflexivity. Qed.

Hypothesis HI : Forall (fun item => exists row, AllOk (cell item) ocols row) its.

Lemma alone_render (t : Table) m i item k : columnWidth t = Some m -> Columns (tSpec t) = ocols -> nth_error its i = Some item ->
  exists m1 row, FormatItem c t item = (set_width t m1, Ok row) /\
    alone m (renderS c ocols items Recorded (Z.of_nat i) k) = (m1, Ok (block c cols (recorded (set_width t m1) cols) row)).
Proof.
  intros Hm HC Hi. rewrite Forall_forall in HI. destruct (HI item (nth_error_In _ _ Hi)) as (row & HA).
  destruct (alone_format t m item row Hm HC HA) as (m1 & e1 & e2). exists m1, row. split; auto.
  unfold renderS. assert (e : alone m (siGet items (Z.of_nat i)) = (m1, Ok row)).
  { cbn [siGet lazy]. unfold at_index. destruct (Z.ltb_spec (Z.of_nat i) 0); [lia|]. rewrite Nat2Z.id, Hi. exact e2. }
  assert (HL : (length cols <= length row)%nat).
  { assert (L : length ocols = length row) by (clear -HA; induction HA; cbn; congruence). rewrite map_length in L. lia. }
  rewrite (alone_obind _ _ _ _ _ e), (alone_obind _ _ _ _ _ (alone_cells m1 row k HL)).
  reflexivity.
Qed.

Lemma alone_groups (p : nat -> nat) (P : Z -> Z) : (forall k, P (Z.of_nat k) = Z.of_nat (p k)) -> forall n s (t : Table) m,
  columnWidth t = Some m -> Columns (tSpec t) = ocols ->
  exists m1 t1 bs, columnWidth t1 = Some m1 /\ Columns (tSpec t1) = ocols /\ OneByOne c cols t (picks p (seq s n) its) t1 bs /\
    alone m (groupsS (Z.of_nat (length its)) P (renderS c ocols items Recorded) (map Z.of_nat (seq s n)))
    = (m1, Ok (bs ++ if (length (picks p (seq s n) its) <? n)%nat then [[]] else [])).
Proof.
  intros Hpos. induction n as [|n IH]; intros s t m Hm HC.
  - exists m, t, []. repeat split; auto. constructor.
  - cbn [seq map groupsS picks]. rewrite Hpos.
    destruct (nth_error its (p s)) as [item|] eqn:Er.
    + pose proof (nth_some_lt _ _ _ Er). destruct (Z.geb_spec (Z.of_nat (p s)) (Z.of_nat (length its))); [lia|].
      destruct (alone_render t m (p s) item (Z.of_nat s) Hm HC Er) as (m1 & row & e1 & e2).
      rewrite (alone_obind _ _ _ _ _ e2).
      destruct (IH (S s) (set_width t m1) m1 eq_refl HC) as (m2 & t2 & bs & H1 & H2 & H3 & H4).
      rewrite (alone_obind _ _ _ _ _ H4). exists m2, t2, (block c cols (recorded (set_width t m1) cols) row :: bs).
      repeat split; auto. econstructor; eauto.
    + apply nth_error_None in Er. destruct (Z.geb_spec (Z.of_nat (p s)) (Z.of_nat (length its))); [|lia].
      exists m, t, []. repeat split; auto. constructor.
Qed.

Lemma alone_emit sep m g (t : Table) m0 : (1 <= g)%nat -> columnWidth t = Some m0 -> Columns (tSpec t) = ocols ->
  exists m1 t1 out, columnWidth t1 = Some m1 /\ LineByLine c cols sep g t (layout_lines m g its) t1 out /\
    alone m0 (emitS c ocols items sep (fun _ => true) (Z.of_nat g) Recorded (zpos m (Z.of_nat g)))
    = (m1, {| written := out; stop := Finished |}).
Proof.
  intros Hg Hm HC. unfold emitS. change (siLen items) with (Z.of_nat (length its)). rewrite lineCountOf_nat by auto. unfold layout_lines.
  set (L := lineCount (length its) g) in *. rewrite !zrange_nat.
  assert (K : forall n s k acc (t : Table) m0, columnWidth t = Some m0 -> Columns (tSpec t) = ocols ->
    exists m1 t1 out, columnWidth t1 = Some m1 /\
      LineByLine c cols sep g t (map (fun l => picks (pos m g L l) (seq 0 g) its) (seq s n)) t1 out /\
      alone m0 (linesS (fun _ => true) (fun lineI =>
       sobind (groupsS (Z.of_nat (length its)) (zpos m (Z.of_nat g) (Z.of_nat L) lineI) (renderS c ocols items Recorded) (map Z.of_nat (seq 0 g)))
         (fun blocks => SRet (Ok (GoBase.join sep blocks)))) (map Z.of_nat (seq s n)) k acc)
      = (m1, {| written := acc ++ out; stop := Finished |})).
  { clear t m0 Hm HC. induction n as [|n IH]; intros s k acc t m0 Hm HC.
    - exists m0, t, []. split; auto. split; [constructor|]. cbn. rewrite app_nil_r. reflexivity.
    - cbn [seq map linesS].
      destruct (alone_groups (pos m g L s) (zpos m (Z.of_nat g) (Z.of_nat L) (Z.of_nat s)) ltac:(intros j; destruct m; cbn [zpos pos]; lia)
        g 0 t m0 Hm HC) as (m1 & t1 & bs & H1 & H2 & H3 & H4).
      rewrite alone_bind, (alone_obind _ _ _ _ _ H4). cbn [alone fst snd].
      destruct (IH (S s) (S k) (acc ++ [GoBase.join sep (bs ++ if (length (picks (pos m g L s) (seq 0 g) its) <? g)%nat then [[]] else []) ++ [x0a]]) t1 m1 H1 H2)
        as (m2 & t2 & out & K1 & K2 & K3).
      rewrite K3. exists m2, t2. eexists. split; auto. split; [econstructor; eauto|]. rewrite <- app_assoc. reflexivity. }
  destruct (K L 0%nat 0%nat [] t m0 Hm HC) as (m1 & t1 & out & K1 & K2 & K3). exists m1, t1, out. auto.
Qed.
End Each.

Lemma lazy_each {Item Val E A} (t t' : Table Item Val E) m0 (ts1 ts2 : list (sprog A)) m1 ts seen (f : run E -> A) a
    m fuel c cols its rows maxWidth sep g :
  Formats c t its t' rows -> Columns (tSpec t) = map Some cols -> columnWidth t = Some m0 ->
  reckoned t cols sep mod 65536 <> 0 -> Z.of_nat g = estimate t cols sep maxWidth -> Forall Still (ts1 ++ ts2) ->
  sexec anyhow m0 (ts1 ++ sbind (mergeS m fuel c (map Some cols) (fun _ => true) (lazy c (map Some cols) its) maxWidth sep false)
                            (fun r => SRet (f r)) :: ts2) m1 ts seen ->
  nth_error ts (length ts1) = Some (SRet a) ->
  exists lines t1 out, Layout m g its lines /\ LineByLine c cols sep g t lines t1 out /\ columnWidth t1 = Some m1 /\
    a = f {| written := out; stop := Finished |}.
Proof.
  intros HF HC Hm Hr Eg HS X Hi. destruct (exec_alone _ _ _ _ _ _ _ _ HS X) as (b & u & a' & -> & L & _ & R).
  rewrite <- L, nth_mid in Hi. injection Hi as ->.
  assert (Hg : (1 <= g)%nat) by (pose proof (estimate_pos t cols sep maxWidth); lia).
  assert (HI : Forall (fun item => exists row, AllOk (cell item) (map Some cols) row) its).
  { destruct (Formats_cells c t its t' rows ltac:(congruence) HF) as (F2 & _). rewrite HC in F2. clear -F2.
    induction F2; constructor; eauto. }
  destruct (alone_emit (c := c) HI sep m g t m0 Hg Hm HC) as (m2 & t2 & out & H1 & H2 & H3).
  rewrite alone_bind, merge_is, alone_bind, (alone_still _ (still_groupCount maxWidth sep)) in R. cbn [fst snd] in R.
  assert (Ei : at_rest m0 (groupCountS (E := E) (map Some cols) maxWidth sep) = Ok (Z.of_nat g)).
  { rewrite <- HC, (rest_groupCount Hm), (estimate_ok t cols maxWidth sep HC), Eg.
    destruct (Z.eqb_spec (reckoned t cols sep mod 65536) 0); [lia|reflexivity]. }
  rewrite Ei in R. unfold after in R. rewrite H3 in R. cbn [alone fst snd] in R. injection R as -> ->.
  exists (layout_lines m g its), t2, out. split; [apply layout_ok; auto|]. auto.
Qed.
