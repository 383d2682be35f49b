(** * MergeAskedProofs: which items merging asks for. *)
From Coq Require Import ZifyBool ZifyNat Permutation.
From Verif Require Import GoBase CacheProofs Runewidth Width AlignSpec Table Merge TableContract TableOpsProofs MergeSpec MergeLayout MergeRender MergeSearch
  TableRace TableRaceSpec TableRaceProofs TableRaceCases MergeRace MergeRaceSpec MergeRaceProofs MergeRaceLazy MergeRaceEach MergeAsked.
Local Open Scope Z_scope.

(** ** Comparisons of a program *)
(** Whatever is read, the comparisons are [l] and the end satisfies [Q]. *)
Inductive Run {A} (Q : A -> Prop) : sprog A -> list (str * Z) -> Prop :=
| rn_ret a : Q a -> Run Q (SRet a) []
| rn_get name k l : (forall w, Run Q (k w) l) -> Run Q (SGet name k) l
| rn_check name w p l : Run Q p l -> Run Q (SCheck name w p) ((name, w) :: l)
| rn_put name w p l : Run Q p l -> Run Q (SPut name w p) l.

Lemma run_bind {A B} (Q : A -> Prop) (R : B -> Prop) (p : sprog A) (f : A -> sprog B) l1 l2 :
  Run Q p l1 -> (forall a, Q a -> Run R (f a) l2) -> Run R (sbind p f) (l1 ++ l2).
Proof. intros H1 H2. induction H1; cbn [sbind app]; auto; constructor; auto. Qed.
Lemma run_weaken {A} (Q R : A -> Prop) (p : sprog A) l : (forall a, Q a -> R a) -> Run Q p l -> Run R p l.
Proof. intros H. induction 1; constructor; auto. Qed.
Lemma run_gives {A} (Q : A -> Prop) (p : sprog A) l a : Run Q p l -> Gives p a -> Run (fun x => x = a) p l.
Proof. intros H. revert a. induction H; intros b G; inversion G; subst; constructor; auto. Qed.
Definition good {E A} (o : outcome E A) : Prop := exists a, o = Ok a.
Lemma run_obind {E A B} (R : outcome E B -> Prop) (p : sprog (outcome E A)) (f : A -> sprog (outcome E B)) l1 l2 :
  Run good p l1 -> (forall a, Run R (f a) l2) -> Run R (sobind p f) (l1 ++ l2).
Proof. intros H1 H2. apply run_bind with (Q := good); auto. intros o [a ->]. apply H2. Qed.
Lemma run_obind0 {E A B} (R : outcome E B -> Prop) (p : sprog (outcome E A)) (f : A -> sprog (outcome E B)) l2 :
  Run good p [] -> (forall a, Run R (f a) l2) -> Run R (sobind p f) l2.
Proof. exact (run_obind R p f [] l2). Qed.
Lemma run_then {E A B} (R : outcome E B -> Prop) (p : sprog (outcome E A)) (f : A -> sprog (outcome E B)) a l1 l2 :
  Run (fun x => x = Ok a) p l1 -> Run R (f a) l2 -> Run R (sobind p f) (l1 ++ l2).
Proof. intros H1 H2. apply run_bind with (Q := fun x => x = Ok a); auto. intros o ->. exact H2. Qed.
Lemma run_ok {E A} (a : A) : Run (@good E A) (SRet (Ok a)) [].
Proof. constructor. exists a. reflexivity. Qed.
Lemma run_map {E A B} (f : A -> sprog (outcome E B)) (h : A -> list (str * Z)) l :
  (forall a, In a l -> Run good (f a) (h a)) -> Run good (smap f l) (flat_map h l).
Proof.
  induction l as [|a l IH]; intros H; cbn [smap flat_map]; [apply run_ok|].
  apply run_obind; [apply H; left; auto|]. intros b. rewrite <- (app_nil_r (flat_map h l)).
  apply run_obind; [apply IH; intros; apply H; right; auto|]. intros bs. apply run_ok.
Qed.

(** One goroutine. *)
Fixpoint compared {A} (m : wmap) (p : sprog A) : list (str * Z) :=
  match p with
  | SRet _ => []
  | SGet name k => compared m (k (m name))
  | SCheck name w q => (name, w) :: compared (if w >? m name then wset m name w else m) q
  | SPut name w q => compared (wset m name w) q
  end.
Lemma run_compared {A} (Q : A -> Prop) (p : sprog A) l : Run Q p l -> forall m, compared m p = l.
Proof. induction 1; intros m; cbn [compared]; auto. f_equal. auto. Qed.
Lemma compared_bind {A B} (p : sprog A) (f : A -> sprog B) : forall m, compared m (sbind p f) = compared m p ++ compared (fst (alone m p)) (f (snd (alone m p))).
Proof. induction p; intros m; cbn [sbind compared alone app fst snd]; auto. f_equal. auto. Qed.
Lemma compared_still {A} (p : sprog A) : Still p -> forall m, compared m p = [].
Proof. induction 1; intros m; cbn [compared]; auto. Qed.
Lemma compared_step {A} m (p : sprog A) m' p' more : sstep m p = Some (m', p', more) -> compared m p = more ++ compared m' p'.
Proof.
  destruct p as [a|name k|name w p|name w p]; cbn [sstep compared]; intros e; try discriminate; injection e as <- <- <-; auto.
  destruct (w >? m name); reflexivity.
Qed.
Lemma exec_compared {A} P m0 (p0 : sprog A) m ts seen : sexec P m0 [p0] m ts seen ->
  exists p, ts = [p] /\ seen ++ compared m p = compared m0 p0 /\ alone m p = alone m0 p0.
Proof.
  intros X. induction X as [|m before t after seen m' t' more X IH HP S].
  - exists p0. auto.
  - destruct IH as (p & e & e1 & e2). destruct before as [|x before]; cbn [app] in *.
    + injection e as -> ->. exists t'. split; auto. rewrite <- app_assoc, <- (compared_step _ _ _ _ _ S). split; auto.
      rewrite <- e2. symmetry. exact (alone_step _ _ _ _ _ S).
    + injection e as _ e. destruct before; discriminate.
Qed.

(** ** Groups *)
Lemma seq_nth n i : (i < n)%nat -> nth_error (seq 0 n) i = Some i.
Proof. intros Hi. rewrite nth_seq. destruct (Nat.ltb_spec i n); [reflexivity|lia]. Qed.
Lemma flat_prefix (f : nat -> nat) (b : nat -> bool) cnt L s : (cnt <= L)%nat ->
  (forall l, (s <= l < s + L)%nat -> b l = (l <? s + cnt)%nat) ->
  flat_map (fun l => if b l then [f l] else []) (seq s L) = map f (seq s cnt).
Proof.
  revert cnt s. induction L as [|L IH]; intros cnt s Hc Hb.
  - assert (cnt = 0)%nat as -> by lia. reflexivity.
  - cbn [seq flat_map]. rewrite Hb by lia. destruct cnt as [|cnt].
    + destruct (Nat.ltb_spec s (s + 0)); [lia|]. cbn [app seq map]. apply (IH 0%nat); [lia|]. intros l Hl. rewrite Hb by lia.
      destruct (Nat.ltb_spec l (s + 0)), (Nat.ltb_spec l (S s + 0)); lia.
    + destruct (Nat.ltb_spec s (s + S cnt)); [|lia]. cbn [app seq map]. f_equal. apply IH; [lia|]. intros l Hl. rewrite Hb by lia.
      destruct (Nat.ltb_spec l (s + S cnt)), (Nat.ltb_spec l (S s + cnt)); lia.
Qed.
Lemma group_is m n g k : (1 <= g)%nat -> (k < g)%nat ->
  group (layout_lines m g (seq 0 n)) k
  = flat_map (fun l => if (pos m g (lineCount n g) l k <? n)%nat then [pos m g (lineCount n g) l k] else []) (seq 0 (lineCount n g)).
Proof.
  intros Hg Hk. unfold group, layout_lines. rewrite seq_length, flat_map_concat_map, map_map, <- flat_map_concat_map.
  apply flat_map_ext. intros l. rewrite picks_nth by apply pos_mono. destruct (Nat.ltb_spec k g); [|lia]. cbn [plus].
  destruct (Nat.ltb_spec (pos m g (lineCount n g) l k) n) as [L|L].
  - rewrite seq_nth by auto. reflexivity.
  - rewrite (proj2 (nth_error_None _ _)); [reflexivity|]. rewrite seq_length. lia.
Qed.
Lemma group_gidx m n g k : (1 <= g)%nat -> (k < g)%nat ->
  gidx m n g (Z.of_nat k) = map Z.of_nat (group (layout_lines m g (seq 0 n)) k).
Proof.
  intros Hg Hk. rewrite group_is by auto. set (L := lineCount n g).
  assert (HL : (n <= L * g)%nat).
  { destruct (Nat.eq_dec n 0) as [->|]; [lia|]. pose proof (lineCount_spec n g Hg ltac:(lia)). unfold L. lia. }
  destruct m; cbn [gidx pos].
  - unfold Merge.steps, zrange.
    set (cnt := Z.to_nat ((Z.of_nat n - Z.of_nat k + Z.of_nat g - 1) / Z.of_nat g)).
    assert (Hcnt : forall l, (l * g + k < n)%nat <-> (l < cnt)%nat).
    { intros l. unfold cnt. pose proof (Z.mul_div_le (Z.of_nat n - Z.of_nat k + Z.of_nat g - 1) (Z.of_nat g) ltac:(lia)) as K1.
      pose proof (Z.mul_succ_div_gt (Z.of_nat n - Z.of_nat k + Z.of_nat g - 1) (Z.of_nat g) ltac:(lia)) as K2.
      set (q := (Z.of_nat n - Z.of_nat k + Z.of_nat g - 1) / Z.of_nat g) in *. split; intros Hl.
      - assert (Z.of_nat l + 1 <= q); [|lia]. nia.
      - assert (Z.of_nat l + 1 <= q) by lia. nia. }
    rewrite (flat_prefix (fun l => l * g + k)%nat (fun l => (l * g + k <? n)%nat) cnt L 0).
    + rewrite !map_map. apply map_ext. intros a. lia.
    + destruct (Nat.le_gt_cases cnt L) as [|Hlt]; auto. exfalso. apply Hcnt in Hlt. lia.
    + intros l Hl. specialize (Hcnt l). destruct (Nat.ltb_spec (l * g + k) n), (Nat.ltb_spec l (0 + cnt)); lia.
  - fold L. unfold Merge.steps, zrange. rewrite Z.div_1_r.
    set (e := if (Z.of_nat k + 1) * Z.of_nat L >? Z.of_nat n then Z.of_nat n else (Z.of_nat k + 1) * Z.of_nat L).
    set (cnt := Z.to_nat (e - Z.of_nat k * Z.of_nat L + 1 - 1)).
    assert (He : e = Z.min (Z.of_nat n) ((Z.of_nat k + 1) * Z.of_nat L)).
    { unfold e. destruct (Z.gtb_spec ((Z.of_nat k + 1) * Z.of_nat L) (Z.of_nat n)); lia. }
    rewrite (flat_prefix (fun l => k * L + l)%nat (fun l => (k * L + l <? n)%nat) cnt L 0).
    + rewrite !map_map. apply map_ext. intros a. lia.
    + unfold cnt. nia.
    + intros l Hl. unfold cnt. destruct (Nat.ltb_spec (k * L + l) n), (Nat.ltb_spec l (0 + Z.to_nat (e - Z.of_nat k * Z.of_nat L + 1 - 1))); auto; exfalso; nia.
Qed.

(** ** Merging *)
Section Asked.
Context {Item Val E : Type}.
Context {c : Condition} {t : Table Item Val E} {cols : list (Column Item Val E)} {plain : FormattedItemList E} {rows : list (list str)} {tag : str}.
Hypothesis HP : Printable t cols plain rows.
Notation ocols := (map Some cols).
Notation items := (noting tag plain).

Lemma noting_steady : Steady items plain.
Proof. split; [reflexivity|]. intros i. repeat constructor. Qed.
Lemma noting_len : siLen items = Z.of_nat (length rows).
Proof. exact (proj1 (pr_serves _ _ _ _ HP)). Qed.
Lemma run_get i row : nth_error rows i = Some row -> Run (fun x => x = Ok row) (siGet items (Z.of_nat i)) (asked tag [i]).
Proof. intros Hi. constructor. constructor. exact (proj2 (pr_serves _ _ _ _ HP) i row Hi). Qed.

Definition SourceOk (src : source) (g : nat) : Prop :=
  forall i k, (i < length cols)%nat -> (k < g)%nat -> Run good (getWidthS (E := E) src ocols (Z.of_nat i) (Z.of_nat k)) [].
Lemma source_rec g : SourceOk Recorded g.
Proof.
  intros i k Hi Hk. cbn [getWidthS]. destruct (nth_error cols i) as [col|] eqn:Ec; [|apply nth_error_None in Ec; lia].
  rewrite (index_nat _ i (Some col)) by (rewrite nth_map, Ec; reflexivity).
  apply (run_then _ _ _ (Some col) [] []); [constructor; reflexivity|]. constructor. intros w. apply run_ok.
Qed.
Lemma source_flat m g : (1 <= g)%nat -> SourceOk (Found (slen ocols) (flat (c := c) (cols := cols) (rows := rows) m g)) g.
Proof.
  intros Hg i k Hi Hk. cbn [getWidthS]. destruct (reads_compact HP (c := c) m g Hg k Hk) as [HL HR].
  destruct (nth_error (gwidths cols c m rows g k) i) as [w|] eqn:Ew; [|apply nth_error_None in Ew; lia].
  specialize (HR i w Ew). unfold ColumnCount in HR. rewrite (pr_columns _ _ _ _ HP) in HR. rewrite HR. apply run_ok.
Qed.

Lemma run_cells src g item k : SourceOk src g -> (k < g)%nat -> forall cs (i : nat), (i + length cs <= length item)%nat -> (i + length cs <= length cols)%nat ->
  Run good (cellsS (E := E) c src ocols (map Some cs) item (Z.of_nat i) (Z.of_nat k)) [].
Proof.
  intros HS Hk. induction cs as [|col cs IH]; intros i H1 H2; cbn [map cellsS]; [apply run_ok|]. cbn [length] in *.
  destruct (nth_error item i) as [s|] eqn:Es; [|apply nth_error_None in Es; lia].
  apply (run_then _ _ _ s [] []); [constructor; apply index_nat; auto|]. apply run_obind0; [apply HS; auto; lia|].
  intros w. apply run_obind0; [|intros; apply run_ok]. replace (Z.of_nat i + 1) with (Z.of_nat (S i)) by lia. apply IH; lia.
Qed.
Lemma long i row : nth_error rows i = Some row -> (length cols <= length row)%nat.
Proof. intros Hi. pose proof (pr_long _ _ _ _ HP) as HL. rewrite Forall_forall in HL. exact (HL row (nth_error_In _ _ Hi)). Qed.
Lemma run_render src g i k row : SourceOk src g -> (k < g)%nat -> nth_error rows i = Some row ->
  Run good (renderS c ocols items src (Z.of_nat i) (Z.of_nat k)) (asked tag [i]).
Proof.
  intros HS Hk Hi. unfold renderS. rewrite <- (app_nil_r (asked tag [i])). eapply run_then; [apply run_get; exact Hi|].
  apply run_obind0; [|intros; apply run_ok]. apply (run_cells src g row k HS Hk cols 0); cbn [plus]; [exact (long _ _ Hi)|lia].
Qed.

Lemma run_groups src g (p : nat -> nat) (P : Z -> Z) : SourceOk src g -> (forall k, P (Z.of_nat k) = Z.of_nat (p k)) -> forall n s, (s + n <= g)%nat ->
  Run good (groupsS (Z.of_nat (length rows)) P (renderS c ocols items src) (map Z.of_nat (seq s n)))
    (asked tag (picks p (seq s n) (seq 0 (length rows)))).
Proof.
  intros HS Hpos. induction n as [|n IH]; intros s Hs; cbn [seq map groupsS picks]; [apply run_ok|]. rewrite Hpos.
  destruct (Z.geb_spec (Z.of_nat (p s)) (Z.of_nat (length rows))) as [L|L].
  - rewrite (proj2 (nth_error_None (seq 0 (length rows)) (p s))) by (rewrite seq_length; lia). apply run_ok.
  - rewrite seq_nth by lia. destruct (nth_error rows (p s)) as [row|] eqn:Er; [|apply nth_error_None in Er; lia].
    change (asked tag (p s :: ?l)) with (asked tag [p s] ++ asked tag l).
    apply run_obind; [apply (run_render src g (p s) s row); auto; lia|]. intros b. rewrite <- (app_nil_r (asked tag _)).
    apply run_obind; [apply IH; lia|]. intros bs. apply run_ok.
Qed.
Lemma run_emit src sep m g : SourceOk src g -> (1 <= g)%nat ->
  Run (fun r => stop r = Finished) (emitS c ocols items sep (fun _ => true) (Z.of_nat g) src (zpos m (Z.of_nat g)))
    (asked tag (concat (layout_lines m g (seq 0 (length rows))))).
Proof.
  intros HS Hg. unfold emitS. rewrite noting_len, lineCountOf_nat by auto. unfold layout_lines. rewrite seq_length.
  set (L := lineCount (length rows) g). rewrite !zrange_nat.
  assert (K : forall n s k acc, Run (fun r => stop r = Finished)
    (linesS (fun _ => true) (fun lineI =>
       sobind (groupsS (Z.of_nat (length rows)) (zpos m (Z.of_nat g) (Z.of_nat L) lineI) (renderS c ocols items src) (map Z.of_nat (seq 0 g)))
         (fun blocks => SRet (Ok (GoBase.join sep blocks)))) (map Z.of_nat (seq s n)) k acc)
    (asked tag (concat (map (fun l => picks (pos m g L l) (seq 0 g) (seq 0 (length rows))) (seq s n))))).
  { induction n as [|n IH]; intros s k acc; cbn [seq map linesS concat]; [constructor; reflexivity|].
    unfold asked. rewrite map_app. apply run_bind with (Q := good).
    - rewrite <- (app_nil_r (map _ (picks _ _ _))). apply run_obind; [|intros; apply run_ok].
      apply (run_groups src g (pos m g L s)); auto. intros j. destruct m; cbn [zpos pos]; lia.
    - intros o [txt ->]. apply IH. }
  apply K.
Qed.

Lemma run_maxCell (colI : nat) js mw : (colI < length cols)%nat -> Forall (fun j => (j < length rows)%nat) js ->
  Run good (maxCellS c items (Z.of_nat colI) (map Z.of_nat js) mw) (asked tag js).
Proof.
  intros Hc. revert mw. induction js as [|j js IH]; intros mw Hj; cbn [map maxCellS]; [apply run_ok|].
  inversion Hj; subst. destruct (nth_error rows j) as [row|] eqn:Er; [|apply nth_error_None in Er; lia].
  change (asked tag (j :: js)) with (asked tag [j] ++ asked tag js). eapply run_then; [apply run_get; exact Er|].
  pose proof (long _ _ Er). destruct (nth_error row colI) as [s|] eqn:Es; [|apply nth_error_None in Es; lia].
  apply (run_then _ _ _ s []); [constructor; apply index_nat; auto|]. apply IH. auto.
Qed.
Lemma group_in m n g k : (1 <= g)%nat -> (k < g)%nat -> Forall (fun j => (j < n)%nat) (group (layout_lines m g (seq 0 n)) k).
Proof.
  intros Hg Hk. rewrite group_is by auto. rewrite Forall_forall. intros j Hj. apply in_flat_map in Hj. destruct Hj as (l & _ & Hj).
  destruct (Nat.ltb_spec (pos m g (lineCount n g) l k) n); [|destruct Hj]. destruct Hj as [<-|[]]. auto.
Qed.
Lemma run_widths m g idxs : (1 <= g)%nat -> (forall k, (k < g)%nat -> idxs (Z.of_nat k) = gidx m (length rows) g (Z.of_nat k)) ->
  Run good (widthsS c items (slen ocols) idxs (Z.of_nat g)) (asked tag (pass (length cols) g (layout_lines m g (seq 0 (length rows))))).
Proof.
  intros Hg Hidx. unfold widthsS. rewrite <- (app_nil_r (asked tag _)). apply run_obind; [|intros; apply run_ok].
  unfold slen. rewrite map_length, !zrange_nat.
  set (lines := layout_lines m g (seq 0 (length rows))).
  assert (e : asked tag (pass (length cols) g lines)
    = flat_map (fun kz => flat_map (fun _ => asked tag (group lines (Z.to_nat kz))) (map Z.of_nat (seq 0 (length cols)))) (map Z.of_nat (seq 0 g))).
  { unfold pass, asked. rewrite !flat_map_concat_map, concat_map, !map_map. f_equal. apply map_ext. intros k. rewrite Nat2Z.id.
    rewrite flat_map_concat_map, concat_map, map_map. f_equal. generalize 0%nat. induction (length cols) as [|x IH]; intros s; cbn; [reflexivity|]. f_equal. apply IH. }
  rewrite e. apply run_map. intros kz Hk. apply in_map_iff in Hk. destruct Hk as (k & <- & Hk). apply in_seq in Hk. rewrite Nat2Z.id.
  apply run_map. intros iz Hi. apply in_map_iff in Hi. destruct Hi as (i & <- & Hi). apply in_seq in Hi.
  rewrite Hidx, group_gidx by lia. apply run_maxCell; [lia|]. apply group_in; lia.
Qed.
Definition mergedN (m : mode) := match m with H => mergedHS c ocols items | V => mergedVS c ocols items end.
Lemma gives_merged m g : (2 <= g)%nat ->
  Gives (mergedN m (Z.of_nat g)) (Ok (if worth_b m (length rows) g then Some (flat (c := c) (cols := cols) (rows := rows) m g) else None)).
Proof.
  intros Hg. pose proof (gives_mergedH (c := c) (t := t) noting_steady (Z.of_nat g)) as KH.
  pose proof (gives_mergedV (c := c) (t := t) noting_steady (Z.of_nat g)) as KV. rewrite (pr_columns _ _ _ _ HP) in KH, KV.
  destruct m; cbn [mergedN].
  - rewrite (mergedH_ok HP) in KH by lia. exact KH.
  - rewrite (mergedV_ok HP) in KV by lia. exact KV.
Qed.
Lemma run_merged m g : (2 <= g)%nat ->
  Run (fun o => o = Ok (if worth_b m (length rows) g then Some (flat (c := c) (cols := cols) (rows := rows) m g) else None)) (mergedN m (Z.of_nat g))
    (if worth_b m (length rows) g then asked tag (pass (length cols) g (layout_lines m g (seq 0 (length rows)))) else []).
Proof.
  intros Hg. pose proof (gives_merged m g Hg) as G. refine (run_gives (fun _ => True) _ _ _ _ G).
  destruct m; cbn [mergedN worth_b].
  - unfold mergedHS. rewrite <- (app_nil_r (asked tag _)). apply run_obind; [|intros; constructor; exact Logic.I].
    apply run_widths; [lia|]. intros k Hk. rewrite noting_len. reflexivity.
  - pose proof (mergedV_ok HP (c := c) g Hg) as HV. unfold mergedRowsWidthV in HV. unfold mergedVS.
    change (siLen items) with (fiLen plain). destruct (_ =? 0); [discriminate|]. cbn [worth_b] in HV. destruct (_ >? _).
    + injection HV as HV. destruct (_ <? _)%nat; [discriminate|]. constructor. exact Logic.I.
    + destruct (_ <? _)%nat; [|destruct (widthsOf _ _ _ _ _); discriminate].
      rewrite <- (app_nil_r (asked tag _)). apply run_obind; [|intros; constructor; exact Logic.I].
      apply run_widths; [lia|]. intros k Hk. rewrite (rows_len HP), lineCountOf_nat by lia. reflexivity.
Qed.

Lemma calc_run sep maxWidth m (g0 : nat) : (1 <= g0)%nat -> forall f extra cw,
  (extra = 0%nat \/ cw = flat (c := c) (cols := cols) (rows := rows) m (g0 + extra)) ->
  exists o l, Run (fun x => x = o) (calcS f (mergedN m) (u16 (slen ocols)) (clampWidth maxWidth) (u16 (slen sep)) (Z.of_nat g0) (Z.of_nat extra) cw) (asked tag l) /\
    (o = None \/ exists extra' cw', (extra <= extra')%nat /\ o = Some (Ok (Z.of_nat extra', cw')) /\
       (extra' = 0%nat \/ cw' = flat (c := c) (cols := cols) (rows := rows) m (g0 + extra')) /\
       Tries c cols sep maxWidth m rows (g0 + extra) l (g0 + extra')).
Proof.
  intros Hg0. induction f as [|f IH]; intros extra cw Hcw.
  - exists None, []. split; [constructor; reflexivity|]. auto.
  - cbn [calcS]. set (g := (g0 + extra + 1)%nat). replace (Z.of_nat g0 + Z.of_nat extra + 1) with (Z.of_nat g) by lia.
    replace (Z.of_nat extra + 1) with (Z.of_nat (S extra)) by lia.
    assert (Hg : S (g0 + extra) = g) by lia. pose proof (run_merged m g ltac:(lia)) as RM.
    pose proof (layout_ok m g (seq 0 (length rows)) ltac:(lia)) as HL.
    pose proof (worth_spec m rows g ltac:(lia)) as HW. pose proof (acceptable_spec c cols sep maxWidth m rows g ltac:(lia)) as HA. unfold acceptable_b in HA.
    destruct (worth_b m (length rows) g) eqn:Ew; cbn [andb] in HA.
    + pose proof (total_flat HP (c := c) m g sep) as HT. unfold ColumnCount in HT. rewrite (pr_columns _ _ _ _ HP) in HT.
      destruct (Z.leb_spec (total sep cols (gwidths cols c m rows g) g mod 65536) (effective maxWidth)) as [La|La].
      * destruct (IH (S extra) (flat (c := c) (cols := cols) (rows := rows) m g)) as (o & l & R & D).
        { right. f_equal. lia. }
        exists o, (pass (length cols) g (layout_lines m g (seq 0 (length rows))) ++ l). split.
        -- unfold asked at 1. rewrite map_app. eapply run_bind; [exact RM|]. intros x ->. rewrite HT, clamp_effective.
           destruct (Z.gtb_spec (total sep cols (gwidths cols c m rows g) g mod 65536) (effective maxWidth)); [lia|]. rewrite <- clamp_effective. exact R.
        -- destruct D as [D|(extra' & cw' & D1 & D2 & D3 & D4)]; [auto|right]. exists extra', cw'. split; [lia|]. split; auto. split; auto.
           replace (g0 + S extra)%nat with g in D4 by lia. rewrite <- Hg in *. eapply tr_next; eauto. apply HA. auto.
      * exists (Some (Ok (Z.of_nat extra, cw))), (pass (length cols) g (layout_lines m g (seq 0 (length rows)))). split.
        -- rewrite <- (app_nil_r (asked tag _)). eapply run_bind; [exact RM|]. intros x ->. rewrite HT, clamp_effective.
           destruct (Z.gtb_spec (total sep cols (gwidths cols c m rows g) g mod 65536) (effective maxWidth)); [|lia]. constructor. reflexivity.
        -- right. exists extra, cw. split; auto. split; auto. split; auto. rewrite <- Hg in *. apply tr_last; auto; [apply HW; auto|].
           intros K. apply HA in K. discriminate.
    + exists (Some (Ok (Z.of_nat extra, cw))), []. split.
      * change (asked tag []) with (@nil (str * Z) ++ []). eapply run_bind; [exact RM|]. intros x ->. constructor. reflexivity.
      * right. exists extra, cw. split; auto. split; auto. split; auto. apply tr_useless. rewrite Hg. intros K. apply HW in K. discriminate.
Qed.
End Asked.

Section Calls.
Context {Item Val E : Type}.
Lemma estimate_is (t : Table Item Val E) cols m0 maxWidth sep g : Columns (tSpec t) = map Some cols -> columnWidth t = Some m0 ->
  reckoned t cols sep mod 65536 <> 0 -> Z.of_nat g = estimate t cols sep maxWidth ->
  at_rest m0 (groupCountS (E := E) (map Some cols) maxWidth sep) = Ok (Z.of_nat g).
Proof.
  intros HC Hm Hr Eg. rewrite <- HC, (rest_groupCount Hm), (estimate_ok t cols maxWidth sep HC), Eg.
  destruct (Z.eqb_spec (reckoned t cols sep mod 65536) 0); [lia|reflexivity].
Qed.

Lemma asked_plain (t : Table Item Val E) cols plain rows tag m fuel c maxWidth sep g m0 m1 r seen :
  Printable t cols plain rows -> columnWidth t = Some m0 -> reckoned t cols sep mod 65536 <> 0 -> Z.of_nat g = estimate t cols sep maxWidth ->
  sexec anyhow m0 [mergeS m fuel c (map Some cols) (fun _ => true) (noting tag plain) maxWidth sep false] m1 [SRet r] seen ->
  exists lines, Layout m g (seq 0 (length rows)) lines /\ seen = asked tag (concat lines) /\ stop r = Finished.
Proof.
  intros HP Hm Hr Eg X. destruct (exec_compared _ _ _ _ _ _ X) as (p & e & K1 & K2). injection e as <-.
  cbn [compared alone] in K1, K2. rewrite app_nil_r in K1.
  rewrite merge_is in K1, K2. rewrite compared_bind, (compared_still _ (still_groupCount maxWidth sep)) in K1.
  rewrite alone_bind in K2. rewrite (alone_still _ (still_groupCount maxWidth sep)) in K1, K2. cbn [fst snd app] in K1, K2.
  rewrite (estimate_is t cols m0 maxWidth sep g (pr_columns _ _ _ _ HP) Hm Hr Eg) in K1, K2. cbn [after] in K1, K2.
  assert (Hg : (1 <= g)%nat) by (pose proof (estimate_pos t cols sep maxWidth); lia).
  exists (layout_lines m g (seq 0 (length rows))). split; [apply layout_ok; auto|].
  pose proof (run_emit HP (c := c) (tag := tag) Recorded sep m g (source_rec g) Hg) as RE. split.
  - rewrite K1. exact (run_compared _ _ _ RE m0).
  - assert (F : forall A (Q : A -> Prop) p l, Run Q p l -> forall m, Q (snd (alone m p))).
    { induction 1; intros mm; cbn [alone snd]; auto. }
    specialize (F _ _ _ _ RE m0). rewrite <- K2 in F. exact F.
Qed.
Lemma asked_compact (t : Table Item Val E) cols plain rows tag m fuel c maxWidth sep g0 m0 m1 r seen :
  Printable t cols plain rows -> columnWidth t = Some m0 -> reckoned t cols sep mod 65536 <> 0 -> Z.of_nat g0 = estimate t cols sep maxWidth ->
  sexec anyhow m0 [mergeS m fuel c (map Some cols) (fun _ => true) (noting tag plain) maxWidth sep true] m1 [SRet r] seen ->
  stop r = Running \/ exists tries g lines, Tries c cols sep maxWidth m rows g0 tries g /\ Layout m g (seq 0 (length rows)) lines /\
    seen = asked tag (tries ++ concat lines) /\ stop r = Finished.
Proof.
  intros HP Hm Hr Eg X. destruct (exec_compared _ _ _ _ _ _ X) as (p & e & K1 & K2). injection e as <-.
  cbn [compared alone] in K1, K2. rewrite app_nil_r in K1.
  rewrite merge_is in K1, K2. rewrite compared_bind, (compared_still _ (still_groupCount maxWidth sep)) in K1.
  rewrite alone_bind in K2. rewrite (alone_still _ (still_groupCount maxWidth sep)) in K1, K2. cbn [fst snd app] in K1, K2.
  rewrite (estimate_is t cols m0 maxWidth sep g0 (pr_columns _ _ _ _ HP) Hm Hr Eg) in K1, K2. cbn [after] in K1, K2.
  assert (Hg : (1 <= g0)%nat) by (pose proof (estimate_pos t cols sep maxWidth); lia).
  assert (F : forall A (Q : A -> Prop) p l, Run Q p l -> forall m, Q (snd (alone m p))).
  { induction 1; intros mm; cbn [alone snd]; auto. }
  destruct (calc_run HP (c := c) (tag := tag) sep maxWidth m g0 Hg fuel 0 [] (or_introl eq_refl)) as (o & l & R & D).
  rewrite compared_bind in K1. rewrite alone_bind in K2. unfold mergedN in R. change (Z.of_nat 0) with 0 in R.
  pose proof (F _ _ _ _ R m0) as Ev. rewrite (run_compared _ _ _ R m0) in K1. rewrite Ev in K1, K2.
  destruct D as [->|(extra & cw & _ & -> & Hcw & HT)].
  - left. cbn [alone] in K2. injection K2 as _ ->. reflexivity.
  - right. rewrite Nat.add_0_r in HT. exists l, (g0 + extra)%nat, (layout_lines m (g0 + extra) (seq 0 (length rows))).
    split; auto. split; [apply layout_ok; lia|].
    assert (RE : Run (fun r => stop r = Finished)
       (if Z.of_nat extra >? 0
        then emitS c (map Some cols) (noting tag plain) sep (fun _ => true) (Z.of_nat g0 + Z.of_nat extra) (Found (slen (map Some cols)) cw) (zpos m (Z.of_nat g0 + Z.of_nat extra))
        else emitS c (map Some cols) (noting tag plain) sep (fun _ => true) (Z.of_nat g0) Recorded (zpos m (Z.of_nat g0)))
       (asked tag (concat (layout_lines m (g0 + extra) (seq 0 (length rows)))))).
    { destruct (Z.gtb_spec (Z.of_nat extra) 0).
      - replace (Z.of_nat g0 + Z.of_nat extra) with (Z.of_nat (g0 + extra)) by lia. destruct Hcw as [K| ->]; [lia|].
        apply (run_emit HP); [|lia]. apply (source_flat HP). lia.
      - assert (extra = 0)%nat as -> by lia. rewrite Nat.add_0_r. apply (run_emit HP); auto. apply source_rec. }
    split.
    + rewrite K1. unfold asked. rewrite map_app. f_equal. exact (run_compared _ _ _ RE _).
    + pose proof (F _ _ _ _ RE (fst (alone m0 (calcS fuel (mergedN (c := c) (cols := cols) (plain := plain) (tag := tag) m) (u16 (slen (map Some cols))) (clampWidth maxWidth) (u16 (slen sep)) (Z.of_nat g0) 0 [])))) as G.
      unfold mergedN in G. rewrite <- K2 in G. exact G.
Qed.
End Calls.

(** ** How often *)
Notation times l i := (count_occ Nat.eq_dec l i).
Lemma times_flat {A} (f : A -> list nat) xs x0 i v : NoDup xs -> In x0 xs -> (forall x, In x xs -> x <> x0 -> times (f x) i = 0%nat) ->
  times (f x0) i = v -> times (flat_map f xs) i = v.
Proof.
  intros ND. induction ND as [|x xs Hx ND IH]; intros Hin H0 Hv; [destruct Hin|]. cbn [flat_map]. rewrite count_occ_app.
  assert (Z0 : forall ys, (forall y, In y ys -> times (f y) i = 0%nat) -> times (flat_map f ys) i = 0%nat).
  { clear. induction ys as [|y ys IH]; intros H; [reflexivity|]. cbn [flat_map]. rewrite count_occ_app, (H y) by (left; auto). apply IH. intros; apply H; right; auto. }
  destruct Hin as [->|Hin].
  - rewrite Z0; [lia|]. intros y Hy. apply H0; [right; auto|]. intros ->. contradiction.
  - rewrite (H0 x (or_introl eq_refl)) by (intros ->; contradiction). apply IH; auto. intros y Hy. apply H0. right. auto.
Qed.
Definition at_place (m : mode) (n g l k : nat) : list nat := let i := pos m g (lineCount n g) l k in if (i <? n)%nat then [i] else [].
Lemma picks_flat (p : nat -> nat) N : (forall k, (p k <= p (S k))%nat) -> forall n s,
  picks p (seq s n) (seq 0 N) = flat_map (fun k => if (p k <? N)%nat then [p k] else []) (seq s n).
Proof.
  intros Hp. assert (Hm : forall a b, (p a <= p (a + b))%nat).
  { intros a b. induction b as [|b IH]; [rewrite Nat.add_0_r; auto|]. rewrite Nat.add_succ_r. specialize (Hp (a + b)%nat). lia. }
  induction n as [|n IH]; intros s; [reflexivity|]. cbn [seq picks flat_map]. destruct (Nat.ltb_spec (p s) N) as [L|L].
  - rewrite seq_nth by auto. cbn [app]. f_equal. apply IH.
  - rewrite (proj2 (nth_error_None _ _)) by (rewrite seq_length; lia). cbn [app]. rewrite <- IH. destruct n as [|n]; [reflexivity|].
    cbn [seq picks]. rewrite (proj2 (nth_error_None _ _)); [reflexivity|]. rewrite seq_length. specialize (Hp s). lia.
Qed.
Lemma place_of m n g i : (1 <= g)%nat -> (i < n)%nat -> exists l k, (l < lineCount n g)%nat /\ (k < g)%nat /\ pos m g (lineCount n g) l k = i /\
  forall l' k', (l' < lineCount n g)%nat -> (k' < g)%nat -> pos m g (lineCount n g) l' k' = i -> l' = l /\ k' = k.
Proof.
  intros Hg Hi. pose proof (lineCount_spec n g Hg ltac:(lia)) as HL. set (L := lineCount n g) in *.
  assert (HL1 : (1 <= L)%nat) by (unfold L; apply lineCount_pos; lia). destruct m; cbn [pos].
  - exists (i / g)%nat, (i mod g)%nat. pose proof (Nat.div_mod i g ltac:(lia)) as D. pose proof (Nat.mod_upper_bound i g ltac:(lia)).
    split; [apply Nat.div_lt_upper_bound; lia|]. split; auto. split; [lia|]. intros l' k' _ Hk' e.
    pose proof (Nat.div_unique i g l' k' Hk' ltac:(lia)). pose proof (Nat.mod_unique i g l' k' Hk' ltac:(lia)). auto.
  - exists (i mod L)%nat, (i / L)%nat. pose proof (Nat.div_mod i L ltac:(lia)) as D. pose proof (Nat.mod_upper_bound i L ltac:(lia)).
    split; auto. split; [apply Nat.div_lt_upper_bound; lia|]. split; [lia|]. intros l' k' Hl' _ e.
    pose proof (Nat.div_unique i L k' l' Hl' ltac:(lia)). pose proof (Nat.mod_unique i L k' l' Hl' ltac:(lia)). auto.
Qed.
Lemma times_place m n g l k i : (i < n)%nat -> times (at_place m n g l k) i = if (pos m g (lineCount n g) l k =? i)%nat then 1%nat else 0%nat.
Proof.
  intros Hi. unfold at_place. destruct (Nat.ltb_spec (pos m g (lineCount n g) l k) n) as [L|L].
  - cbn [count_occ]. destruct (Nat.eq_dec _ _), (Nat.eqb_spec (pos m g (lineCount n g) l k) i); congruence.
  - destruct (Nat.eqb_spec (pos m g (lineCount n g) l k) i); [lia|reflexivity].
Qed.
Lemma times_lines m n g i : (1 <= g)%nat -> (i < n)%nat -> times (concat (layout_lines m g (seq 0 n))) i = 1%nat.
Proof.
  intros Hg Hi. unfold layout_lines. rewrite seq_length, <- flat_map_concat_map.
  destruct (place_of m n g i Hg Hi) as (l & k & Hl & Hk & e & U).
  apply times_flat with (x0 := l); [apply seq_NoDup|apply in_seq; lia| |].
  - intros l' Hl' Hne. apply in_seq in Hl'. rewrite picks_flat by apply pos_mono.
    assert (Z0 : forall ys, (forall y, In y ys -> (y < g)%nat) -> times (flat_map (at_place m n g l') ys) i = 0%nat).
    { induction ys as [|y ys IH]; intros Hy; [reflexivity|]. cbn [flat_map]. rewrite count_occ_app, times_place by auto.
      rewrite IH by (intros; apply Hy; right; auto). destruct (Nat.eqb_spec (pos m g (lineCount n g) l' y) i) as [e'|]; [|reflexivity].
      destruct (U l' y); [lia|apply Hy; left; auto|auto|]. congruence. }
    apply Z0. intros y Hy. apply in_seq in Hy. lia.
  - rewrite picks_flat by apply pos_mono. change (times (flat_map (at_place m n g l) (seq 0 g)) i = 1%nat).
    apply times_flat with (x0 := k); [apply seq_NoDup|apply in_seq; lia| |].
    + intros k' Hk' Hne. apply in_seq in Hk'. rewrite times_place by auto. destruct (Nat.eqb_spec (pos m g (lineCount n g) l k') i) as [e'|]; [|reflexivity].
      destruct (U l k'); auto; lia.
    + rewrite times_place by auto. rewrite e, Nat.eqb_refl. reflexivity.
Qed.
Lemma times_repeat l n i : times (concat (repeat l n)) i = (n * times l i)%nat.
Proof. induction n as [|n IH]; [reflexivity|]. cbn [repeat concat]. rewrite count_occ_app, IH. lia. Qed.
Lemma times_pass m n g nc i : (1 <= g)%nat -> (i < n)%nat -> times (pass nc g (layout_lines m g (seq 0 n))) i = nc.
Proof.
  intros Hg Hi. unfold pass. destruct (place_of m n g i Hg Hi) as (l & k & Hl & Hk & e & U).
  assert (G : forall k', (k' < g)%nat -> times (group (layout_lines m g (seq 0 n)) k') i = if (k' =? k)%nat then 1%nat else 0%nat).
  { intros k' Hk'. rewrite group_is by auto. change (times (flat_map (fun l => at_place m n g l k') (seq 0 (lineCount n g))) i = if (k' =? k)%nat then 1%nat else 0%nat).
    apply times_flat with (x0 := l); [apply seq_NoDup|apply in_seq; lia| |].
    - intros l' Hl' Hne. apply in_seq in Hl'. rewrite times_place by auto. destruct (Nat.eqb_spec (pos m g (lineCount n g) l' k') i) as [e'|]; [|reflexivity].
      destruct (U l' k'); auto; lia.
    - rewrite times_place by auto. destruct (Nat.eqb_spec (pos m g (lineCount n g) l k') i) as [e'|e'], (Nat.eqb_spec k' k) as [->|]; auto.
      + destruct (U l k'); auto. congruence.
      + congruence. }
  apply times_flat with (x0 := k); [apply seq_NoDup|apply in_seq; lia| |].
  - intros k' Hk' Hne. apply in_seq in Hk'. rewrite times_repeat, G by lia. destruct (Nat.eqb_spec k' k); lia.
  - rewrite times_repeat, G by lia. rewrite Nat.eqb_refl. lia.
Qed.
Lemma lines_in m n g i : (1 <= g)%nat -> In i (concat (layout_lines m g (seq 0 n))) -> (i < n)%nat.
Proof.
  intros Hg Hi. apply in_concat in Hi. destruct Hi as (line & Hl & Hi). unfold layout_lines in Hl. apply in_map_iff in Hl. destruct Hl as (l & <- & _).
  rewrite picks_flat in Hi by apply pos_mono. apply in_flat_map in Hi. destruct Hi as (k & _ & Hi).
  destruct (Nat.ltb_spec (pos m g (lineCount (length (seq 0 n)) g) l k) n); [|destruct Hi]. destruct Hi as [<-|[]]. auto.
Qed.
Lemma pass_in m n g nc i : (1 <= g)%nat -> In i (pass nc g (layout_lines m g (seq 0 n))) -> (i < n)%nat.
Proof.
  intros Hg Hi. unfold pass in Hi. apply in_flat_map in Hi. destruct Hi as (k & Hk & Hi). apply in_seq in Hk.
  assert (In i (group (layout_lines m g (seq 0 n)) k)).
  { clear -Hi. induction nc as [|nc IH]; cbn [repeat concat] in Hi; [destruct Hi|]. apply in_app_iff in Hi. destruct Hi; auto. }
  pose proof (group_in m n g k Hg ltac:(lia)) as F. rewrite Forall_forall in F. auto.
Qed.

Section Count.
Context {Item Val E : Type}.
Lemma tries_count c (cols : list (Column Item Val E)) sep maxWidth m rows g l g' : (1 <= g)%nat -> Tries c cols sep maxWidth m rows g l g' ->
  (g <= g')%nat /\ (forall i, In i l -> (i < length rows)%nat) /\
  exists T, ((Worth m rows (S g') /\ T = S (g' - g)) \/ (~ Worth m rows (S g') /\ T = (g' - g)%nat)) /\
    forall i, (i < length rows)%nat -> times l i = (length cols * T)%nat.
Proof.
  intros Hg X. induction X as [g Hw|g lines Hw Ha HL|g lines more g' Ha HL X IH].
  - split; auto. split; [intros i []|]. exists 0%nat. split; [right; split; auto; lia|]. intros i Hi. cbn. lia.
  - apply layout_is in HL; [|lia]. subst lines. split; auto. split; [intros i; apply pass_in; lia|].
    exists 1%nat. split; [left; split; auto; lia|]. intros i Hi. rewrite times_pass by lia. lia.
  - apply layout_is in HL; [|lia]. subst lines. destruct (IH ltac:(lia)) as (L & I1 & T & HT & C). split; [lia|]. split.
    + intros i Hi. apply in_app_iff in Hi. destruct Hi as [Hi|Hi]; auto. apply (pass_in m (length rows) (S g) (length cols)); [lia|exact Hi].
    + exists (S T). split; [destruct HT as [[K1 ->]|[K1 ->]]; [left|right]; (split; [exact K1|lia])|].
      intros i Hi. rewrite count_occ_app, times_pass, C, Nat.mul_succ_r by (auto; lia). lia.
Qed.
Lemma tries_search c (cols : list (Column Item Val E)) sep maxWidth m rows g l g' : Tries c cols sep maxWidth m rows g l g' ->
  Search c cols sep maxWidth m rows g g'.
Proof.
  induction 1 as [g Hw|g lines Hw Ha HL|g lines more g' Ha HL X (K1 & K2 & K3)].
  - split; auto. split; [intros; lia|]. intros [K _]. contradiction.
  - split; auto. split; [intros; lia|]. exact Ha.
  - split; [lia|]. split; auto. intros k Hk. destruct (Nat.eq_dec k (S g)) as [->|]; auto. apply K2. lia.
Qed.

Lemma asked_once (t : Table Item Val E) cols plain rows tag m fuel c maxWidth sep g m0 m1 r seen :
  Printable t cols plain rows -> columnWidth t = Some m0 -> reckoned t cols sep mod 65536 <> 0 -> Z.of_nat g = estimate t cols sep maxWidth ->
  sexec anyhow m0 [mergeS m fuel c (map Some cols) (fun _ => true) (noting tag plain) maxWidth sep false] m1 [SRet r] seen ->
  exists is, seen = asked tag is /\ forall i, times is i = if (i <? length rows)%nat then 1%nat else 0%nat.
Proof.
  intros HP Hm Hr Eg X. assert (Hg : (1 <= g)%nat) by (pose proof (estimate_pos t cols sep maxWidth); lia).
  destruct (asked_plain t cols plain rows tag m fuel c maxWidth sep g m0 m1 r seen HP Hm Hr Eg X) as (lines & HL & -> & _).
  apply layout_is in HL; auto. subst lines. eexists. split; [reflexivity|]. intros i. destruct (Nat.ltb_spec i (length rows)).
  - apply times_lines; auto.
  - apply count_occ_not_In. intros K. apply lines_in in K; auto. lia.
Qed.
Lemma asked_times (t : Table Item Val E) cols plain rows tag m fuel c maxWidth sep g0 m0 m1 r seen :
  Printable t cols plain rows -> columnWidth t = Some m0 -> reckoned t cols sep mod 65536 <> 0 -> Z.of_nat g0 = estimate t cols sep maxWidth ->
  sexec anyhow m0 [mergeS m fuel c (map Some cols) (fun _ => true) (noting tag plain) maxWidth sep true] m1 [SRet r] seen -> stop r = Finished ->
  exists is g T, seen = asked tag is /\ Search c cols sep maxWidth m rows g0 g /\
    ((Worth m rows (S g) /\ T = S (g - g0)) \/ (~ Worth m rows (S g) /\ T = (g - g0)%nat)) /\
    forall i, times is i = if (i <? length rows)%nat then (length cols * T + 1)%nat else 0%nat.
Proof.
  intros HP Hm Hr Eg X Hs. assert (Hg : (1 <= g0)%nat) by (pose proof (estimate_pos t cols sep maxWidth); lia).
  destruct (asked_compact t cols plain rows tag m fuel c maxWidth sep g0 m0 m1 r seen HP Hm Hr Eg X) as [K|(tries & g & lines & HT & HL & -> & _)]; [congruence|].
  destruct (tries_count _ _ _ _ _ _ _ _ _ Hg HT) as (L & I1 & T & K1 & K2).
  apply layout_is in HL; [|lia]. subst lines. exists (tries ++ concat (layout_lines m g (seq 0 (length rows)))), g, T.
  split; [reflexivity|]. split; [eapply tries_search; eauto|]. split; auto.
  intros i. rewrite count_occ_app. destruct (Nat.ltb_spec i (length rows)).
  - rewrite K2, times_lines by (auto; lia). lia.
  - rewrite !(proj1 (count_occ_not_In _ _ _)); [lia| |].
    + intros K. apply lines_in in K; lia.
    + intros K. apply I1 in K. lia.
Qed.
End Count.

(** ** Plain merging of items that cannot be had *)
Section Failing.
Context {Item Val E : Type}.
Context {c : Condition} {cols : list (Column Item Val E)} {plain : FormattedItemList E} {n : nat} {tag : str}.
Hypothesis Hn : fiLen plain = Z.of_nat n.
Notation ocols := (map Some cols).
Notation items := (noting tag plain).
Notation fine := (Had plain (length cols)).

Lemma had_render g i k : (k < g)%nat -> fine i -> Run good (renderS c ocols items Recorded (Z.of_nat i) (Z.of_nat k)) (asked tag [i]).
Proof.
  intros Hk (row & Hi & HL). unfold renderS. rewrite <- (app_nil_r (asked tag [i])).
  eapply (run_then _ _ _ row); [constructor; constructor; exact Hi|].
  apply run_obind0; [|intros; apply run_ok]. apply (run_cells (c := c) (cols := cols) Recorded g row k (source_rec g) Hk cols 0); cbn [plus]; [exact HL|lia].
Qed.
Lemma run_panic {A B} (p : sprog (outcome E A)) (f : A -> sprog (outcome E B)) e l : Run (fun o => o = Panic e) p l -> Run (fun o => o = Panic e) (sobind p f) l.
Proof.
  intros R. rewrite <- (app_nil_r l). apply run_bind with (Q := fun o => o = Panic e); [exact R|]. intros o ->. constructor. reflexivity.
Qed.
Lemma had_groups g (p : nat -> nat) (P : Z -> Z) : (forall k, P (Z.of_nat k) = Z.of_nat (p k)) -> forall len s, (s + len <= g)%nat ->
  Forall fine (picks p (seq s len) (seq 0 n)) ->
  Run good (groupsS (Z.of_nat n) P (renderS c ocols items Recorded) (map Z.of_nat (seq s len))) (asked tag (picks p (seq s len) (seq 0 n))).
Proof.
  intros Hpos. induction len as [|len IH]; intros s Hs HF; cbn [seq map groupsS picks] in *; [apply run_ok|]. rewrite Hpos.
  destruct (Z.geb_spec (Z.of_nat (p s)) (Z.of_nat n)) as [L|L].
  - rewrite (proj2 (nth_error_None (seq 0 n) (p s))) by (rewrite seq_length; lia). apply run_ok.
  - rewrite seq_nth in * by lia. inversion HF; subst. change (asked tag (p s :: ?l)) with (asked tag [p s] ++ asked tag l).
    apply run_obind; [apply (had_render g); auto; lia|]. intros b. rewrite <- (app_nil_r (asked tag _)).
    apply run_obind; [apply IH; auto; lia|]. intros bs. apply run_ok.
Qed.
Lemma fail_groups g (p : nat -> nat) (P : Z -> Z) j e : (forall k, P (Z.of_nat k) = Z.of_nat (p k)) -> fiGet plain (Z.of_nat j) = Panic e ->
  forall len s pre post, (s + len <= g)%nat -> picks p (seq s len) (seq 0 n) = pre ++ j :: post -> Forall fine pre ->
  Run (fun o => o = Panic e) (groupsS (Z.of_nat n) P (renderS c ocols items Recorded) (map Z.of_nat (seq s len))) (asked tag (pre ++ [j])).
Proof.
  intros Hpos Hj. induction len as [|len IH]; intros s pre post Hs Hp HF; cbn [seq map groupsS picks] in *; [destruct pre; discriminate|]. rewrite Hpos.
  destruct (Z.geb_spec (Z.of_nat (p s)) (Z.of_nat n)) as [L|L].
  - rewrite (proj2 (nth_error_None (seq 0 n) (p s))) in Hp by (rewrite seq_length; lia). destruct pre; discriminate.
  - rewrite seq_nth in Hp by lia. destruct pre as [|i pre]; cbn [app] in Hp; injection Hp as <- Hp.
    + apply run_panic. cbn [app]. unfold renderS. apply run_panic. constructor. constructor. exact Hj.
    + inversion HF; subst. change (asked tag ((p s :: pre) ++ [j])) with (asked tag [p s] ++ asked tag (pre ++ [j])).
      apply run_bind with (Q := good); [apply (had_render g); auto; lia|]. intros o [b ->]. apply run_panic. eapply IH; eauto. lia.
Qed.

Lemma fail_emit sep m g pre j e lines : (1 <= g)%nat -> Layout m g (seq 0 n) lines -> FirstPanic plain (length cols) (concat lines) pre j e ->
  exists before line after, lines = before ++ line :: after /\ In j line /\ (exists part, pre = concat before ++ part) /\
  Run (fun r => stop r = Panicked e /\ length (written r) = length before)
    (emitS c ocols items sep (fun _ => true) (Z.of_nat g) Recorded (zpos m (Z.of_nat g))) (asked tag (pre ++ [j])).
Proof.
  intros Hg HL (post & Hc & HF & Hj). apply layout_is in HL; [|auto]. subst lines. unfold emitS.
  change (siLen items) with (fiLen plain). rewrite Hn, lineCountOf_nat by auto. unfold layout_lines in *. rewrite seq_length in *.
  set (L := lineCount n g) in *. rewrite !zrange_nat.
  assert (K : forall len s pre, concat (map (fun l => picks (pos m g L l) (seq 0 g) (seq 0 n)) (seq s len)) = pre ++ j :: post -> Forall fine pre ->
    exists before line after, map (fun l => picks (pos m g L l) (seq 0 g) (seq 0 n)) (seq s len) = before ++ line :: after /\ In j line /\
    (exists part, pre = concat before ++ part) /\
    forall k acc, Run (fun r => stop r = Panicked e /\ length (written r) = (length acc + length before)%nat)
    (linesS (fun _ => true) (fun lineI =>
       sobind (groupsS (Z.of_nat n) (zpos m (Z.of_nat g) (Z.of_nat L) lineI) (renderS c ocols items Recorded) (map Z.of_nat (seq 0 g)))
         (fun blocks => SRet (Ok (GoBase.join sep blocks)))) (map Z.of_nat (seq s len)) k acc)
    (asked tag (pre ++ [j]))).
  { clear pre Hc HF. induction len as [|len IH]; intros s pre Hc HF; cbn [seq map linesS concat] in *; [destruct pre; discriminate|].
    assert (Hpos : forall k, zpos m (Z.of_nat g) (Z.of_nat L) (Z.of_nat s) (Z.of_nat k) = Z.of_nat (pos m g L s k)) by (intros; destruct m; cbn [zpos pos]; lia).
    assert (D : (exists more, picks (pos m g L s) (seq 0 g) (seq 0 n) = pre ++ j :: more) \/
      (exists pre', pre = picks (pos m g L s) (seq 0 g) (seq 0 n) ++ pre' /\
         concat (map (fun l => picks (pos m g L l) (seq 0 g) (seq 0 n)) (seq (S s) len)) = pre' ++ j :: post)).
    { destruct (app_eq_app _ _ _ _ Hc) as (l & [[K1 K2]|[K1 K2]]).
      - destruct l as [|x l]; cbn [app] in K2.
        + right. exists []. rewrite app_nil_r in *. auto.
        + injection K2 as <- K2. left. exists l. exact K1.
      - right. exists l. auto. }
    destruct D as [(more & D)|(pre' & -> & D)].
    - exists [], (picks (pos m g L s) (seq 0 g) (seq 0 n)), (map (fun l => picks (pos m g L l) (seq 0 g) (seq 0 n)) (seq (S s) len)).
      split; [reflexivity|]. split; [rewrite D; apply in_or_app; right; left; reflexivity|]. split; [exists pre; reflexivity|]. intros k acc.
      rewrite <- (app_nil_r (asked tag _)). apply run_bind with (Q := fun o => o = Panic e).
      + apply run_panic. eapply (fail_groups g (pos m g L s)); eauto.
      + intros o ->. constructor. cbn [stop written length]. split; [reflexivity|lia].
    - apply Forall_app in HF. destruct HF as [HF1 HF2].
      destruct (IH (S s) pre' D HF2) as (before & line & after & -> & Hin & (part & Hpart) & R).
      exists (picks (pos m g L s) (seq 0 g) (seq 0 n) :: before), line, after. split; [reflexivity|]. split; auto.
      split; [exists part; cbn [concat]; rewrite <- app_assoc; f_equal; exact Hpart|]. intros k acc.
      rewrite <- app_assoc. unfold asked. rewrite map_app. apply run_bind with (Q := good).
      + rewrite <- (app_nil_r (map _ (picks _ _ _))). apply run_obind; [|intros; apply run_ok].
        apply (had_groups g (pos m g L s)); auto.
      + intros o [txt ->]. eapply run_weaken; [|apply R]. intros r [K1 K2]. split; auto. rewrite K2, app_length. cbn [length]. lia. }
  destruct (K L 0%nat pre Hc HF) as (before & line & after & K1 & K2 & K3 & K4). exists before, line, after. split; auto. split; auto. split; auto. exact (K4 0%nat []).
Qed.
Lemma asked_failing (t : Table Item Val E) m fuel maxWidth sep g m0 m1 r seen lines pre j e :
  Columns (tSpec t) = ocols -> columnWidth t = Some m0 -> reckoned t cols sep mod 65536 <> 0 -> Z.of_nat g = estimate t cols sep maxWidth ->
  Layout m g (seq 0 n) lines -> FirstPanic plain (length cols) (concat lines) pre j e ->
  sexec anyhow m0 [mergeS m fuel c ocols (fun _ => true) items maxWidth sep false] m1 [SRet r] seen ->
  seen = asked tag (pre ++ [j]) /\ stop r = Panicked e /\
  exists before line after, lines = before ++ line :: after /\ In j line /\ (exists part, pre = concat before ++ part) /\ length (written r) = length before.
Proof.
  intros HC Hm Hr Eg HL HE X. destruct (exec_compared _ _ _ _ _ _ X) as (p & ep & K1 & K2). injection ep as <-.
  cbn [compared alone] in K1, K2. rewrite app_nil_r in K1.
  rewrite merge_is in K1, K2. rewrite compared_bind, (compared_still _ (still_groupCount maxWidth sep)) in K1.
  rewrite alone_bind in K2. rewrite (alone_still _ (still_groupCount maxWidth sep)) in K1, K2. cbn [fst snd app] in K1, K2.
  rewrite (estimate_is t cols m0 maxWidth sep g HC Hm Hr Eg) in K1, K2. cbn [after] in K1, K2.
  assert (Hg : (1 <= g)%nat) by (pose proof (estimate_pos t cols sep maxWidth); lia).
  destruct (fail_emit sep m g pre j e lines Hg HL HE) as (before & line & more & e1 & Hin & Hpart & RE).
  assert (F : forall A (Q : A -> Prop) p l, Run Q p l -> forall m, Q (snd (alone m p))).
  { induction 1; intros mm; cbn [alone snd]; auto. }
  specialize (F _ _ _ _ RE m0). rewrite <- K2 in F. destruct F as [F1 F2].
  split; [rewrite K1; exact (run_compared _ _ _ RE m0)|]. split; auto. exists before, line, more. auto.
Qed.
(** *** The compact search *)
Lemma flat_split {A} (h : A -> list nat) j post : forall xs pre, flat_map h xs = pre ++ j :: post ->
  exists x1 x x2 p q, xs = x1 ++ x :: x2 /\ h x = p ++ j :: q /\ pre = flat_map h x1 ++ p.
Proof.
  induction xs as [|x xs IH]; intros pre H; cbn [flat_map] in H; [destruct pre; discriminate|].
  assert (D : (exists q, h x = pre ++ j :: q) \/ (exists pre', pre = h x ++ pre' /\ flat_map h xs = pre' ++ j :: post)).
  { destruct (app_eq_app _ _ _ _ H) as (l & [[K1 K2]|[K1 K2]]).
    - destruct l as [|y l]; cbn [app] in K2.
      + right. exists []. rewrite app_nil_r in *. auto.
      + injection K2 as <- K2. left. exists l. exact K1.
    - right. exists l. auto. }
  destruct D as [(q & D)|(pre' & -> & D)].
  - exists [], x, xs, pre, q. auto.
  - destruct (IH _ D) as (x1 & y & x2 & p & q & -> & K1 & ->). exists (x :: x1), y, x2, p, q. split; [reflexivity|]. split; auto.
    cbn [flat_map]. rewrite app_assoc. reflexivity.
Qed.
Lemma fail_map {A B} (f : A -> sprog (outcome E B)) (h : A -> list (str * Z)) e l1 a l2 la :
  (forall x, In x l1 -> Run good (f x) (h x)) -> Run (fun o => o = Panic e) (f a) la ->
  Run (fun o => o = Panic e) (smap f (l1 ++ a :: l2)) (flat_map h l1 ++ la).
Proof.
  intros H1 Ha. induction l1 as [|x l1 IH]; cbn [app smap flat_map].
  - apply run_panic. exact Ha.
  - rewrite <- app_assoc. apply run_bind with (Q := good); [apply H1; left; auto|]. intros o [b ->].
    apply run_panic. apply IH. intros; apply H1; right; auto.
Qed.
Lemma had_maxCell (colI : nat) js mw : (colI < length cols)%nat -> Forall fine js ->
  Run good (maxCellS c items (Z.of_nat colI) (map Z.of_nat js) mw) (asked tag js).
Proof.
  intros Hc. revert mw. induction js as [|j js IH]; intros mw Hj; cbn [map maxCellS]; [apply run_ok|].
  inversion Hj as [|? ? (row & Er & HL) HF]; subst.
  change (asked tag (j :: js)) with (asked tag [j] ++ asked tag js). eapply (run_then _ _ _ row); [constructor; constructor; exact Er|].
  destruct (nth_error row colI) as [s|] eqn:Es; [|apply nth_error_None in Es; lia].
  apply (run_then _ _ _ s []); [constructor; apply index_nat; auto|]. apply IH. auto.
Qed.
Lemma fail_maxCell (colI : nat) pre j post e : (colI < length cols)%nat -> fiGet plain (Z.of_nat j) = Panic e -> Forall fine pre -> forall mw,
  Run (fun o => o = Panic e) (maxCellS c items (Z.of_nat colI) (map Z.of_nat (pre ++ j :: post)) mw) (asked tag (pre ++ [j])).
Proof.
  intros Hc He Hj. induction Hj as [|i pre (row & Er & HL) HF IH]; intros mw; cbn [app map maxCellS].
  - apply run_panic. constructor. constructor. exact He.
  - change (asked tag (i :: ?l)) with (asked tag [i] ++ asked tag l). eapply (run_then _ _ _ row); [constructor; constructor; exact Er|].
    destruct (nth_error row colI) as [s|] eqn:Es; [|apply nth_error_None in Es; lia].
    apply (run_then _ _ _ s []); [constructor; apply index_nat; auto|]. apply IH.
Qed.
Lemma seq_split_map g xs (x : nat) ys : seq 0 g = xs ++ x :: ys -> x = length xs /\ (x < g)%nat /\ xs = seq 0 (length xs).
Proof.
  intros H. assert (Hl : (length xs < g)%nat).
  { pose proof (f_equal (@length nat) H) as K. rewrite seq_length, app_length in K. cbn [length] in K. lia. }
  assert (e : seq 0 g = seq 0 (length xs) ++ seq (length xs) (g - length xs)).
  { rewrite <- seq_app. f_equal. lia. }
  rewrite e in H. assert (HH : seq 0 (length xs) = xs /\ seq (length xs) (g - length xs) = x :: ys).
  { assert (G : forall (a b c d : list nat), length a = length c -> a ++ b = c ++ d -> a = c /\ b = d).
    { clear. induction a as [|y a IH]; intros b [|z c] d K1 K2; try discriminate; auto. injection K1 as K1. injection K2 as <- K2.
      destruct (IH _ _ _ K1 K2) as [-> ->]. auto. }
    apply G; auto. apply seq_length. }
  destruct HH as [H1 H2]. destruct (g - length xs)%nat as [|d] eqn:Ed; [lia|]. cbn [seq] in H2. injection H2 as H2 _. split; [auto|]. split; [lia|auto].
Qed.
Lemma fail_widths m g idxs pre j e : (1 <= g)%nat -> (forall k, (k < g)%nat -> idxs (Z.of_nat k) = gidx m n g (Z.of_nat k)) ->
  FirstPanic plain (length cols) (pass (length cols) g (layout_lines m g (seq 0 n))) pre j e ->
  Run (fun o => o = Panic e) (widthsS c items (slen ocols) idxs (Z.of_nat g)) (asked tag (pre ++ [j])).
Proof.
  intros Hg Hidx (post & Hp & HF & Hj). unfold widthsS. apply run_panic. unfold slen. rewrite map_length, !zrange_nat.
  set (lines := layout_lines m g (seq 0 n)) in *.
  assert (inner : forall k nc, concat (repeat (group lines k) nc) = flat_map (fun _ => group lines k) (seq 0 nc)).
  { intros k nc. generalize 0%nat. induction nc as [|nc IH]; intros s; cbn; [reflexivity|]. f_equal. apply IH. }
  unfold pass in Hp. apply flat_split in Hp. destruct Hp as (k1 & k & k2 & p & q & Ek & Hk & ->).
  rewrite inner in Hk. apply flat_split in Hk. destruct Hk as (i1 & i & i2 & p' & q' & Ei & Hi & ->).
  destruct (seq_split_map _ _ _ _ Ek) as (_ & Hkg & Hk1). destruct (seq_split_map _ _ _ _ Ei) as (_ & Hic & Hi1).
  rewrite !Forall_app in HF. destruct HF as (F1 & F2 & F3).
  assert (Hin : forall kk, In kk k1 -> (kk < g)%nat).
  { intros kk Hkk. assert (In kk (seq 0 g)) by (rewrite Ek; apply in_or_app; auto). apply in_seq in H. lia. }
  assert (Hin2 : forall ii, In ii i1 -> (ii < length cols)%nat).
  { intros ii Hii. assert (In ii (seq 0 (length cols))) by (rewrite Ei; apply in_or_app; auto). apply in_seq in H. lia. }
  rewrite Ek, map_app. cbn [map].
  replace (asked tag ((flat_map (fun k0 => concat (repeat (group lines k0) (length cols))) k1 ++ flat_map (fun _ => group lines k) i1 ++ p') ++ [j]))
    with (flat_map (fun kz => asked tag (concat (repeat (group lines (Z.to_nat kz)) (length cols)))) (map Z.of_nat k1) ++
          (flat_map (fun _ => asked tag (group lines k)) (map Z.of_nat i1) ++ asked tag (p' ++ [j]))).
  - apply fail_map.
    + intros kz Hkz. apply in_map_iff in Hkz. destruct Hkz as (kk & <- & Hkk). rewrite Nat2Z.id, inner.
      assert (e1 : asked tag (flat_map (fun _ => group lines kk) (seq 0 (length cols))) = flat_map (fun _ => asked tag (group lines kk)) (map Z.of_nat (seq 0 (length cols)))).
      { unfold asked. rewrite !flat_map_concat_map, concat_map, !map_map. reflexivity. }
      rewrite e1. apply run_map. intros iz Hiz. apply in_map_iff in Hiz. destruct Hiz as (ii & <- & Hii). apply in_seq in Hii.
      rewrite Hidx, group_gidx by auto. apply had_maxCell; [lia|].
      rewrite Forall_forall in F1 |- *. intros y Hy. apply F1. apply in_flat_map. exists kk. split; auto. rewrite inner. apply in_flat_map.
      exists ii. split; [apply in_seq; lia|auto].
    + rewrite Ei, map_app. cbn [map]. apply fail_map.
      * intros iz Hiz. apply in_map_iff in Hiz. destruct Hiz as (ii & <- & Hii). rewrite Hidx, group_gidx by auto. apply had_maxCell; [auto|].
        rewrite Forall_forall in F2 |- *. intros y Hy. apply F2. apply in_flat_map. exists ii. auto.
      * rewrite Hidx, group_gidx by auto. fold lines. rewrite Hi. apply fail_maxCell; auto.
  - unfold asked. rewrite !map_app, <- !app_assoc, !flat_map_concat_map, !concat_map, !map_map.
    f_equal. f_equal. apply map_ext. intros kk. rewrite Nat2Z.id. reflexivity.
Qed.
Lemma worth_full m g lines : (1 <= g)%nat -> Layout m g (seq 0 n) lines ->
  worth_b m n g = true <-> m = H \/ exists line, In line lines /\ length line = g.
Proof.
  intros Hg HL. apply layout_is in HL; auto. subst lines. destruct m; cbn [worth_b]; [tauto|]. set (L := lineCount n g).
  unfold layout_lines. rewrite seq_length. fold L. split.
  - intros Hw. right. apply Nat.ltb_lt in Hw. exists (picks (pos V g L 0) (seq 0 g) (seq 0 n)). split.
    + apply in_map_iff. exists 0%nat. split; auto. apply in_seq. destruct (Nat.eq_dec n 0); [lia|]. pose proof (lineCount_pos n g ltac:(lia)). unfold L. lia.
    + apply Nat.le_antisymm.
      * destruct (Nat.le_gt_cases (length (picks (pos V g L 0) (seq 0 g) (seq 0 n))) g) as [|Hlt]; auto.
        destruct (nth_error (picks (pos V g L 0) (seq 0 g) (seq 0 n)) g) as [x|] eqn:Ex; [|apply nth_error_None in Ex; lia].
        rewrite picks_nth in Ex by apply pos_mono. destruct (Nat.ltb_spec g g); [lia|discriminate].
      * destruct (nth_error (picks (pos V g L 0) (seq 0 g) (seq 0 n)) (g - 1)) as [x|] eqn:Ex.
        -- assert (g - 1 < length (picks (pos V g L 0) (seq 0 g) (seq 0 n)))%nat by (apply nth_error_Some; congruence). lia.
        -- rewrite picks_nth in Ex by apply pos_mono. destruct (Nat.ltb_spec (g - 1) g); [|lia]. cbn [plus] in Ex.
           rewrite seq_nth in Ex; [discriminate|]. cbn [pos]. lia.
  - intros [|(line & Hl & Hlen)]; [discriminate|]. apply in_map_iff in Hl. destruct Hl as (l & <- & _). apply Nat.ltb_lt.
    destruct (nth_error (picks (pos V g L l) (seq 0 g) (seq 0 n)) (g - 1)) as [x|] eqn:Ex; [|apply nth_error_None in Ex; lia].
    rewrite picks_nth in Ex by apply pos_mono. destruct (Nat.ltb_spec (g - 1) g); [|lia]. cbn [plus] in Ex.
    assert (Hlt : (pos V g L l (g - 1) < length (seq 0 n))%nat) by (apply nth_error_Some; congruence). rewrite seq_length in Hlt. cbn [pos] in Hlt. lia.
Qed.
Lemma vworth g : (2 <= g)%nat -> (Z.of_nat (lineCount n g) =? 0) = false /\
  (Z.of_nat g >? Z.quot (Z.of_nat n - 1) (Z.of_nat (lineCount n g)) + 1) = negb (worth_b V n g).
Proof.
  intros Hg. set (L := lineCount n g).
  assert (HL : (1 <= L)%nat).
  { unfold L, lineCount. destruct n as [|n']; [destruct (Nat.leb_spec 2 g); lia|]. generalize (n' / g)%nat. lia. }
  split; [destruct (Z.eqb_spec (Z.of_nat L) 0); lia|]. cbn [worth_b]. fold L. destruct n as [|n'] eqn:En.
  - assert (EL : L = 1%nat) by (unfold L, lineCount; destruct (Nat.leb_spec 2 g); lia). rewrite EL.
    change (Z.quot (Z.of_nat 0 - 1) (Z.of_nat 1)) with (-1). destruct (Nat.ltb_spec ((g - 1) * 1) 0); [lia|]. cbn. lia.
  - replace (Z.of_nat (S n') - 1) with (Z.of_nat n') by lia. rewrite Z.quot_div_nonneg by lia.
    pose proof (Z.mul_div_le (Z.of_nat n') (Z.of_nat L) ltac:(lia)) as K1.
    pose proof (Z.mul_succ_div_gt (Z.of_nat n') (Z.of_nat L) ltac:(lia)) as K2.
    set (q := Z.of_nat n' / Z.of_nat L) in *. destruct (Nat.ltb_spec ((g - 1) * L) (S n')); cbn [negb].
    + apply not_true_iff_false. intros K. apply Z.gtb_lt in K. nia.
    + apply Z.gtb_lt. nia.
Qed.
Lemma fail_merged m g lines pre j e : (2 <= g)%nat -> Layout m g (seq 0 n) lines -> worth_b m n g = true ->
  FirstPanic plain (length cols) (pass (length cols) g lines) pre j e ->
  Run (fun o => o = Panic e) (mergedN (c := c) (cols := cols) (plain := plain) (tag := tag) m (Z.of_nat g)) (asked tag (pre ++ [j])).
Proof.
  intros Hg HL Hw HE. apply layout_is in HL; [|lia]. subst lines. destruct m; cbn [mergedN].
  - unfold mergedHS. apply run_panic. apply (fail_widths H); auto; [lia|]. intros k Hk. change (siLen items) with (fiLen plain). rewrite Hn. reflexivity.
  - unfold mergedVS. change (siLen items) with (fiLen plain). rewrite Hn, lineCountOf_nat by lia. destruct (vworth g Hg) as [-> ->]. rewrite Hw. cbn [negb].
    apply run_panic. apply (fail_widths V); auto. lia.
Qed.
Lemma asked_failing_search (t : Table Item Val E) m fuel maxWidth sep g m0 m1 r seen lines pre j e : (1 <= fuel)%nat ->
  Columns (tSpec t) = ocols -> columnWidth t = Some m0 -> reckoned t cols sep mod 65536 <> 0 -> Z.of_nat g = estimate t cols sep maxWidth ->
  Layout m (S g) (seq 0 n) lines -> (m = H \/ exists line, In line lines /\ length line = S g) ->
  FirstPanic plain (length cols) (pass (length cols) (S g) lines) pre j e ->
  sexec anyhow m0 [mergeS m fuel c ocols (fun _ => true) items maxWidth sep true] m1 [SRet r] seen ->
  seen = asked tag (pre ++ [j]) /\ r = {| written := []; stop := Panicked e |}.
Proof.
  intros Hf HC Hm Hr Eg HL Hw HE X. destruct (exec_compared _ _ _ _ _ _ X) as (p & ep & K1 & K2). injection ep as <-.
  cbn [compared alone] in K1, K2. rewrite app_nil_r in K1.
  rewrite merge_is in K1, K2. rewrite compared_bind, (compared_still _ (still_groupCount maxWidth sep)) in K1.
  rewrite alone_bind in K2. rewrite (alone_still _ (still_groupCount maxWidth sep)) in K1, K2. cbn [fst snd app] in K1, K2.
  rewrite (estimate_is t cols m0 maxWidth sep g HC Hm Hr Eg) in K1, K2. cbn [after] in K1, K2.
  assert (Hg : (1 <= g)%nat) by (pose proof (estimate_pos t cols sep maxWidth); lia).
  apply (worth_full m (S g) lines ltac:(lia) HL) in Hw.
  pose proof (fail_merged m (S g) lines pre j e ltac:(lia) HL Hw HE) as RM.
  destruct fuel as [|fuel]; [lia|]. cbn [calcS] in K1, K2.
  replace (Z.of_nat g + 0 + 1) with (Z.of_nat (S g)) in K1, K2 by lia.
  match type of K1 with _ = compared _ ?q => assert (RE : Run (fun r => r = {| written := []; stop := Panicked e |}) q (asked tag (pre ++ [j]))) end.
  { rewrite <- (app_nil_r (asked tag _)). apply run_bind with (Q := fun o => o = Some (Panic e)).
    - rewrite <- (app_nil_r (asked tag _)). apply run_bind with (Q := fun o => o = Panic e); [exact RM|]. intros o ->. constructor. reflexivity.
    - intros o ->. constructor. reflexivity. }
  assert (F : forall A (Q : A -> Prop) p l, Run Q p l -> forall m, Q (snd (alone m p))).
  { induction 1; intros mm; cbn [alone snd]; auto. }
  specialize (F _ _ _ _ RE m0). cbn beta in F. rewrite <- K2 in F.
  split; [rewrite K1; exact (run_compared _ _ _ RE m0)|exact F].
Qed.
End Failing.
