(** * CallsMerge: merging with lists, alignments and writers that keep state. *)
From Coq Require Import ZifyBool ZifyNat.
From Verif Require Import GoBase CacheProofs Runewidth Width AlignSpec WidthTheory Table Merge TableContract TableOpsProofs MergeSpec MergeLayout MergeRender MergeSearch
  MergeAsked MergeAskedProofs Calls CallsSpec CallsProofs.
Local Open Scope Z_scope.

Lemma kworth_spec m n g : (2 <= g)%nat -> KWorth m n g <-> worth_b m n g = true.
Proof.
  intros Hg. destruct m; cbn [KWorth worth_b]; [tauto|]. split.
  - intros Hw. destruct (Hw _ (layout_ok V g (seq 0 n) ltac:(lia))) as (line & Hin & Hlen).
    apply In_nth_error in Hin. destruct Hin as (l & Hl).
    pose proof (layout_get2 V g (seq 0 n) l (g - 1)) as HG. unfold get2 in HG. rewrite Hl in HG.
    destruct (nth_error line (g - 1)) as [row|] eqn:Er; [|apply nth_error_None in Er; lia].
    destruct (_ && _); [|discriminate]. cbn [pos] in HG. symmetry in HG. apply nth_some_lt in HG. rewrite seq_length in HG.
    apply Nat.ltb_lt. lia.
  - intros Hb. apply Nat.ltb_lt in Hb. intros lines HL. apply layout_is in HL; [|lia]. subst lines.
    assert (Hn : (1 <= n)%nat) by (exact (Nat.le_lt_trans _ _ _ (Nat.le_0_l _) Hb)). pose proof (lineCount_pos n g Hn) as HL1.
    destruct (nth_error (layout_lines V g (seq 0 n)) 0) as [line|] eqn:El.
    + exists line. split; [eapply nth_error_In; eauto|]. apply Nat.le_antisymm.
      * eapply layout_line_len. eapply nth_error_In; eauto.
      * pose proof (layout_get2 V g (seq 0 n) 0 (g - 1)) as HG. unfold get2 in HG. rewrite El, seq_length in HG.
        destruct (Nat.ltb_spec 0 (lineCount n g)); [|lia]. destruct (Nat.ltb_spec (g - 1) g); [|lia].
        cbn [andb pos] in HG. destruct (nth_error line (g - 1)) eqn:Ek; [apply nth_some_lt in Ek; lia|].
        symmetry in HG. apply nth_error_None in HG. rewrite seq_length in HG. lia.
    + apply nth_error_None in El. rewrite layout_len, seq_length in El. lia.
Qed.
Lemma quot_worth n g : (2 <= g)%nat ->
  (Z.of_nat g >? Z.quot (Z.of_nat n - 1) (Z.of_nat (lineCount n g)) + 1) = negb (worth_b V n g).
Proof.
  intros Hg. set (L := lineCount n g). cbn [worth_b]. fold L.
  assert (HL : (1 <= L)%nat).
  { unfold L, lineCount. destruct n; [destruct (Nat.leb_spec 2 g); lia|]. generalize (n / g)%nat. lia. }
  destruct n as [|n].
  - assert (EL : L = 1%nat) by (unfold L; unfold lineCount; destruct (Nat.leb_spec 2 g); lia). rewrite EL.
    change (Z.quot (Z.of_nat 0 - 1) (Z.of_nat 1)) with (-1).
    destruct (Nat.ltb_spec ((g - 1) * 1) 0); [lia|]. cbn. lia.
  - replace (Z.of_nat (S n) - 1) with (Z.of_nat n) by lia. rewrite Z.quot_div_nonneg by lia.
    pose proof (Z.mul_div_le (Z.of_nat n) (Z.of_nat L) ltac:(lia)) as K1.
    pose proof (Z.mul_succ_div_gt (Z.of_nat n) (Z.of_nat L) ltac:(lia)) as K2.
    set (q := Z.of_nat n / Z.of_nat L) in *. destruct (Nat.ltb_spec ((g - 1) * L) (S n)); cbn [negb].
    + apply not_true_iff_false. intros K. apply Z.gtb_lt in K. nia.
    + apply Z.gtb_lt. nia.
Qed.

Section Merging.
Context {Item Val E G L : Type}.
Notation kcol := (kcol G L).
Notation act := (act Item Val E G L).
Notation kprog := (kprog Item Val E G L).
Notation environment := (environment Item Val E G L).
Notation res := (outcome Empty_set).
Notation Blame := (@Blame Item Val E G L).

Lemma can_obind {A B} (p : kprog (res A)) (f : A -> kprog (res B)) tr r : Can (kobind p f) tr r ->
  (exists t1 a t2, tr = t1 ++ t2 /\ Can p t1 (Ok a) /\ Can (f a) t2 r) \/ (exists q, Can p tr (Panic q) /\ r = Panic q).
Proof.
  intros C. apply can_bind in C. destruct C as (t1 & [a|[]|q] & t2 & -> & C1 & C2).
  - left. eauto 6.
  - right. destruct C2 as [-> ->]. rewrite app_nil_r. eauto.
Qed.
Lemma can_ok {A B} (p : kprog (res A)) (f : A -> kprog (res B)) tr b : Can (kobind p f) tr (Ok b) ->
  exists t1 a t2, tr = t1 ++ t2 /\ Can p t1 (Ok a) /\ Can (f a) t2 (Ok b).
Proof. intros C. apply can_obind in C. destruct C as [C|(q & _ & C)]; [auto|discriminate]. Qed.
Lemma can_ret {A} (x : A) tr r : Can (KRet x : kprog A) tr r -> tr = [] /\ r = x.
Proof. auto. Qed.

(** ** Panics *)
Definition Faults (ncols : nat) {A} (pre : list act) (p : kprog (res A)) : Prop :=
  forall tr q, Can p tr (Panic q) -> Blame ncols (pre ++ tr) q.
Lemma blame_more n tr p more : Blame n tr p -> Blame n (more ++ tr) p.
Proof.
  intros [(t & a & s & w & ->)|[(t & ->)|[(t & i & ->)|[(t & s & ->)|[(-> & t & s & e & ->)|(-> & i & row & K & Kl)]]]]].
  - left. exists (more ++ t), a, s, w. rewrite app_assoc. reflexivity.
  - right. left. exists (more ++ t). rewrite app_assoc. reflexivity.
  - do 2 right. left. exists (more ++ t), i. rewrite app_assoc. reflexivity.
  - do 3 right. left. exists (more ++ t), s. rewrite app_assoc. reflexivity.
  - do 4 right. left. split; auto. exists (more ++ t), s, e. rewrite app_assoc. reflexivity.
  - do 5 right. split; auto. exists i, row. split; auto. apply in_or_app. auto.
Qed.
Lemma faults_more n {A} pre more (p : kprog (res A)) : Faults n pre p -> Faults n (more ++ pre) p.
Proof. intros F tr q C. rewrite <- app_assoc. apply blame_more. auto. Qed.
Lemma faults_bind n {A B} pre (p : kprog (res A)) (f : A -> kprog (res B)) :
  Faults n pre p -> (forall a t, Can p t (Ok a) -> Faults n (pre ++ t) (f a)) -> Faults n pre (kobind p f).
Proof.
  intros F1 F2 tr q C. apply can_obind in C. destruct C as [(t1 & a & t2 & -> & C1 & C2)|(q' & C & e)].
  - rewrite app_assoc. exact (F2 a t1 C1 t2 q C2).
  - injection e as ->. auto.
Qed.
Lemma faults_ok n {A} pre (a : A) : Faults n pre (KRet (Ok a)).
Proof. intros tr q [_ C]. discriminate. Qed.
Lemma faults_map n {A B} pre (f : A -> kprog (res B)) l : (forall a pre, In a l -> Faults n pre (f a)) -> Faults n pre (kmap f l).
Proof.
  revert pre. induction l as [|a l IH]; intros pre F; cbn [kmap]; [apply faults_ok|].
  apply faults_bind; [apply F; left; auto|]. intros b t _. apply faults_bind; [apply IH; intros; apply F; right; auto|]. intros bs u _. apply faults_ok.
Qed.
Lemma faults_get n pre i : Faults n pre (kask (CGet i)).
Proof. intros tr q (a & t & -> & -> & <-). do 2 right. left. eauto. Qed.
Lemma faults_align n pre al s w : Faults n pre (kask (CAlign al s w)).
Proof. intros tr q (a & t & -> & -> & <-). left. eauto. Qed.
Lemma faults_index n {A} pre (l : list A) (i : nat) : (i < length l)%nat -> Faults n pre (KRet (index l (Z.of_nat i))).
Proof.
  intros Hi tr q [_ C]. destruct (nth_error l i) as [a|] eqn:K; [|apply nth_error_None in K; lia].
  rewrite (index_nat _ _ _ K) in C. discriminate.
Qed.
Lemma faults_cell n pre (item : list str) (i : nat) : (i < n)%nat -> (exists j, In (Called (CGet j) (Ok item)) pre) -> Faults n pre (KRet (index item (Z.of_nat i))).
Proof.
  intros Hi [j Hj] tr q [-> C]. destruct (nth_error item i) as [a|] eqn:K.
  - rewrite (index_nat _ _ _ K) in C. discriminate.
  - unfold index, at_index in C. destruct (_ <? 0); [|rewrite Nat2Z.id, K in C]; injection C as ->;
      (do 5 right; split; [reflexivity|]; exists j, item; rewrite app_nil_r; split; auto; apply nth_error_None in K; lia).
Qed.

Section Cols.
Context {c : Condition} {cols : list kcol}.
Notation ocols := (map Some cols).
Notation ncols := (length cols).

Definition FoundOk (found : option (list Z)) (g : nat) : Prop :=
  match found with None => True | Some cw => length cw = (g * ncols)%nat end.
Definition seg (cw : list Z) (k : nat) : list Z := firstn ncols (skipn (k * ncols) cw).
Definition found_width (found : option (list Z)) (k i : nat) (w : Z) : Prop :=
  match found with None => True | Some cw => nth_error (seg cw k) i = Some w end.
Definition recorded_of (found : option (list Z)) : bool := match found with None => true | Some _ => false end.

Lemma width_can found g i k col : FoundOk found g -> (k < g)%nat -> nth_error cols i = Some col -> forall tr o,
  Can (getWidthK found ocols (Z.of_nat i) (Z.of_nat k) : kprog _) tr o ->
  exists w, o = Ok w /\ tr = (if recorded_of found then [Looked (kName col) w] else []) /\ found_width found k i w.
Proof.
  intros HF Hk Hc tr o C. pose proof (nth_some_lt _ _ _ Hc) as Hi. destruct found as [cw|]; cbn [getWidthK recorded_of found_width] in *.
  - destruct C as [-> ->]. unfold getWidth_compact. cbn [FoundOk] in HF.
    unfold slen. rewrite map_length. replace (Z.of_nat k * Z.of_nat ncols + Z.of_nat i) with (Z.of_nat (k * ncols + i)) by lia.
    destruct (nth_error cw (k * ncols + i)) as [w|] eqn:K; [|apply nth_error_None in K; exfalso; nia].
    rewrite (index_nat _ _ _ K). exists w. split; auto. split; auto. unfold seg. rewrite nth_firstn, nth_skipn, K.
    destruct (Nat.ltb_spec i ncols); [reflexivity|lia].
  - rewrite (index_nat _ i (Some col)) in C by (rewrite nth_map, Hc; reflexivity). cbn in C.
    destruct C as (w & t & -> & -> & ->). eauto.
Qed.

Lemma cells_can found g k item : FoundOk found g -> (k < g)%nat -> forall cs (i : nat), skipn i cols = cs -> forall tr outs,
  Can (cellsK c found ocols (map Some cs) item (Z.of_nat i) (Z.of_nat k) : kprog _) tr (Ok outs) ->
  exists cells more, map kcCol cells = cs /\ skipn i item = map kcText cells ++ more /\ Forall (cell_ok c) cells /\
    tr = flat_map (cell_acts (recorded_of found)) cells /\ outs = map kcOut cells /\
    match found with None => True | Some cw => map kcWidth cells = skipn i (seg cw k) end.
Proof.
  intros HF Hk. induction cs as [|col cs IH]; intros i Hs tr outs C; cbn [map cellsK] in C.
  - destruct C as [-> e]. injection e as ->. exists [], (skipn i item). repeat (split; [auto; constructor|]).
    destruct found as [cw|]; auto. symmetry. apply skipn_all2. unfold seg. rewrite firstn_length.
    pose proof (skipn_length i cols) as K. rewrite Hs in K. cbn in K. lia.
  - assert (Hc : nth_error cols i = Some col) by (pose proof (nth_skipn i cols 0) as K; rewrite Hs, Nat.add_0_r in K; symmetry; exact K).
    assert (Hs' : skipn (S i) cols = cs).
    { apply nth_ext. intros j. pose proof (nth_skipn i cols (S j)) as K. rewrite Hs in K. cbn [nth_error] in K. rewrite K, nth_skipn. f_equal. lia. }
    apply can_ok in C. destruct C as (t1 & s & t2 & -> & [-> e] & C).
    destruct (nth_error item i) as [s'|] eqn:Es; [|exfalso; unfold index, at_index in e; destruct (_ <? 0); [discriminate|]; rewrite Nat2Z.id, Es in e; discriminate].
    rewrite (index_nat _ _ _ Es) in e. injection e as ->.
    apply can_ok in C. destruct C as (t1 & w & t3 & -> & C1 & C). destruct (width_can _ _ _ _ _ HF Hk Hc _ _ C1) as (w' & e & -> & Hw). injection e as <-.
    apply can_ok in C. destruct C as (t1 & cell & t4 & -> & C1' & C).
    apply can_ok in C. destruct C as (t5 & cells & t6 & -> & C2 & [-> e]). injection e as ->.
    replace (Z.of_nat i + 1) with (Z.of_nat (S i)) in C2 by lia. destruct (IH (S i) Hs' _ _ C2) as (done & more & <- & Hm & HFo & -> & -> & HW).
    exists ({| kcCol := col; kcText := s'; kcWidth := w; kcOut := cell |} :: done), more. split; [reflexivity|].
    assert (Hsk : skipn i item = s' :: skipn (S i) item).
    { apply nth_ext. intros [|j]; rewrite nth_skipn; [rewrite Nat.add_0_r; exact Es|]. cbn [nth_error]. rewrite nth_skipn. f_equal. lia. }
    split; [rewrite Hsk, Hm; reflexivity|].
    assert (Hcell : t1 = match kAlign col with Some al => [Called (CAlign al s' w) (Ok cell)] | None => [] end /\ (kAlign col = None -> cell = AlignmentLeft c s' w)).
    { destruct (kAlign col) as [al|]; [destruct C1' as (a & t & -> & -> & <-); split; [reflexivity|discriminate]|destruct C1' as [-> e]; injection e as ->; auto]. }
    destruct Hcell as [-> Ho]. split; [constructor; auto|]. split.
    + cbn [flat_map]. unfold cell_acts at 2. cbn [kcCol kcText kcWidth kcOut]. rewrite app_nil_r, <- !app_assoc. reflexivity.
    + split; [reflexivity|]. destruct found as [cw|]; auto. cbn [found_width] in Hw. cbn [map kcWidth]. rewrite HW.
      symmetry. apply nth_ext. intros [|j]; rewrite nth_skipn; [rewrite Nat.add_0_r; exact Hw|]. cbn [nth_error]. rewrite nth_skipn. f_equal. lia.
Qed.
Lemma cells_faults found g k item pre : FoundOk found g -> (k < g)%nat -> (exists j, In (Called (CGet j) (Ok item)) pre) -> forall cs (i : nat), skipn i cols = cs ->
  Faults ncols pre (cellsK c found ocols (map Some cs) item (Z.of_nat i) (Z.of_nat k)).
Proof.
  intros HF Hk HI cs. revert pre HI. induction cs as [|col cs IH]; intros pre HI i Hs; cbn [map cellsK]; [apply faults_ok|].
  assert (Hc : nth_error cols i = Some col) by (pose proof (nth_skipn i cols 0) as K; rewrite Hs, Nat.add_0_r in K; symmetry; exact K).
  assert (Hs' : skipn (S i) cols = cs).
  { apply nth_ext. intros j. pose proof (nth_skipn i cols (S j)) as K. rewrite Hs in K. cbn [nth_error] in K. rewrite K, nth_skipn. f_equal. lia. }
  assert (HI' : forall t, exists j, In (Called (CGet j) (Ok item)) (pre ++ t)) by (intros t; destruct HI as [j Hj]; exists j; apply in_or_app; auto).
  apply faults_bind; [apply faults_cell; auto; eapply nth_some_lt; eauto|]. intros s t _.
  apply faults_bind; [intros tr q C; destruct (width_can _ _ _ _ _ HF Hk Hc _ _ C) as (w & e & _); discriminate|]. intros w t' _. 
  apply faults_bind; [destruct (kAlign col); [apply faults_align|apply faults_ok]|]. intros cell t'' _. rewrite <- !app_assoc.
  apply faults_bind; [|intros; apply faults_ok]. replace (Z.of_nat i + 1) with (Z.of_nat (S i)) by lia. apply IH; auto.
Qed.

Lemma render_can found g i k : FoundOk found g -> (k < g)%nat -> forall tr out,
  Can (renderK c ocols found (Z.of_nat i) (Z.of_nat k) : kprog _) tr (Ok out) ->
  exists x, kiIndex x = i /\ item_ok c cols x /\ tr = item_acts (recorded_of found) x /\ out = TableContract.join [space] (map kcOut (kiCells x)) /\
    match found with None => True | Some cw => map kcWidth (kiCells x) = seg cw k end.
Proof.
  intros HF Hk tr out C. apply can_ok in C. destruct C as (t1 & item & t2 & -> & (a & t & -> & -> & <-) & C).
  apply can_ok in C. destruct C as (t1 & outs & t3 & -> & C & [-> e]). injection e as ->.
  destruct (cells_can _ _ _ _ HF Hk cols 0 eq_refl _ _ C) as (cells & more & Hc & Ht & HFo & -> & -> & HW). cbn [skipn] in Ht, HW.
  exists {| kiIndex := i; kiRow := item; kiCells := cells |}. split; [reflexivity|]. split; [split; [exact Hc|split; [exists more; exact Ht|exact HFo]]|].
  split; [unfold item_acts; cbn; rewrite app_nil_r; reflexivity|]. split; [reflexivity|]. destruct found; auto.
Qed.
Lemma render_faults found g i k pre : FoundOk found g -> (k < g)%nat -> Faults ncols pre (renderK c ocols found i (Z.of_nat k)).
Proof.
  intros HF Hk. apply faults_bind; [apply faults_get|]. intros item t C. apply faults_bind; [|intros; apply faults_ok].
  apply (cells_faults found g k item _ HF Hk) with (cs := cols) (i := 0%nat); [|reflexivity].
  destruct C as (a & t' & -> & -> & <-). exists i. apply in_or_app. right. left. reflexivity.
Qed.

Definition line_uses (found : option (list Z)) (s : nat) (line : list (@kitem G L)) : Prop :=
  match found with None => True | Some cw => forall j x, nth_error line j = Some x -> map kcWidth (kiCells x) = seg cw (s + j) end.
Lemma groups_can found g N (p : nat -> nat) (P : Z -> Z) : FoundOk found g -> (forall k, P (Z.of_nat k) = Z.of_nat (p k)) -> forall n s, (s + n <= g)%nat -> forall tr outs,
  Can (groupsK (Z.of_nat N) P (renderK c ocols found) (map Z.of_nat (seq s n)) : kprog _) tr (Ok outs) ->
  exists line, map kiIndex line = picks p (seq s n) (seq 0 N) /\ Forall (item_ok c cols) line /\
    tr = flat_map (item_acts (recorded_of found)) line /\ line_uses found s line /\
    outs = map (fun x => TableContract.join [space] (map kcOut (kiCells x))) line ++ (if (length line <? n)%nat then [[]] else []).
Proof.
  intros HF HP. induction n as [|n IH]; intros s Hs tr outs C; cbn [seq map groupsK picks] in *.
  - destruct C as [-> e]. injection e as ->. exists []. repeat (split; [auto; constructor|]). split; [destruct found; cbn; [intros [|j]; discriminate|auto]|reflexivity].
  - rewrite HP in C. destruct (Z.geb_spec (Z.of_nat (p s)) (Z.of_nat N)) as [Lt|Lt].
    + destruct C as [-> e]. injection e as ->. exists []. rewrite (proj2 (nth_error_None (seq 0 N) (p s))) by (rewrite seq_length; lia).
      repeat (split; [auto; constructor|]). split; [destruct found; cbn; [intros [|j]; discriminate|auto]|reflexivity].
    + rewrite seq_nth by lia. apply can_ok in C. destruct C as (t1 & b & t2 & -> & C1 & C).
      apply can_ok in C. destruct C as (t3 & bs & t4 & -> & C2 & [-> e]). injection e as ->.
      destruct (render_can _ _ _ s HF ltac:(lia) _ _ C1) as (x & Hx & Hok & -> & -> & HW).
      destruct (IH (S s) ltac:(lia) _ _ C2) as (line & Hl & HFo & -> & HU & ->).
      exists (x :: line). split; [cbn [map]; congruence|]. split; [constructor; auto|]. split; [cbn [flat_map]; rewrite app_nil_r; reflexivity|]. split; [|reflexivity].
      destruct found as [cw|]; auto. cbn [line_uses] in *. intros [|j] y Hy; cbn [nth_error] in Hy.
      * injection Hy as <-. rewrite Nat.add_0_r. exact HW.
      * rewrite (HU j y Hy). f_equal. lia.
Qed.
Lemma groups_faults found g N (P : Z -> Z) : FoundOk found g -> forall n s, (s + n <= g)%nat -> forall pre,
  Faults ncols pre (groupsK N P (renderK c ocols found) (map Z.of_nat (seq s n))).
Proof.
  intros HF. induction n as [|n IH]; intros s Hs pre; cbn [seq map groupsK]; [apply faults_ok|].
  destruct (_ >=? N); [apply faults_ok|]. apply faults_bind; [apply render_faults with (g := g); auto; lia|].
  intros b t _. apply faults_bind; [apply IH; lia|]. intros. apply faults_ok.
Qed.

Lemma lines_can found g N sep m : FoundOk found g -> (1 <= g)%nat -> forall n s tr,
  Can (linesK (fun lineI => kobind (groupsK (Z.of_nat N) (place m (Z.of_nat g) (Z.of_nat (lineCount N g)) lineI) (renderK c ocols found) (zrange (Z.of_nat g)))
             (fun blocks => KRet (Ok (GoBase.join sep blocks)))) (map Z.of_nat (seq s n)) : kprog _) tr (Ok tt) ->
  exists lines, map (map kiIndex) lines = map (fun l => picks (pos m g (lineCount N g) l) (seq 0 g) (seq 0 N)) (seq s n) /\
    Forall (Forall (item_ok c cols)) lines /\ tr = flat_map (kline_acts (recorded_of found) sep g) lines /\ Forall (line_uses found 0) lines.
Proof.
  intros HF Hg. induction n as [|n IH]; intros s tr C; cbn [seq map linesK] in *.
  - destruct C as [-> _]. exists []. repeat (split; [auto; constructor|]). constructor.
  - apply can_ok in C. destruct C as (t1 & txt & t2 & -> & C1 & (o & t3 & -> & C)).
    apply can_ok in C1. destruct C1 as (t4 & blocks & t5 & -> & C1 & [-> e]). injection e as ->. rewrite zrange_nat in C1.
    apply groups_can with (g := g) (p := pos m g (lineCount N g) s) in C1; [|auto|intros k; destruct m; cbn [place pos]; lia|lia].
    destruct C1 as (line & Hl & HFo & -> & HU & ->). destruct o as [[]|e|q]; [|destruct C; discriminate|destruct C; discriminate].
    destruct (IH (S s) _ C) as (lines & Hls & HFs & -> & HUs). exists (line :: lines). split; [cbn [map]; congruence|]. split; [constructor; auto|].
    split; [|constructor; auto]. cbn [flat_map]. unfold kline_acts at 2. rewrite app_nil_r, <- app_assoc. cbn [app].
    rewrite join_same. reflexivity.
Qed.
Lemma lines_faults found g N sep P : FoundOk found g -> forall ls pre,
  Faults ncols pre (linesK (fun lineI => kobind (groupsK N (P lineI) (renderK c ocols found) (zrange (Z.of_nat g)))
             (fun blocks => KRet (Ok (GoBase.join sep blocks)))) ls).
Proof.
  intros HF. induction ls as [|l ls IH]; intros pre; cbn [linesK]; [apply faults_ok|]. rewrite zrange_nat in *.
  apply faults_bind; [apply faults_bind; [apply groups_faults with (g := g); auto; lia|intros; apply faults_ok]|].
  intros txt t _ tr q (o & t' & -> & C). destruct o as [[]|e|p].
  - change (Called (CWrite (txt ++ [x0a])) (Ok tt) :: t') with ([Called (CWrite (txt ++ [x0a])) (Ok tt) : act] ++ t'). rewrite app_assoc. apply IH. exact C.
  - destruct C as [-> e']. injection e' as ->. do 4 right. left. split; auto. eauto.
  - destruct C as [-> e']. injection e' as ->. do 3 right. left. eauto.
Qed.

Lemma emit_can found g sep m : FoundOk found g -> (1 <= g)%nat -> forall tr,
  Can (emitK m c ocols sep (Z.of_nat g) found : kprog _) tr (Ok tt) -> Counts tr ->
  exists lines, Prints c cols sep m g (recorded_of found) lines tr /\
    match found with None => True | Some cw => UsesWidths (seg cw) lines end.
Proof.
  intros HF Hg tr C HC. apply can_ok in C. destruct C as (t1 & n & t2 & -> & (a & t & -> & -> & <-) & C).
  assert (Hn : 0 <= n) by (apply HC; left; reflexivity). rewrite <- (Z2Nat.id n Hn) in *. set (N := Z.to_nat n) in *. clearbody N.
  cbv zeta in C. rewrite lineCountOf_nat, (zrange_nat (lineCount N g)) in C by auto.
  apply lines_can in C; auto. destruct C as (lines & Hl & HFo & -> & HU). exists lines. split.
  - exists N. split; [|auto]. rewrite Hl. pose proof (layout_ok m g (seq 0 N) Hg) as K. unfold layout_lines in K. rewrite seq_length in K. exact K.
  - destruct found as [cw|]; auto. intros line k x Hin Hx. rewrite Forall_forall in HU. exact (HU line Hin k x Hx).
Qed.
Lemma emit_faults found g sep m pre : FoundOk found g -> Faults ncols pre (emitK m c ocols sep (Z.of_nat g) found).
Proof.
  intros HF. apply faults_bind; [intros tr q (a & t & -> & -> & <-); right; left; eauto|]. intros n t _. apply lines_faults. auto.
Qed.
End Cols.
End Merging.
