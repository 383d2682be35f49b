(** * CallsSteady: with objects without state these programs are the functions
    of Table.v and Merge.v. *)
From Coq Require Import ZifyBool ZifyNat.
From Verif Require Import GoBase CacheProofs Runewidth Width AlignSpec Table Merge TableContract MergeSpec MergeRender Calls CallsSpec CallsProofs.
Local Open Scope Z_scope.

Section Steady.
Context {Item Val E : Type}.
Notation Gt := (Getter Item Val E).
Notation Lt := (str -> Z -> str).
Notation act := (act Item Val E Gt Lt).
Notation kprog := (kprog Item Val E Gt Lt).
Notation res := (outcome Empty_set).
Context {n : Z} {get : Z -> res (list str)} {ok : nat -> bool} {err : E}.
Notation env := (@steady Item Val E n get ok err).
Notation items := (@steady_list E n get).
Notation written_by := (@written_by Item Val E).

Lemma written_app t1 t2 : written_by (t1 ++ t2) = written_by t1 ++ written_by t2.
Proof. unfold CallsSpec.written_by. apply flat_map_app. Qed.

(** ** Programs that write nothing *)
Definition Pure {R} (p : kprog R) (m : wmap) (x : R) : Prop :=
  forall k, exists tr, krun env p k m = (k, m, x, tr) /\ written_by tr = [].
Lemma pure_ret {R} (x : R) m : Pure (KRet x) m x.
Proof. intros k. exists []. auto. Qed.
Lemma pure_bind {A B} (p : kprog A) (f : A -> kprog B) m a b : Pure p m a -> Pure (f a) m b -> Pure (kbind p f) m b.
Proof.
  intros P1 P2 k. destruct (P1 k) as (t1 & e1 & W1), (P2 k) as (t2 & e2 & W2). exists (t1 ++ t2). rewrite krun_bind, e1, e2, written_app, W1, W2. auto.
Qed.
Definition Low {A} (p : kprog (res A)) (m : wmap) (X : outcome E A) : Prop := exists x, Pure p m x /\ lift x = X.
Lemma low_ret {A} (o : res A) m : Low (KRet o) m (lift o).
Proof. exists o. split; [apply pure_ret|auto]. Qed.
Lemma low_bind {A B} (p : kprog (res A)) (f : A -> kprog (res B)) m X F : Low p m X -> (forall a, X = Ok a -> Low (f a) m (F a)) -> Low (kobind p f) m (obind X F).
Proof.
  intros (x & P1 & <-) HF. destruct x as [a|[]|q]; cbn [lift obind] in *.
  - destruct (HF a eq_refl) as (y & P2 & <-). exists y. split; auto. unfold kobind. eapply pure_bind; [exact P1|exact P2].
  - exists (Panic q). split; auto. unfold kobind. eapply pure_bind; [exact P1|apply pure_ret].
Qed.
Lemma low_map {A B} (f : A -> kprog (res B)) (F : A -> outcome E B) m l : (forall a, Low (f a) m (F a)) -> Low (kmap f l) m (omap F l).
Proof.
  intros HF. induction l as [|a l IH]; cbn [kmap omap]; [exact (low_ret (Ok []) m)|]. apply low_bind; [apply HF|]. intros b _. apply low_bind; [exact IH|]. intros bs _.
  exact (low_ret (Ok _) m).
Qed.
Lemma low_index {A} (l : list A) i m : Low (KRet (index l i)) m (index l i).
Proof. pose proof (low_ret (index l i) m) as K. unfold index in *. destruct (at_index l i); exact K. Qed.
Lemma low_get i m : Low (kask (CGet i)) m (fiGet items i).
Proof. exists (get i). split; [|reflexivity]. intros k. eexists. split; [reflexivity|]. reflexivity. Qed.
Lemma low_len m : Low (kask CLen) m (Ok n).
Proof. exists (Ok n). split; [|reflexivity]. intros k. eexists. split; [reflexivity|]. reflexivity. Qed.
Lemma low_align al s w m : Low (kask (CAlign al s w)) m (Ok (al s w)).
Proof. exists (Ok (al s w)). split; [|reflexivity]. intros k. eexists. split; [reflexivity|]. reflexivity. Qed.
Lemma pure_look {R} name (f : Z -> kprog R) m x : Pure (f (m name)) m x -> Pure (KLook name f) m x.
Proof. intros P k. destruct (P k) as (t & e & W). exists (Looked name (m name) :: t). cbn [krun]. rewrite e. auto. Qed.
Lemma low_look {A} name (f : Z -> kprog (res A)) m X : Low (f (m name)) m X -> Low (KLook name f) m X.
Proof. intros (x & P & <-). exists x. split; [apply pure_look; auto|auto]. Qed.

(** ** table.go *)
Notation kcols := (map (option_map (@kcol_of Item Val E))).
Lemma same_map t m : columnWidth t = Some m -> t = set_width (Item := Item) (Val := Val) (E := E) t m.
Proof. destruct t as [sp cw]. cbn. intros ->. reflexivity. Qed.
Lemma steady_format c item : forall cols t m done k, columnWidth t = Some m ->
  exists m' r tr, krun env (formatK c (kcols cols) item done) k m = (k, m', r, tr) /\ formatItem_loop c t cols item done = (set_width t m', r).
Proof.
  induction cols as [|[col|] cols IH]; intros t m done k Hm; cbn [map option_map formatK formatItem_loop].
  - exists m, (Ok done), []. rewrite <- (same_map t m Hm). auto.
  - cbn [kcol_of kGetter kName]. destruct (colGetter col) as [g|]; [|exists m, (Panic NilDereference), []; rewrite <- (same_map t m Hm); auto].
    unfold kobind, kask. cbn [kbind krun steady]. destruct (getValue g item) as [v|e|p]; cbn [kbind krun steady].
    + destruct (getFormat g item v) as [s|e|p]; cbn [kbind krun].
      * unfold raise_width. rewrite Hm. cbn [wread]. set (m1 := if vwidth c s >? m (colName col) then wset m (colName col) (vwidth c s) else m).
        assert (HT : (if vwidth c s >? m (colName col) then (set_width t (wset m (colName col) (vwidth c s)), Ok tt) else (t, Ok tt) : Table Item Val E * outcome E unit) = (set_width t m1, Ok tt)).
        { unfold m1. destruct (_ >? _); [reflexivity|]. rewrite <- (same_map t m Hm). reflexivity. }
        rewrite HT. destruct (IH (set_width t m1) m1 (done ++ [s]) k eq_refl) as (m' & r & tr & e1 & e2). rewrite e1, e2. eexists _, _, _. split; [reflexivity|]. reflexivity.
      * eexists _, _, _. split; [reflexivity|]. rewrite <- (same_map t m Hm). reflexivity.
      * eexists _, _, _. split; [reflexivity|]. rewrite <- (same_map t m Hm). reflexivity.
    + eexists _, _, _. split; [reflexivity|]. rewrite <- (same_map t m Hm). reflexivity.
    + eexists _, _, _. split; [reflexivity|]. rewrite <- (same_map t m Hm). reflexivity.
  - eexists _, _, _. split; [reflexivity|]. rewrite <- (same_map t m Hm). reflexivity.
Qed.
Lemma steady_basic item sep m : forall cols i acc, Pure (basicK (kcols cols) item sep i acc) m (formatItemBasic_loop cols item sep i acc).
Proof.
  induction cols as [|[col|] cols IH]; intros i acc; cbn [map option_map basicK formatItemBasic_loop]; [apply pure_ret| |apply pure_ret].
  cbn [kcol_of kGetter kName]. destruct (colGetter col) as [g|]; [|apply pure_ret]. unfold kobind. apply pure_bind with (a := getValueString g (colName col) item).
  - intros k. eexists. split; [reflexivity|]. reflexivity.
  - destruct (getValueString g (colName col) item); cbn [obind]; [apply IH|apply pure_ret|apply pure_ret].
Qed.
Lemma steady_align t m : columnWidth t = Some m -> forall cols done todo, Pure (alignK (kcols cols) done todo) m (alignFormatted_loop t cols done todo).
Proof.
  intros Hm. induction cols as [|[col|] cols IH]; intros done [|s todo]; cbn [map option_map alignK alignFormatted_loop]; try apply pure_ret.
  cbn [kcol_of kAlign kName]. destruct (colAlignment col) as [al|]; [|apply IH]. apply pure_look. intros k.
  unfold Width. rewrite Hm. cbn [wread]. destruct (IH (done ++ [al s (m (colName col))]) todo k) as (tr & e & W). cbn [krun steady]. rewrite e. eexists. split; [reflexivity|]. exact W.
Qed.

(** ** horizontal.go, vertical.go *)
Section Merging.
Context {c : Condition} {t : Table Item Val E} {m : wmap}.
Hypothesis Hm : columnWidth t = Some m.
Notation cols := (Columns (tSpec t)).
Lemma slen_kcols : slen (kcols cols) = ColumnCount (tSpec t).
Proof. unfold ColumnCount, slen. rewrite map_length. reflexivity. Qed.
Lemma width_is name : Width t name = m name.
Proof. unfold Width. rewrite Hm. reflexivity. Qed.
Lemma low_tableWidth : forall cs a, Low (tableWidthK (kcols cs) a) m (tableWidth_loop t cs a).
Proof.
  induction cs as [|[col|] cs IH]; intros a; cbn [map option_map tableWidthK tableWidth_loop].
  - exact (low_ret (Ok a) m).
  - apply low_look. cbn [kcol_of kName]. rewrite width_is. apply IH.
  - exact (low_ret (Panic NilDereference) m).
Qed.
Lemma low_groupCount maxWidth sep : Low (groupCountK (kcols cols) maxWidth sep) m (initialGroupCount t maxWidth sep).
Proof.
  unfold groupCountK, initialGroupCount, TableWidth. rewrite slen_kcols. apply low_bind; [apply low_tableWidth|]. intros tw _.
  destruct (_ =? 0); [exact (low_ret (Panic DivideByZero) m)|]. exact (low_ret (Ok _) m).
Qed.
Definition gw (found : option (list Z)) : Z -> Z -> outcome E Z :=
  match found with None => getWidth_default t | Some cw => getWidth_compact (ColumnCount (tSpec t)) cw end.
Lemma index_map {A B X} (f : A -> B) (l : list A) i : index (E := X) (map f l) i = match index (E := X) l i with Ok a => Ok (f a) | Err e => Err e | Panic p => Panic p end.
Proof. unfold index, at_index. destruct (i <? 0); [reflexivity|]. rewrite MergeLayout.nth_map. destruct (nth_error l (Z.to_nat i)); reflexivity. Qed.
Lemma low_width found i k : Low (getWidthK found (kcols cols) i k) m (gw found i k).
Proof.
  destruct found as [cw|]; cbn [getWidthK gw].
  - rewrite slen_kcols. unfold getWidth_compact. apply low_index.
  - unfold getWidth_default. rewrite index_map. pose proof (low_index cols i m) as K. unfold index in *. destruct (at_index cols i) as [mc|].
    + clear K. destruct mc as [col|]; cbn [option_map obind].
      * pose proof (low_look (colName col) (fun w => KRet (Ok w)) m (Ok (m (colName col))) (low_ret (Ok _) m)) as K. rewrite Hm. exact K.
      * exact (low_ret (Panic NilDereference) m).
    + exact (low_ret (Panic IndexOutOfRange) m).
Qed.
Lemma low_cells found item k : forall cs i, Low (cellsK c found (kcols cols) (kcols cs) item i k) m (cells_loop c (gw found) cs item i k).
Proof.
  induction cs as [|[col|] cs IH]; intros i; cbn [map option_map cellsK cells_loop].
  - exact (low_ret (Ok []) m).
  - apply low_bind; [apply low_index|]. intros s _. apply low_bind; [apply low_width|]. intros w _.
    cbn [kcol_of kAlign]. set (al := match colAlignment col with Some f => f | None => AlignmentLeft c end).
    assert (K : Low (match colAlignment col with Some al => kask (CAlign al s w) | None => KRet (Ok (AlignmentLeft c s w)) end) m (Ok (al s w))).
    { unfold al. destruct (colAlignment col); [apply low_align|exact (low_ret (Ok _) m)]. }
    apply (low_bind _ _ m (Ok (al s w)) (fun x => obind (cells_loop c (gw found) cs item (i + 1) k) (fun cells => Ok (x :: cells))) K).
    intros x _. apply low_bind; [apply IH|]. intros cells _. exact (low_ret (Ok _) m).
  - exact (low_ret (Panic NilDereference) m).
Qed.
Lemma low_render found i k : Low (renderK c (kcols cols) found i k) m (renderItem c t items (gw found) i k).
Proof. apply low_bind; [apply low_get|]. intros item _. apply low_bind; [apply low_cells|]. intros cells _. exact (low_ret (Ok _) m). Qed.
Lemma low_groups found P : forall gs, Low (groupsK n P (renderK c (kcols cols) found) gs) m (groups_loop n P (renderItem c t items (gw found)) gs).
Proof.
  induction gs as [|k gs IH]; cbn [groupsK groups_loop]; [exact (low_ret (Ok []) m)|]. destruct (_ >=? n); [exact (low_ret (Ok [[]]) m)|].
  apply low_bind; [apply low_render|]. intros b _. apply low_bind; [exact IH|]. intros bs _. exact (low_ret (Ok _) m).
Qed.
Lemma steady_lines (lineK : Z -> kprog (res str)) (line : Z -> outcome E str) : (forall l, Low (lineK l) m (line l)) -> forall ls k acc,
  exists k' r tr, krun env (linesK lineK ls) k m = (k', m, r, tr) /\
    lines_loop ok line ls k acc = {| written := acc ++ written_by tr; stop := stop_of (Some r) |}.
Proof.
  intros HL. induction ls as [|l ls IH]; intros k acc; cbn [linesK lines_loop].
  - exists k, (Ok tt), []. cbn. rewrite app_nil_r. auto.
  - destruct (HL l) as (x & P & <-). destruct (P k) as (t1 & e1 & W1). unfold kobind. rewrite krun_bind, e1.
    destruct x as [txt|[]|q]; cbn [lift krun steady].
    + destruct (ok k).
      * destruct (IH (S k) (acc ++ [txt ++ [x0a]])) as (k' & r & t2 & e2 & e3). rewrite e2, e3. eexists _, _, _. split; [reflexivity|].
        rewrite written_app, W1. cbn [app CallsSpec.written_by flat_map]. rewrite <- app_assoc. reflexivity.
      * cbn [krun]. eexists _, _, _. split; [reflexivity|]. rewrite written_app, W1. cbn. rewrite app_nil_r. reflexivity.
    + eexists _, _, _. split; [reflexivity|]. rewrite app_nil_r, W1, app_nil_r. reflexivity.
Qed.
Lemma steady_emit md sep gc found k : exists k' r tr, krun env (emitK md c (kcols cols) sep gc found) k m = (k', m, r, tr) /\
  (k = 0%nat -> emitLines c t items sep ok gc (gw found) (zpos md gc) = {| written := written_by tr; stop := stop_of (Some r) |}).
Proof.
  unfold emitK, emitLines. change (fiLen items) with n.
  assert (KL : forall p : Z -> kprog (res unit), krun env (kobind (kask CLen) p) k m = let '(w, m', r, tr) := krun env (p n) k m in (w, m', r, Called CLen (Ok n) :: tr)) by reflexivity.
  destruct (steady_lines
     (fun lineI => kobind (groupsK n (place md gc (lineCountOf n gc) lineI) (renderK c (kcols cols) found) (zrange gc)) (fun blocks => KRet (Ok (GoBase.join sep blocks))))
     (fun lineI => obind (groups_loop n (zpos md gc (lineCountOf n gc) lineI) (renderItem c t items (gw found)) (zrange gc)) (fun blocks => Ok (GoBase.join sep blocks))))
    with (ls := zrange (lineCountOf n gc)) (k := k) (acc := @nil str) as (k' & r & tr & e1 & e2).
  { intros l. replace (zpos md gc (lineCountOf n gc) l) with (place md gc (lineCountOf n gc) l) by (destruct md; reflexivity).
    apply low_bind; [apply low_groups|]. intros bs _. exact (low_ret (Ok _) m). }
  rewrite KL. cbv beta zeta. rewrite e1. eexists _, _, _. split; [reflexivity|]. intros ->. exact e2.
Qed.
Lemma low_maxCell i : forall js mw, Low (maxCellK c i js mw) m (maxCell c items i js mw).
Proof.
  induction js as [|j js IH]; intros mw; cbn [maxCellK maxCell]; [exact (low_ret (Ok mw) m)|]. apply low_bind; [apply low_get|]. intros row _.
  apply low_bind; [apply low_index|]. intros s _. apply IH.
Qed.
Lemma low_widths idxs gc : Low (widthsK c (ColumnCount (tSpec t)) idxs gc) m (widthsOf c items (ColumnCount (tSpec t)) idxs gc).
Proof.
  apply low_bind; [|intros rows _; exact (low_ret (Ok _) m)]. apply low_map. intros k. apply low_map. intros i. apply low_maxCell.
Qed.
Definition mergedOf md gc : outcome E (option (list Z)) :=
  match md with H => obind (mergedRowsWidthH c t items gc) (fun l => Ok (Some l)) | V => mergedRowsWidthV c t items gc end.
Lemma low_merged md gc : Low (mergedK md c (ColumnCount (tSpec t)) gc) m (mergedOf md gc).
Proof.
  unfold mergedK, mergedOf. apply (low_bind _ _ m (Ok n) (fun _ => mergedOf md gc) (low_len m)). intros a e. injection e as <-. destruct md; cbn [mergedOf].
  - apply low_bind; [apply low_widths|]. intros l _. exact (low_ret (Ok _) m).
  - unfold mergedRowsWidthV. change (fiLen items) with n. cbv zeta. destruct (_ =? 0); [exact (low_ret (Panic DivideByZero) m)|].
    destruct (_ >? _); [exact (low_ret (Ok None) m)|]. apply low_bind; [apply low_widths|]. intros l _. exact (low_ret (Ok _) m).
Qed.
Definition calcOf md := match md with H => @compactCalcH_loop Item Val E | V => @compactCalcV_loop Item Val E end.
Lemma steady_calc md mw margin g0 : forall fuel extra cw, exists x,
  Pure (calcK fuel md c (ColumnCount (tSpec t)) mw margin g0 extra cw) m x /\ option_map lift x = calcOf md fuel c t items mw margin g0 extra cw.
Proof.
  induction fuel as [|fuel IH]; intros extra cw; cbn [calcK].
  - exists None. split; [apply pure_ret|]. destruct md; reflexivity.
  - destruct (low_merged md (g0 + extra + 1)) as (o & P & e).
    assert (ec : calcOf md (S fuel) c t items mw margin g0 extra cw =
      match mergedOf md (g0 + extra + 1) with
      | Panic p => Some (Panic p) | Err e => Some (Err e) | Ok None => Some (Ok (extra, cw))
      | Ok (Some new) => if totalWidthOf margin (g0 + extra + 1) (u16 (ColumnCount (tSpec t))) new >? mw then Some (Ok (extra, cw))
                         else calcOf md fuel c t items mw margin g0 (extra + 1) new end).
    { destruct md; cbn [calcOf mergedOf compactCalcH_loop compactCalcV_loop]; [destruct (mergedRowsWidthH _ _ _ _); reflexivity|reflexivity]. }
    rewrite ec, <- e. destruct o as [[new|]|[]|q]; cbn [lift].
    + destruct (_ >? _) eqn:Eg.
      * eexists. split; [eapply pure_bind; [exact P|]; cbv beta iota; rewrite Eg; apply pure_ret|reflexivity].
      * destruct (IH (extra + 1) new) as (x & P2 & e2). exists x. split; [eapply pure_bind; [exact P|]; cbv beta iota; rewrite Eg; exact P2|exact e2].
    + eexists. split; [eapply pure_bind; [exact P|]; apply pure_ret|reflexivity].
    + eexists. split; [eapply pure_bind; [exact P|]; apply pure_ret|reflexivity].
Qed.

Lemma steady_merge md fuel maxWidth sep compact k' m' r tr :
  krun env (mergeK md fuel c (kcols cols) maxWidth sep compact) 0%nat m = (k', m', r, tr) ->
  m' = m /\ merge md fuel c t ok items maxWidth sep compact = {| written := written_by tr; stop := stop_of r |}.
Proof.
  assert (HM : merge md fuel c t ok items maxWidth sep compact =
    match initialGroupCount t maxWidth sep with
    | Panic p => {| written := []; stop := Panicked p |} | Err e => {| written := []; stop := Failed e |}
    | Ok gc => if compact then
        match calcOf md fuel c t items (clampWidth maxWidth) (u16 (slen sep)) gc 0 [] with
        | None => {| written := []; stop := Running |} | Some (Panic p) => {| written := []; stop := Panicked p |} | Some (Err e) => {| written := []; stop := Failed e |}
        | Some (Ok (extra, cw)) => if extra >? 0 then emitLines c t items sep ok (gc + extra) (gw (Some cw)) (zpos md (gc + extra))
                                   else emitLines c t items sep ok gc (gw None) (zpos md gc)
        end
      else emitLines c t items sep ok gc (gw None) (zpos md gc) end).
  { destruct md; reflexivity. }
  rewrite HM. clear HM. unfold mergeK. destruct (low_groupCount maxWidth sep) as (o & P & <-). destruct (P 0%nat) as (t1 & e1 & W1). rewrite krun_bind, e1.
  destruct o as [gc|[]|q]; cbn [lift].
  - assert (KE : forall g found w2 m2 r2 t2, krun env (kbind (emitK md c (kcols cols) sep g found) (fun o => KRet (Some o))) 0%nat m = (w2, m2, r2, t2) ->
      m2 = m /\ emitLines c t items sep ok g (gw found) (zpos md g) = {| written := written_by t2; stop := stop_of r2 |}).
    { intros g found w2 m2 r2 t2 e. rewrite krun_bind in e. destruct (steady_emit md sep g found 0) as (k2 & x & t3 & e3 & e4). rewrite e3 in e. cbn [krun] in e.
      injection e as <- <- <- <-. rewrite app_nil_r. split; auto. }
    destruct compact.
    + rewrite slen_kcols, krun_bind. destruct (steady_calc md (clampWidth maxWidth) (u16 (slen sep)) gc fuel 0 []) as (x & P2 & <-). destruct (P2 0%nat) as (t2 & e2 & W2). rewrite e2.
      destruct x as [[[extra cw]|[]|q]|]; cbn [option_map lift].
      * destruct (krun env (kbind _ _) 0%nat m) as [[[w3 m3] r3] t3] eqn:K3. intros e. injection e as <- <- <- <-. rewrite !written_app, W1, W2. cbn [app].
        destruct (extra >? 0); exact (KE _ _ _ _ _ _ K3).
      * cbn [krun]. intros e. injection e as <- <- <- <-. rewrite !written_app, W1, W2. auto.
      * cbn [krun]. intros e. injection e as <- <- <- <-. rewrite !written_app, W1, W2. auto.
    + destruct (krun env (kbind _ _) 0%nat m) as [[[w3 m3] r3] t3] eqn:K3. intros e. injection e as <- <- <- <-. rewrite written_app, W1. exact (KE _ _ _ _ _ _ K3).
  - cbn [krun]. intros e. injection e as <- <- <- <-. rewrite written_app, W1. auto.
Qed.
End Merging.
End Steady.
