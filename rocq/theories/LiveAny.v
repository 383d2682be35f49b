(** * LiveAny: merging whatever happens to the columns and rows. *)
From Coq Require Import ZifyBool ZifyNat.
From Verif Require Import GoBase Runewidth Width Table Merge TableContract MergeSpec MergeLayout MergeRender MergeSearch Calls CallsSpec CallsProofs CallsMerge CallsSearch CallsResults Live LiveSpec LiveProofs LiveFormat LiveAlign LiveMerge.
Local Open Scope Z_scope.

Section Anything.
Context {Item Val E G L W : Type} (env : surroundings Item Val E G L W).
Notation lmem := (lmem G L).
Notation event := (event Item Val E G L).
Notation act := (act Item Val E G L).
Notation call := (call Item Val G L).
Notation lprog := (lprog Item Val E G L).
Notation res := (outcome Empty_set).

(** Nothing is stored, and what is asked satisfies [P]. *)
Definition fine (P : call -> Prop) (x : event) : Prop :=
  match eAct x with LCalled q _ => P q | LLooked _ _ => True | LRaised _ _ => False | LStored _ _ _ => False end.
Definition Tr {A} (P : call -> Prop) (R : A -> Prop) (p : lprog A) : Prop :=
  forall w m w' m' r tr, lrun env p w m = (w', m', r, tr) -> Forall (fine P) tr /\ R r.
Definition ok {X A} (R : A -> Prop) (o : outcome X A) : Prop := match o with Ok a => R a | _ => True end.
Lemma tr_ret {A} P (R : A -> Prop) a : R a -> Tr P R (LRet a).
Proof. intros HR w m w' m' r tr e. cbn in e. injection e as _ _ <- <-. auto. Qed.
Lemma tr_bind {A B} P (Q : A -> Prop) (R : B -> Prop) p f : Tr P Q p -> (forall a, Q a -> Tr P R (f a)) -> Tr P R (lbind p f).
Proof.
  intros T1 T2 w m w' m' r tr e. apply lrun_bind_inv in e. destruct e as (w1 & m1 & a & t1 & t2 & e1 & e2 & ->).
  destruct (T1 _ _ _ _ _ _ e1) as [F1 Qa]. destruct (T2 a Qa _ _ _ _ _ _ e2) as [F2 Rb]. split; [apply Forall_app; auto|auto].
Qed.
Lemma tr_obind {X A B} P (Q : A -> Prop) (R : B -> Prop) (p : lprog (outcome X A)) f : Tr P (ok Q) p -> (forall a, Q a -> Tr P (ok R) (f a)) -> Tr P (ok R) (lobind p f).
Proof. intros T1 T2. apply (tr_bind P (ok Q)); [exact T1|]. intros [a|e|q] Ha; [apply T2; exact Ha|apply tr_ret; exact Logic.I|apply tr_ret; exact Logic.I]. Qed.
Lemma tr_see {A} P (R : A -> Prop) k : (forall m, Tr P R (k m)) -> Tr P R (LSee k).
Proof. intros T w m w' m' r tr e. exact (T m w m w' m' r tr e). Qed.
Lemma tr_look {A} P (R : A -> Prop) name k : (forall v, Tr P R (k v)) -> Tr P R (LLook name k).
Proof.
  intros T w m w' m' r tr e. cbn [lrun] in e. destruct (lrun env (k _) w m) as [[[w2 m2] b] t2] eqn:K. injection e as <- <- <- <-.
  destruct (T _ _ _ _ _ _ _ K) as [F Rb]. split; [constructor; [exact Logic.I|exact F]|exact Rb].
Qed.
Lemma tr_ask {A} (P : call -> Prop) (R : A -> Prop) q k : P q -> (forall a, Tr P R (k a)) -> Tr P R (LAsk q k).
Proof.
  intros HP T w m w' m' r tr e. apply lrun_ask in e. destruct e as (w1 & m1 & a & t & _ & e & ->). destruct (T _ _ _ _ _ _ _ e) as [F Ra].
  split; [constructor; [exact HP|exact F]|exact Ra].
Qed.
Definition yes {A} (a : A) : Prop := True.
Lemma tr_field {X A} P (R : A -> Prop) p (f : kcol G L -> lprog (outcome X A)) : (forall col, Tr P (ok R) (f col)) -> Tr P (ok R) (lfield p f).
Proof. intros T. apply tr_see. intros m. destruct (deref m p); [apply T|apply tr_ret; exact Logic.I]. Qed.
Lemma tr_map {X A B} P (f : A -> lprog (outcome X B)) l : (forall a, In a l -> Tr P (ok yes) (f a)) -> Tr P (ok yes) (lmap f l).
Proof.
  induction l as [|a l IH]; intros HF; cbn [lmap]; [apply tr_ret; exact Logic.I|].
  apply (tr_obind P yes); [apply HF; left; reflexivity|]. intros b _. apply (tr_obind P yes); [apply IH; intros; apply HF; right; assumption|]. intros bs _. apply tr_ret. exact Logic.I.
Qed.

(** ** Printing *)
Section Print.
Variables (n : Z) (colN : nat) (sep : str).
Definition asks (q : call) : Prop :=
  match q with CGet i => 0 <= i < n | CWrite s => LineOf colN sep s | CAlign _ _ _ => True | _ => False end.
Lemma tr_width found j k : Tr asks (ok yes) (getWidthL colN found j k).
Proof.
  unfold getWidthL. destruct found as [cw|]; [apply tr_ret; destruct (getWidth_compact _ _ _ _); exact Logic.I|]. apply tr_see. intros m.
  destruct (negb _); [apply tr_ret; exact Logic.I|]. apply tr_field. intros col. apply tr_look. intros v. apply tr_ret. exact Logic.I.
Qed.
Lemma tr_cells c found h item k : forall js j done, js = seq j (length js) -> length done = j -> (j <= colN)%nat ->
  Tr asks (ok (fun l => length l = colN)) (cellsL c colN found h js item k done).
Proof.
  induction js as [|i js IH]; intros j done Hs Hd Hj; cbn [cellsL].
  - apply tr_ret. cbn. rewrite app_length, repeat_length. lia.
  - cbn [length seq] in Hs. injection Hs as -> Hs. apply tr_see. intros m. apply tr_field. intros col. destruct (negb (j <? hLen item)%nat); [apply tr_ret; exact Logic.I|].
    apply (tr_obind asks yes); [apply tr_width|]. intros v _. apply (tr_obind asks yes).
    { destruct (kAlign col); [apply tr_ask; [exact Logic.I|]; intros [s|[]|p]; apply tr_ret; exact Logic.I|apply tr_ret; exact Logic.I]. }
    intros s _. destruct (Nat.ltb_spec j colN); cbn [negb]; [|apply tr_ret; exact Logic.I]. apply (IH (S j)); [exact Hs|rewrite app_length; cbn; lia|lia].
Qed.
Lemma tr_render c found i k : 0 <= i < n -> Tr asks (ok (fun b => exists cells, length cells = colN /\ b = TableContract.join [space] cells)) (renderL c colN found i k).
Proof.
  intros Hi. apply (tr_obind asks yes); [apply tr_ask; [exact Hi|]; intros [r|[]|p]; apply tr_ret; exact Logic.I|]. intros r _. apply tr_see. intros m.
  apply (tr_obind asks (fun l => length l = colN)); [apply (tr_cells c found _ r k _ 0); [rewrite seq_length; reflexivity|reflexivity|lia]|].
  intros cells Hc. apply tr_ret. exists cells. auto.
Qed.
Definition Blocks (bs : list str) : Prop := exists (items : list (list str)) (last : bool), Forall (fun cells => length cells = colN) items /\
  bs = map (TableContract.join [space]) items ++ if last then [[]] else [].
Lemma tr_groups c found P gs : (forall k, In k gs -> 0 <= P k) -> Tr asks (ok Blocks) (groupsL n P (renderL c colN found) gs).
Proof.
  induction gs as [|k gs IH]; intros HP; cbn [groupsL]; [apply tr_ret; exists [], false; auto|].
  destruct (Z.geb_spec (P k) n); [apply tr_ret; exists [], true; auto|]. pose proof (HP k (or_introl eq_refl)).
  apply (tr_obind asks (fun b => exists cells, length cells = colN /\ b = TableContract.join [space] cells)); [apply tr_render; lia|]. intros b (cells & Hc & ->).
  apply (tr_obind asks Blocks); [apply IH; intros; apply HP; right; assumption|]. intros bs (items & last & HI & ->). apply tr_ret. exists (cells :: items), last. split; [constructor; auto|reflexivity].
Qed.
Lemma tr_lines (line : Z -> lprog (res str)) ls : (forall l, In l ls -> Tr asks (ok (fun s => exists bs, Blocks bs /\ s = TableContract.join sep bs)) (line l)) ->
  Tr asks (ok yes) (linesL line ls).
Proof.
  induction ls as [|l ls IH]; intros HL; cbn [linesL]; [apply tr_ret; exact Logic.I|].
  apply (tr_obind asks (fun s => exists bs, Blocks bs /\ s = TableContract.join sep bs)); [apply HL; left; reflexivity|]. intros s (bs & (items & last & HI & ->) & ->).
  apply tr_ask; [exists items, last; auto|]. intros [u|e|p]; [apply IH; intros; apply HL; right; assumption|apply tr_ret; exact Logic.I|apply tr_ret; exact Logic.I].
Qed.
Lemma tr_widths c cn idxs gc : (forall k i, 0 <= k < gc -> In i (idxs k) -> 0 <= i < n) -> Tr asks (ok yes) (widthsL c cn idxs gc).
Proof.
  intros Hidx. apply (tr_obind asks yes); [|intros; apply tr_ret; exact Logic.I]. apply tr_map. intros k Hk. apply zrange_in in Hk. apply tr_map. intros i _.
  assert (K : forall js mw, (forall j, In j js -> 0 <= j < n) -> Tr asks (ok yes) (maxCellL c i js mw)).
  { induction js as [|j js IH]; intros mw Hj; cbn [maxCellL]; [apply tr_ret; exact Logic.I|]. apply (tr_obind asks yes); [apply tr_ask; [apply Hj; left; reflexivity|]; intros [r|[]|p]; apply tr_ret; exact Logic.I|].
    intros row _. apply tr_see. intros m. apply (tr_obind asks yes); [apply tr_ret; destruct (index _ _); exact Logic.I|]. intros s _. apply IH. intros j' Hj'. apply Hj. right. exact Hj'. }
  apply K. intros j Hj. eapply Hidx; eauto.
Qed.
End Print.

(** ** The trace as a whole *)
Section Whole.
Variables (colN : nat) (sep : str).
Definition writes (q : call) : Prop := match q with CWrite s => LineOf colN sep s | _ => True end.
Definition Whole (tr : list event) : Prop := (forall k, AsksWithin k (acts tr)) /\ Forall (fine writes) tr.
Lemma whole_nil : Whole [].
Proof. split; [intros k; exact Logic.I|constructor]. Qed.
Lemma whole_app t1 t2 : Whole t1 -> Whole t2 -> Whole (t1 ++ t2).
Proof. intros [A1 F1] [A2 F2]. split; [intros k; rewrite acts_app; apply asks_app; auto|apply Forall_app; auto]. Qed.
Lemma fine_asks n tr : Forall (fine (asks n colN sep)) tr -> AsksWithin (Some n) (acts tr) /\ Forall (fine writes) tr.
Proof.
  intros F. split.
  - apply within_asks. intros q a Hin. unfold acts in Hin. apply in_flat_map in Hin. destruct Hin as (x & Hx & Hin). rewrite Forall_forall in F. specialize (F x Hx). unfold fine in F.
    unfold as_acts in Hin. destruct (eAct x) as [q' a'|name v|name v|b i s]; cbn in Hin; [|destruct Hin as [D|[]]; discriminate|destruct Hin as [D|[]]; discriminate|destruct Hin].
    destruct Hin as [D|[]].
    assert (K : forall y z : act, y = z -> match y with Called q _ => asks n colN sep q | _ => True end -> match z with Called q _ => asks n colN sep q | _ => True end) by (intros y z ->; auto).
    apply (K _ _ D) in F. destruct q; cbn in F |- *; auto.
  - eapply Forall_impl; [|exact F]. intros x. unfold fine. destruct (eAct x) as [q a|name v|name v|b i s]; auto. destruct q; cbn; auto.
Qed.
Lemma whole_len {A} (f : Z -> lprog (res A)) w m w' m' r tr : (forall n, Tr (asks n colN sep) (ok yes) (f n)) ->
  lrun env (lobind (lask CLen) f) w m = (w', m', r, tr) -> Whole tr.
Proof.
  intros T e. apply lrun_obind in e. destruct e as [(w1 & m1 & n & t1 & t2 & e1 & e2 & ->)|(o & e1 & Ho)].
  - apply lrun_ask in e1. destruct e1 as (w2 & m2 & a & t & e1 & e3 & ->). cbn in e3. injection e3 as -> -> -> <-. destruct (T n _ _ _ _ _ _ e2) as [F _].
    destruct (fine_asks n t2 F) as [A1 F1]. split; [intros k; exact A1|constructor; [exact Logic.I|exact F1]].
  - apply lrun_ask in e1. destruct e1 as (w2 & m2 & a & t & e1 & e3 & ->). cbn in e3. injection e3 as -> -> -> <-. destruct o as [n|[]|p]; [destruct Ho|].
    split; [intros k; exact Logic.I|constructor; [exact Logic.I|constructor]].
Qed.
Lemma whole_emit md c gc found w m w' m' r tr : 1 <= gc -> lrun env (emitL md c colN sep gc found) w m = (w', m', r, tr) -> Whole tr.
Proof.
  intros Hg. apply whole_len. intros n. apply tr_lines. intros l Hl. apply zrange_in in Hl.
  apply (tr_obind _ (Blocks colN)); [apply tr_groups|intros bs HB; apply tr_ret; exists bs; auto]. intros k Hk. apply zrange_in in Hk. destruct md; cbn [place]; nia.
Qed.
Lemma whole_merged md c gc w m w' m' r tr : 2 <= gc -> lrun env (mergedL md c gc) w m = (w', m', r, tr) -> Whole tr.
Proof.
  intros Hg. apply whole_len. intros n. apply tr_see. intros mem. cbv zeta. destruct md.
  - apply (tr_obind _ yes); [|intros; apply tr_ret; exact Logic.I]. apply tr_widths. intros k i Hk Hi. apply steps_in in Hi; [|lia]. destruct Hi as (q & Hq & -> & Hlt). nia.
  - destruct (_ =? 0); [apply tr_ret; exact Logic.I|]. destruct (_ >? _); [apply tr_ret; exact Logic.I|]. apply (tr_obind _ yes); [|intros; apply tr_ret; exact Logic.I]. apply tr_widths.
    intros k i Hk Hi. apply steps_in in Hi; [|lia]. destruct Hi as (q & Hq & -> & Hlt). set (L0 := lineCountOf n gc) in *.
    destruct (Z.gtb_spec ((k + 1) * L0) n); nia.
Qed.
Lemma whole_calc md c cn mw margin g0 : 1 <= g0 -> forall fuel extra cw w m w' m' r tr, 0 <= extra ->
  lrun env (calcL fuel md c cn mw margin g0 extra cw) w m = (w', m', r, tr) -> Whole tr /\ forall x l, r = Some (Ok (x, l)) -> 0 <= x.
Proof.
  intros Hg. induction fuel as [|fuel IH]; intros extra cw w m w' m' r tr He e; cbn [calcL] in e.
  - cbn in e. injection e as _ _ <- <-. split; [apply whole_nil|discriminate].
  - apply lrun_bind_inv in e. destruct e as (w1 & m1 & o & t1 & t2 & e1 & e2 & ->). apply whole_merged in e1; [|lia].
    assert (K : Whole t2 /\ forall x l, r = Some (Ok (x, l)) -> 0 <= x).
    { destruct o as [[cw'|]|[]|q].
      - revert e2. destruct (_ >? _); intros e2; [cbn in e2; injection e2 as _ _ <- <-; split; [apply whole_nil|intros x l D; injection D as <- <-; exact He]|]. apply IH in e2; [exact e2|lia].
      - cbn in e2. injection e2 as _ _ <- <-. split; [apply whole_nil|intros x l D; injection D as <- <-; exact He].
      - cbn in e2. injection e2 as _ _ <- <-. split; [apply whole_nil|discriminate]. }
    split; [apply whole_app; [exact e1|apply K]|apply K].
Qed.
Lemma tr_groupCount cols maxWidth : Tr (fun _ => False) (ok yes) (groupCountL cols maxWidth sep).
Proof.
  unfold groupCountL. apply (tr_obind _ yes); [|intros tw _; destruct (_ =? 0); apply tr_ret; exact Logic.I].
  generalize (u16 (u16 (u16 (slen cols) - 1) * u16 (slen sep))). induction cols as [|[col|] cols IH]; intros a; cbn [tableWidthL]; try (apply tr_ret; exact Logic.I).
  apply tr_look. intros v. apply IH.
Qed.
Lemma whole_looks tr : Forall (fine (fun _ => False)) tr -> Whole tr.
Proof.
  intros F. split.
  - intros k. induction F as [|x tr Hx F IH]; [exact Logic.I|]. change (acts (x :: tr)) with (as_acts x ++ acts tr). unfold fine in Hx. unfold as_acts. destruct (eAct x); try contradiction. exact IH.
  - eapply Forall_impl; [|exact F]. intros x. unfold fine. destruct (eAct x); auto. contradiction.
Qed.
End Whole.
(** Whatever is done to columns and rows, and however it ends. *)
Lemma merge_any md fuel c maxWidth sep compact w0 m0 w' m' r tr : lrun env (mergeL md fuel c maxWidth sep compact) w0 m0 = (w', m', r, tr) ->
  Whole (hLen (lSlice m0)) sep tr.
Proof.
  intros e. unfold mergeL in e. cbn [lrun] in e. apply lrun_bind_inv in e. destruct e as (w1 & m1 & o & t1 & t2 & e1 & e & ->).
  destruct (tr_groupCount sep _ _ _ _ _ _ _ _ e1) as [F1 _]. apply (whole_looks (hLen (lSlice m0)) sep) in F1. apply whole_app; [exact F1|].
  destruct o as [gc|[]|p]; [|cbn in e; injection e as _ _ _ <-; apply whole_nil]. pose proof (groupCount_pos env _ _ _ _ _ _ _ _ _ e1) as Hg. destruct compact.
  - cbn [lrun] in e. apply lrun_bind_inv in e. destruct e as (w2 & m2 & o & t3 & t4 & e2 & e & ->). apply (whole_calc (hLen (lSlice m0)) sep) in e2; [|lia|lia]. destruct e2 as [Wc Hx]. apply whole_app; [exact Wc|].
    destruct o as [[[extra cw]|[]|p]|]; try (cbn in e; injection e as _ _ _ <-; apply whole_nil). specialize (Hx extra cw eq_refl).
    apply lrun_bind_inv in e. destruct e as (w3 & m3 & o & t5 & t6 & e3 & e & ->). cbn in e. injection e as _ _ _ <-. rewrite app_nil_r.
    destruct (extra >? 0); eapply whole_emit in e3; eauto; lia.
  - apply lrun_bind_inv in e. destruct e as (w3 & m3 & o & t5 & t6 & e3 & e & ->). cbn in e. injection e as _ _ _ <-. rewrite app_nil_r. eapply whole_emit in e3; eauto.
Qed.

(** ** Plain merging that succeeds *)
Definition Ok_events {A} (Q : event -> Prop) (p : lprog (res A)) : Prop := forall w m w' m' a tr, lrun env p w m = (w', m', Ok a, tr) -> Forall Q tr.
Lemma oke_obind {A B} Q (p : lprog (res A)) (f : A -> lprog (res B)) : Ok_events Q p -> (forall a, Ok_events Q (f a)) -> Ok_events Q (lobind p f).
Proof.
  intros T1 T2 w m w' m' b tr e. apply lrun_obind_ok in e. destruct e as (w1 & m1 & a & t1 & t2 & e1 & e2 & ->). apply Forall_app. split; [exact (T1 _ _ _ _ _ _ e1)|exact (T2 a _ _ _ _ _ _ e2)].
Qed.
Definition unget (x : event) : Prop := forall i a, eAct x <> LCalled (CGet i) a.
Definition few (colN : nat) (x : event) : Prop := forall i a, eAct x = LCalled (CGet i) a -> (hLen (lSlice (eAfter x)) <= colN)%nat.
Lemma unget_few colN tr : Forall unget tr -> Forall (few colN) tr.
Proof. apply Forall_impl. intros x Hx i a D. destruct (Hx i a D). Qed.
Definition noget (q : call) : Prop := match q with CGet _ => False | _ => True end.
Lemma noget_unget tr : Forall (fine noget) tr -> Forall unget tr.
Proof. apply Forall_impl. intros x Hx i a D. unfold fine in Hx. rewrite D in Hx. exact Hx. Qed.
Lemma noget_width colN found j k : Tr noget (ok yes) (getWidthL colN found j k).
Proof.
  unfold getWidthL. destruct found as [cw|]; [apply tr_ret; destruct (getWidth_compact _ _ _ _); exact Logic.I|]. apply tr_see. intros m.
  destruct (negb _); [apply tr_ret; exact Logic.I|]. apply tr_field. intros col. apply tr_look. intros v. apply tr_ret. exact Logic.I.
Qed.
Lemma noget_cells c colN found h item k : forall js done, Tr noget (ok yes) (cellsL c colN found h js item k done).
Proof.
  induction js as [|j js IH]; intros done; cbn [cellsL]; [apply tr_ret; exact Logic.I|].
  apply tr_see. intros m. apply tr_field. intros col. destruct (negb (j <? hLen item)%nat); [apply tr_ret; exact Logic.I|].
  apply (tr_obind noget yes); [apply noget_width|]. intros v _. apply (tr_obind noget yes).
  { destruct (kAlign col); [apply tr_ask; [exact Logic.I|]; intros [s|[]|p]; apply tr_ret; exact Logic.I|apply tr_ret; exact Logic.I]. }
  intros s _. destruct (negb (j <? colN)%nat); [apply tr_ret; exact Logic.I|apply IH].
Qed.
Lemma few_render c colN found i k : Ok_events (few colN) (renderL c colN found i k).
Proof.
  intros w m w' m' b tr e. unfold renderL in e. apply lrun_obind_ok in e. destruct e as (w1 & m1 & r & t1 & t2 & e1 & e & ->).
  apply lrun_ask in e1. destruct e1 as (w2 & m2 & a & t & e1 & e2 & ->). cbn in e2. injection e2 as -> -> -> <-. cbn [lrun] in e.
  apply lrun_obind_ok in e. destruct e as (w3 & m3 & l & t3 & t4 & e & e4 & ->). cbn in e4. injection e4 as _ _ _ <-. rewrite app_nil_r.
  pose proof (cells_grown env c colN found _ _ _ _ _ _ _ _ _ _ _ _ e) as Hg. constructor.
  - intros i' a' D. cbn [eAfter]. lia.
  - apply unget_few, noget_unget. destruct (noget_cells c colN found _ _ _ _ _ _ _ _ _ _ _ e) as [F _]. exact F.
Qed.
Lemma few_emit md c colN sep gc found : Ok_events (few colN) (emitL md c colN sep gc found).
Proof.
  unfold emitL. apply oke_obind.
  { intros w m w' m' a tr e. apply lrun_ask in e. destruct e as (w2 & m2 & b & t & e1 & e2 & ->). cbn in e2. injection e2 as _ _ _ <-. constructor; [intros i a' D; discriminate|constructor]. }
  intros n. cbv zeta. generalize (zrange (lineCountOf n gc)). intros ls. induction ls as [|l ls IH]; cbn [linesL].
  { intros w m w' m' a tr e. cbn in e. injection e as _ _ _ <-. constructor. }
  apply oke_obind.
  - apply oke_obind; [|intros bs w m w' m' a tr e; cbn in e; injection e as _ _ _ <-; constructor].
    generalize (zrange gc). intros gs. induction gs as [|g gs IHg]; cbn [groupsL]; [intros w m w' m' a tr e; cbn in e; injection e as _ _ _ <-; constructor|].
    destruct (_ >=? n); [intros w m w' m' a tr e; cbn in e; injection e as _ _ _ <-; constructor|].
    apply oke_obind; [apply few_render|]. intros b. apply oke_obind; [exact IHg|]. intros bs w m w' m' a tr e; cbn in e; injection e as _ _ _ <-; constructor.
  - intros txt w m w' m' a tr e. apply lrun_ask in e. destruct e as (w2 & m2 & b & t & e1 & e2 & ->). constructor; [intros i a' D; discriminate|].
    destruct b as [u|x|p]; [exact (IH _ _ _ _ _ _ e2)|cbn in e2; discriminate|cbn in e2; discriminate].
Qed.
(** Every item printed was handed out while there were no more columns than at
    the start. *)
Lemma plain_few md fuel c maxWidth sep w0 m0 w' m' tr : lrun env (mergeL md fuel c maxWidth sep false) w0 m0 = (w', m', Some (Ok tt), tr) ->
  forall x i a, In x tr -> eAct x = LCalled (CGet i) a -> (hLen (lSlice (eAfter x)) <= hLen (lSlice m0))%nat.
Proof.
  intros e x i a Hx D. unfold mergeL in e. cbn [lrun] in e. apply lrun_bind_inv in e. destruct e as (w1 & m1 & o & t1 & t2 & e1 & e & ->).
  destruct (tr_groupCount sep _ _ _ _ _ _ _ _ e1) as [F1 _]. destruct o as [gc|[]|p]; [|cbn in e; discriminate].
  apply lrun_bind_inv in e. destruct e as (w3 & m3 & o & t5 & t6 & e3 & e & ->). cbn in e. injection e as _ _ -> <-. rewrite app_nil_r in Hx.
  apply few_emit in e3. rewrite Forall_forall in e3, F1. apply in_app_or in Hx. destruct Hx as [Hx|Hx]; [|exact (e3 x Hx i a D)].
  specialize (F1 x Hx). unfold fine in F1. rewrite D in F1. destruct F1.
Qed.
End Anything.

(** ** AddColumn from within a call *)
Section Adding.
Context {G L : Type}.
Lemma adds_refl (m : lmem G L) : Valid m -> Adds m m.
Proof. intros V. split; auto. Qed.
Lemma add_adds (m : lmem G L) p spare : Valid m -> Adds m (add_column m p spare).
Proof.
  intros [V VL]. unfold add_column. destruct (Nat.ltb_spec (hLen (lSlice m)) (length (nth (hArr (lSlice m)) (lArrs m) []))) as [Hl|Hl].
  - assert (K : forall a j, (a < length (lArrs m))%nat -> (j < hLen (lSlice m))%nat ->
      nth j (nth a (replace (lArrs m) (hArr (lSlice m)) (replace (nth (hArr (lSlice m)) (lArrs m) []) (hLen (lSlice m)) p)) []) None = nth j (nth a (lArrs m) []) None).
    { intros a j Ha Hj. rewrite replace_nth by exact V. destruct (Nat.eqb_spec a (hArr (lSlice m))) as [->|]; [|reflexivity]. rewrite replace_nth by exact Hl.
      destruct (Nat.eqb_spec j (hLen (lSlice m))); [lia|reflexivity]. }
    split; cbn [lArrs lSlice hArr hLen lCols]; unfold Valid; cbn [lArrs lSlice hArr hLen lCols]; rewrite ?replace_len; auto; try lia.
    + split; [exact V|]. rewrite replace_nth by exact V. rewrite Nat.eqb_refl, replace_len. lia.
    + intros j Hj. unfold ptr. cbn [lArrs hArr]. apply K; auto.
  - split; cbn [lArrs lSlice hArr hLen lCols]; unfold Valid; cbn [lArrs lSlice hArr hLen lCols]; rewrite ?app_length; cbn [length]; auto; try lia.
    + split; [lia|]. rewrite app_nth2 by lia. rewrite Nat.sub_diag. cbn [nth]. rewrite app_length, firstn_length. cbn [length]. lia.
    + intros a j Ha Hj. rewrite app_nth1 by exact Ha. reflexivity.
    + intros j Hj. unfold ptr. cbn [lArrs hArr]. rewrite app_nth2 by lia. rewrite Nat.sub_diag. cbn [nth].
      destruct (Nat.lt_ge_cases j (length (firstn (hLen (lSlice m)) (nth (hArr (lSlice m)) (lArrs m) [])))) as [Hj'|Hj'].
      * rewrite app_nth1 by exact Hj'. rewrite <- (firstn_skipn (hLen (lSlice m)) (nth (hArr (lSlice m)) (lArrs m) [])) at 2. rewrite app_nth1 by exact Hj'. reflexivity.
      * exfalso. rewrite firstn_length in Hj'. lia.
Qed.
End Adding.
