(** * CallsResults: what merging does, whatever the called objects do. *)
From Coq Require Import ZifyBool ZifyNat.
From Verif Require Import GoBase CacheProofs Runewidth Width AlignSpec WidthTheory Table Merge TableContract TableOpsProofs MergeSpec MergeLayout MergeRender MergeSearch
  MergeAsked MergeAskedProofs Calls CallsSpec CallsProofs CallsMerge CallsSearch.
Local Open Scope Z_scope.

Section Results.
Context {Item Val E G L : Type}.
Notation kcol := (kcol G L).
Notation act := (act Item Val E G L).
Notation kprog := (kprog Item Val E G L).
Notation environment := (environment Item Val E G L).
Notation call := (call Item Val G L).
Notation res := (outcome Empty_set).
Notation Blame := (@Blame Item Val E G L).

Lemma kestimate_pos m (cols : list kcol) sep maxWidth : 1 <= kestimate m cols sep maxWidth.
Proof. unfold kestimate. lia. Qed.

(** ** Finished *)
Lemma plain_finished {W} (env : environment W) m fuel c cols maxWidth sep w0 m0 w' m' tr :
  krun env (mergeK m fuel c (map Some cols) maxWidth sep false) w0 m0 = (w', m', Some (Ok tt), tr) -> Counts tr ->
  exists g rest lines, Z.of_nat g = kestimate m0 cols sep maxWidth /\ tr = looks m0 cols ++ rest /\ Prints c cols sep m g true lines rest.
Proof.
  intros K HC. apply merge_run in K. destruct (_ =? 0); [destruct K; discriminate|]. destruct K as (rest & -> & o & e & C). injection e as <-.
  apply counts_app in HC. destruct HC as [_ HC]. pose proof (kestimate_pos m0 cols sep maxWidth).
  rewrite <- (Z2Nat.id (kestimate m0 cols sep maxWidth)) in * by lia. set (g := Z.to_nat _) in *.
  apply (emit_can None) in C; [|exact Logic.I|lia|auto]. destruct C as (lines & HP & _). exists g, rest, lines. auto.
Qed.
Lemma compact_finished {W} (env : environment W) m fuel c cols maxWidth sep w0 m0 w' m' tr :
  krun env (mergeK m fuel c (map Some cols) maxWidth sep true) w0 m0 = (w', m', Some (Ok tt), tr) -> Counts tr ->
  exists g0 g Wd search print lines, Z.of_nat g0 = kestimate m0 cols sep maxWidth /\ tr = looks m0 cols ++ search ++ print /\
    Searches c m cols sep maxWidth g0 None search g Wd /\
    match Wd with None => Prints c cols sep m g true lines print | Some Wg => Prints c cols sep m g false lines print /\ UsesWidths Wg lines end.
Proof.
  intros K HC. apply merge_run in K. destruct (_ =? 0); [destruct K; discriminate|]. destruct K as (rest & -> & t1 & r1 & C1 & K).
  apply counts_app in HC. destruct HC as [_ HC]. pose proof (kestimate_pos m0 cols sep maxWidth).
  rewrite <- (Z2Nat.id (kestimate m0 cols sep maxWidth)) in * by lia. set (g := Z.to_nat _) in *.
  destruct r1 as [[[extra cw]|[]|q]|]; [|destruct K; discriminate|destruct K; discriminate].
  destruct K as (t2 & o & -> & e & C2). injection e as <-. apply counts_app in HC. destruct HC as [HC1 HC2].
  change 0 with (Z.of_nat 0) in C1. apply calc_can in C1; [|lia|auto|auto]. destruct C1 as [(n & cw' & e & Hn & Hl & HS)|(q & e & _)]; [|discriminate].
  injection e as -> ->. rewrite Nat.add_0_r in HS. destruct n as [|n].
  - cbn in C2. apply (emit_can None) in C2; [|exact Logic.I|lia|auto]. destruct C2 as (lines & HP & _).
    rewrite Nat.add_0_r in HS. exists g, g, None, t1, t2, lines. auto.
  - destruct (Z.gtb_spec (Z.of_nat (S n)) 0); [|lia]. replace (Z.of_nat g + Z.of_nat (S n)) with (Z.of_nat (g + S n)) in C2 by lia.
    apply (emit_can (Some cw')) in C2; [|cbn; destruct Hl; [discriminate|auto]|lia|auto]. destruct C2 as (lines & HP & HU).
    exists g, (g + S n)%nat, (Some (seg (cols := cols) cw')), t1, t2, lines. auto.
Qed.

(** ** Panics *)
Lemma merge_blame {W} (env : environment W) m fuel c cols maxWidth sep compact w0 m0 w' m' p tr :
  krun env (mergeK m fuel c (map Some cols) maxWidth sep compact) w0 m0 = (w', m', Some (Panic p), tr) -> Counts tr ->
  kreckoned m0 cols sep mod 65536 <> 0 -> Blame (length cols) tr p.
Proof.
  intros K HC HK. apply merge_run in K. destruct (Z.eqb_spec (kreckoned m0 cols sep mod 65536) 0) as [|_]; [contradiction|].
  pose proof (kestimate_pos m0 cols sep maxWidth). rewrite <- (Z2Nat.id (kestimate m0 cols sep maxWidth)) in * by lia. set (g := Z.to_nat _) in *. clearbody g.
  destruct K as (rest & -> & K). destruct compact.
  - destruct K as (t1 & r1 & C1 & K). destruct r1 as [[[extra cw]|[]|q]|].
    + destruct K as (t2 & o & -> & e & C2). injection e as <-. apply counts_app in HC. destruct HC as [_ HC]. apply counts_app in HC. destruct HC as [HC1 HC2].
      change 0 with (Z.of_nat 0) in C1. apply calc_can in C1; [|lia|auto|auto]. destruct C1 as [(n & cw' & e & Hn & Hl & _)|(q & e & _)]; [|discriminate].
      injection e as -> ->. rewrite app_assoc. revert C2. destruct (Z.gtb_spec (Z.of_nat n) 0); intros C2.
      * rewrite <- Nat2Z.inj_add in C2. revert C2. apply (emit_faults (Some cw') (g + n)%nat). cbn. destruct Hl; [lia|auto].
      * revert C2. apply (emit_faults None). exact Logic.I.
    + destruct K as [e ->]. injection e as <-. apply counts_app in HC. destruct HC as [_ HC]. change 0 with (Z.of_nat 0) in C1.
      apply calc_can in C1; [|lia|auto|auto]. destruct C1 as [(n' & cw' & e & _)|(q & e & HB)]; [discriminate|]. injection e as ->. apply HB.
    + destruct K; discriminate.
  - destruct K as (o & e & C). injection e as <-. revert C. apply (emit_faults None). exact Logic.I.
Qed.
Lemma merge_zero {W} (env : environment W) m fuel c cols maxWidth sep compact w0 m0 :
  kreckoned m0 cols sep mod 65536 = 0 ->
  krun env (mergeK m fuel c (map Some cols) maxWidth sep compact) w0 m0 = (w0, m0, Some (Panic DivideByZero), looks m0 cols).
Proof.
  intros HZ. destruct (krun env _ w0 m0) as [[[w' m'] r] tr] eqn:K. apply merge_run in K. rewrite HZ in K. cbn in K. destruct K as (-> & -> & -> & ->). reflexivity.
Qed.
Lemma vertical_ends {W} (env : environment W) fuel c cols maxWidth sep compact N w0 m0 w' m' r tr :
  krun env (mergeK V fuel c (map Some cols) maxWidth sep compact) w0 m0 = (w', m', r, tr) ->
  (forall n, In (Called CLen (Ok n)) tr -> 0 <= n <= Z.of_nat N) -> (N < fuel)%nat -> r <> None.
Proof.
  intros K HN Hf ->. apply merge_run in K. destruct (_ =? 0); [destruct K; discriminate|]. destruct K as (rest & -> & K).
  destruct compact; [|destruct K as (o & e & _); discriminate]. destruct K as (t1 & r1 & C1 & K).
  destruct r1 as [[[extra cw]|[]|q]|]; [destruct K as (t2 & o & _ & e & _); discriminate|destruct K; discriminate|]. destruct K as [_ ->].
  pose proof (kestimate_pos m0 cols sep maxWidth). rewrite <- (Z2Nat.id (kestimate m0 cols sep maxWidth)) in * by lia.
  change 0 with (Z.of_nat 0) in C1. revert C1. apply calc_ends with (N := N); [lia| |lia]. intros n Hn. apply HN. apply in_or_app. auto.
Qed.

(** ** What is asked *)
Fixpoint Only (P : call -> Prop) {R} (p : kprog R) : Prop :=
  match p with
  | KRet _ => True
  | KAsk q k => P q /\ forall a, Only P (k a)
  | KLook _ k => forall v, Only P (k v)
  | KRaise _ _ _ => False
  end.
Lemma only_bind P {A B} (p : kprog A) (f : A -> kprog B) : Only P p -> (forall a, Only P (f a)) -> Only P (kbind p f).
Proof. intros Hp Hf. induction p as [x|q k IH|name k IH|name v p IH]; cbn [kbind Only] in *; [auto|destruct Hp; auto|auto|auto]. Qed.
Lemma only_obind P {X A B} (p : kprog (outcome X A)) (f : A -> kprog (outcome X B)) : Only P p -> (forall a, Only P (f a)) -> Only P (kobind p f).
Proof. intros Hp Hf. apply only_bind; auto. intros [a|e|q]; cbn; auto. Qed.
Lemma only_map P {X A B} (f : A -> kprog (outcome X B)) l : (forall a, In a l -> Only P (f a)) -> Only P (kmap f l).
Proof.
  induction l as [|a l IH]; intros Hf; cbn [kmap]; [exact Logic.I|]. apply only_obind; [apply Hf; left; auto|]. intros b.
  apply only_obind; [apply IH; intros; apply Hf; right; auto|]. intros bs. exact Logic.I.
Qed.
Lemma only_can P {R} (p : kprog R) : Only P p -> forall tr r, Can p tr r -> (forall q a, In (Called q a) tr -> P q) /\ forall n v, ~ In (Raised n v) tr.
Proof.
  induction p as [x|q k IH|name k IH|name v p IH]; cbn [Only Can]; intros HO tr r C.
  - destruct C as [-> _]. split; [intros q a []|intros n v []].
  - destruct C as (a & t & -> & C). destruct HO as [HP HO]. destruct (IH a (HO a) _ _ C) as [H1 H2]. split.
    + intros q' a' [e|Hin]; [|eauto]. assert (K : forall x y : act, x = y -> match x with Called q _ => P q | _ => True end -> match y with Called q _ => P q | _ => True end) by (intros x y ->; auto).
      exact (K _ _ e HP).
    + intros n v [e|Hin]; [discriminate|exact (H2 n v Hin)].
  - destruct C as (v & t & -> & C). destruct (IH v (HO v) _ _ C) as [H1 H2]. split; [intros q a [e|Hin]; [discriminate|eauto]|intros n u [e|Hin]; [discriminate|exact (H2 n u Hin)]].
  - destruct HO.
Qed.
(** While [n] items are known of. *)
Definition Within (n : Z) (q : call) : Prop :=
  match q with CAlign _ _ _ => True | CWrite _ => True | CGet i => 0 <= i < n | _ => False end.
Lemma within_asks n (tr : list act) : (forall q a, In (Called q a) tr -> Within n q) -> AsksWithin (Some n) tr.
Proof.
  induction tr as [|[q a|name v|name v] tr IH]; intros HP; cbn [AsksWithin]; [exact Logic.I| | |]; try (apply IH; intros; eapply HP; right; eauto).
  pose proof (HP q a (or_introl eq_refl)) as K. assert (IH' : AsksWithin (Some n) tr) by (apply IH; intros; eapply HP; right; eauto).
  destruct q; cbn in K |- *; try contradiction; auto. split; [exists n; auto|auto].
Qed.
Lemma asks_app n (t1 t2 : list act) : AsksWithin n t1 -> (forall k, AsksWithin k t2) -> AsksWithin n (t1 ++ t2).
Proof.
  revert n. induction t1 as [|[q a|name v|name v] t1 IH]; intros n H1 H2; cbn [app AsksWithin] in *; auto.
  destruct q; auto; try (destruct a; auto). all: destruct H1; auto.
Qed.

Section Cols.
Context {c : Condition} {cols : list kcol}.
Notation ocols := (map Some cols).
Lemma only_cells n found item groupI : forall cs i, Only (Within n) (cellsK c found ocols (map Some cs) item i groupI : kprog _).
Proof.
  induction cs as [|col cs IH]; intros i; cbn [map cellsK]; [exact Logic.I|]. apply only_obind; [exact Logic.I|]. intros s.
  apply only_obind.
  { destruct found as [cw|]; cbn [getWidthK]; [exact Logic.I|]. apply only_obind; [exact Logic.I|]. intros [col'|]; cbn; auto. }
  intros w. apply only_obind; [destruct (kAlign col); cbn; auto|]. intros cell. apply only_obind; [apply IH|]. intros cells. exact Logic.I.
Qed.
Lemma only_render n found i groupI : 0 <= i < n -> Only (Within n) (renderK c ocols found i groupI : kprog _).
Proof.
  intros Hi. apply only_obind; [cbn; auto|]. intros item. apply only_obind; [apply only_cells|]. intros cells. exact Logic.I.
Qed.
Lemma only_groups n found P gs : (forall k, In k gs -> 0 <= P k) -> Only (Within n) (groupsK n P (renderK c ocols found) gs : kprog _).
Proof.
  induction gs as [|k gs IH]; intros HP; cbn [groupsK]; [exact Logic.I|]. destruct (Z.geb_spec (P k) n); [exact Logic.I|].
  apply only_obind; [apply only_render; pose proof (HP k (or_introl eq_refl)); lia|]. intros b. apply only_obind; [apply IH; intros; apply HP; right; auto|]. intros bs. exact Logic.I.
Qed.
Lemma only_lines n (line : Z -> kprog (res str)) ls : (forall l, In l ls -> Only (Within n) (line l)) -> Only (Within n) (linesK line ls).
Proof.
  induction ls as [|l ls IH]; intros HL; cbn [linesK]; [exact Logic.I|]. apply only_obind; [apply HL; left; auto|]. intros txt. cbn [Only]. split; [exact Logic.I|].
  intros [u|e|q]; [apply IH; intros; apply HL; right; auto|exact Logic.I|exact Logic.I].
Qed.
Lemma zrange_in n i : In i (zrange n) -> 0 <= i < n.
Proof. unfold zrange. intros Hi. apply in_map_iff in Hi. destruct Hi as (k & <- & Hk). apply in_seq in Hk. lia. Qed.
(** A program that first asks how many items there are, and then keeps within
    them. *)
Definition Lenfirst {R} (p : kprog R) : Prop := exists k, p = KAsk CLen k /\
  forall a, match a with Ok n => Only (Within n) (k a) | Err _ => True | Panic _ => exists r, k a = KRet r end.
Lemma lenfirst_can {R} (p : kprog R) : Lenfirst p -> forall tr r, Can p tr r -> (forall n, AsksWithin n tr) /\ forall name v, ~ In (Raised name v) tr.
Proof.
  intros (k & -> & HO) tr r (a & t & -> & C). specialize (HO a). destruct a as [n|[]|q].
  - destruct (only_can _ _ HO _ _ C) as [H1 H2]. split; [intros m; cbn [AsksWithin]; apply within_asks; auto|intros name v [e|Hin]; [discriminate|exact (H2 name v Hin)]].
  - destruct HO as (r' & e). rewrite e in C. destruct C as [-> _]. split; [intros m; exact Logic.I|intros name v [e'|[]]; discriminate].
Qed.
Lemma lenfirst_emit m sep gc found : 1 <= gc -> Lenfirst (emitK m c ocols sep gc found : kprog (res unit)).
Proof.
  intros Hg. eexists. split; [reflexivity|]. intros [n|[]|q]; [|eexists; reflexivity]. cbv beta zeta iota.
  apply only_lines. intros l Hl. apply zrange_in in Hl. apply only_obind; [|intros; exact Logic.I]. apply only_groups. intros k Hk. apply zrange_in in Hk.
  destruct m; cbn [place]; nia.
Qed.
Lemma only_widths n idxs gc : (forall k i, 0 <= k < gc -> In i (idxs k) -> 0 <= i < n) -> Only (Within n) (widthsK c (slen ocols) idxs gc : kprog _).
Proof.
  intros Hidx. apply only_obind; [|intros; exact Logic.I]. apply only_map. intros k Hk. apply zrange_in in Hk. apply only_map. intros i _.
  assert (K : forall js mw, (forall j, In j js -> 0 <= j < n) -> Only (Within n) (maxCellK c i js mw : kprog _)).
  { induction js as [|j js IH]; intros mw Hj; cbn [maxCellK]; [exact Logic.I|]. apply only_obind; [split; [apply Hj; left; auto|intros; exact Logic.I]|].
    intros row. apply only_obind; [exact Logic.I|]. intros s. apply IH. intros j' Hj'. apply Hj. right. auto. }
  apply K. intros j Hj. eapply Hidx; eauto.
Qed.
Lemma lenfirst_merged m gc : 2 <= gc -> Lenfirst (mergedK m c (slen ocols) gc : kprog (res (option (list Z)))).
Proof.
  intros Hg. eexists. split; [reflexivity|]. intros [n|[]|q]; [|eexists; reflexivity]. cbv beta zeta iota. destruct m.
  - apply only_obind; [|intros; exact Logic.I]. apply only_widths. intros k i Hk Hi. apply steps_in in Hi; [|lia]. destruct Hi as (q & Hq & -> & Hlt). nia.
  - destruct (_ =? 0); [exact Logic.I|]. destruct (_ >? _); [exact Logic.I|]. apply only_obind; [|intros; exact Logic.I]. apply only_widths.
    intros k i Hk Hi. apply steps_in in Hi; [|lia]. destruct Hi as (q & Hq & -> & Hlt). set (L0 := lineCountOf n gc) in *.
    destruct (Z.gtb_spec ((k + 1) * L0) n); nia.
Qed.
Lemma calc_asks m mw margin g0 : 1 <= g0 -> forall fuel extra cw tr r, 0 <= extra ->
  Can (calcK fuel m c (slen ocols) mw margin g0 extra cw : kprog _) tr r -> (forall n, AsksWithin n tr) /\ forall name v, ~ In (Raised name v) tr.
Proof.
  intros Hg. induction fuel as [|fuel IH]; intros extra cw tr r He C; cbn [calcK] in C.
  - destruct C as [-> _]. split; [intros n; exact Logic.I|intros name v []].
  - apply can_bind in C. destruct C as (t1 & o & t2 & -> & C1 & C2). apply lenfirst_can in C1; [|apply lenfirst_merged; lia].
    assert (K : (forall n, AsksWithin n t2) /\ forall name v, ~ In (Raised name v) t2).
    { assert (KN : forall x, Can (KRet x : kprog (option (res (Z * list Z)))) t2 r -> (forall n, AsksWithin n t2) /\ forall name v, ~ In (Raised name v) t2).
      { intros x [-> _]. split; [intros n; exact Logic.I|intros name v []]. }
      destruct o as [[cw'|]|[]|q]; [|exact (KN _ C2)|exact (KN _ C2)]. revert C2. destruct (_ >? _); intros C2; [exact (KN _ C2)|]. apply IH in C2; [auto|lia]. }
    destruct C1 as [A1 R1], K as [A2 R2]. split; [intros n; apply asks_app; auto|]. intros name v Hin. apply in_app_or in Hin. destruct Hin; [eapply R1|eapply R2]; eauto.
Qed.
End Cols.
Lemma merge_asks {W} (env : environment W) m fuel c cols maxWidth sep compact w0 m0 w' m' r tr :
  krun env (mergeK m fuel c (map Some cols) maxWidth sep compact) w0 m0 = (w', m', r, tr) ->
  AsksWithin None tr /\ forall name v, ~ In (Raised name v) tr.
Proof.
  intros K. apply merge_run in K.
  assert (HL : forall t, (forall n, AsksWithin n t) /\ (forall name v, ~ In (Raised name v) t) -> AsksWithin None (looks m0 cols ++ t) /\ forall name v, ~ In (Raised name v : act) (looks m0 cols ++ t)).
  { intros t [A R]. split.
    - apply asks_app; auto. clear. unfold looks. induction cols; cbn; auto.
    - intros name v Hin. apply in_app_or in Hin. destruct Hin as [Hin|Hin]; [|eapply R; eauto]. unfold looks in Hin. apply in_map_iff in Hin. destruct Hin as (x & e & _). discriminate. }
  pose proof (kestimate_pos m0 cols sep maxWidth) as Hg.
  destruct (_ =? 0).
  - destruct K as (_ & -> & _). rewrite <- (app_nil_r (looks m0 cols)). apply HL. split; [intros n; exact Logic.I|intros name v []].
  - destruct K as (rest & -> & K). apply HL. destruct compact.
    + destruct K as (t1 & r1 & C1 & K). rewrite <- slen_ocols in C1. assert (Ce : forall extra cw, r1 = Some (Ok (extra, cw)) -> 0 <= extra).
      { intros extra cw ->. clear -C1 Hg. change 0 with (Z.of_nat 0) in C1. revert C1. generalize (clampWidth maxWidth) (u16 (slen sep)) (kestimate m0 cols sep maxWidth) (@nil Z).
        intros mw mg g0 cw0. generalize 0%nat. revert cw0 t1. induction fuel as [|fuel IH]; intros cw0 t1 e0 C1; cbn [calcK] in C1; [destruct C1; discriminate|].
        apply can_bind in C1. destruct C1 as (u1 & o & u2 & -> & _ & C2). destruct o as [[cw'|]|[]|q]; [|destruct C2 as [_ e]; injection e as -> ->; lia|destruct C2; discriminate].
        revert C2. destruct (_ >? _); intros C2; [destruct C2 as [_ e]; injection e as -> ->; lia|]. replace (Z.of_nat e0 + 1) with (Z.of_nat (S e0)) in C2 by lia. eapply IH; eauto. }
      apply calc_asks in C1; [|lia|lia]. destruct r1 as [[[extra cw]|[]|q]|]; [|destruct K as [_ ->]; auto|destruct K as [_ ->]; auto].
      destruct K as (t2 & o & -> & _ & C2). specialize (Ce extra cw eq_refl).
      assert (K2 : (forall n, AsksWithin n t2) /\ forall name v, ~ In (Raised name v) t2).
      { destruct (extra >? 0); eapply lenfirst_can in C2; eauto; apply lenfirst_emit; lia. }
      destruct C1 as [A1 R1], K2 as [A2 R2]. split; [intros n; apply asks_app; auto|]. intros name v Hin. apply in_app_or in Hin. destruct Hin; [eapply R1|eapply R2]; eauto.
    + destruct K as (o & _ & C). eapply lenfirst_can in C; eauto. apply lenfirst_emit. lia.
Qed.
Lemma merge_quiet {W} (env : environment W) m fuel c cols maxWidth sep compact w0 m0 w' m' r tr : Quiet env ->
  krun env (mergeK m fuel c (map Some cols) maxWidth sep compact) w0 m0 = (w', m', r, tr) ->
  m' = m0 /\ forall n v, In (Looked n v) tr -> v = m0 n.
Proof. intros HQ K. apply (run_fixed _ _ HQ) in K as K2; [exact K2|]. eapply merge_asks; eauto. Qed.
End Results.
