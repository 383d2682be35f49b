(** * TableProofs: the binary searches agree with interval membership. *)
From Verif Require Import GoBase IntervalSpec Uniseg Runewidth RuneWidthData
  GraphemeData EastAsianData EmojiData.
From Coq Require Import ZifyBool ZifyNat.
Local Open Scope Z_scope.
Ltac Zify.zify_post_hook ::= Z.div_mod_to_equations.

Lemma at_index_Some {A} (l : list A) i : 0 <= i < slen l ->
  exists a, at_index l i = Some a /\ In a l /\ nth_error l (Z.to_nat i) = Some a.
Proof.
  unfold at_index, slen; intros H.
  destruct (Z.ltb_spec i 0); [lia|].
  destruct (nth_error l (Z.to_nat i)) eqn:E.
  - exists a; repeat split; auto. eapply nth_error_In; eauto.
  - apply nth_error_None in E. lia.
Qed.

Lemma at_index_nth {A} (l : list A) i a : at_index l i = Some a ->
  0 <= i < slen l /\ nth_error l (Z.to_nat i) = Some a.
Proof.
  unfold at_index, slen. destruct (Z.ltb_spec i 0); [discriminate|].
  intros E. assert (Z.to_nat i < length l)%nat by (apply nth_error_Some; congruence).
  split; [lia|assumption].
Qed.

(** Sorted lists: entry i lies wholly before entry j > i. *)
Lemma sorted_head_lt a b t : Sorted ((a, b) :: t) ->
  forall j c d, nth_error t j = Some (c, d) -> b < c /\ c <= d.
Proof.
  revert a b; induction t as [|(a', b') t IH]; intros a b H j c d Hj.
  - destruct j; discriminate.
  - simpl in H. destruct H as (H1 & H2 & H3).
    destruct j as [|j]; simpl in Hj.
    + injection Hj as <- <-. simpl in H3. lia.
    + destruct (IH a' b' H3 j c d Hj). simpl in H3. lia.
Qed.

Lemma sorted_tail a t : Sorted (a :: t) -> Sorted t.
Proof. destruct a; simpl; tauto. Qed.

Lemma sorted_nth_lt t : Sorted t -> forall i j a b c d,
  (i < j)%nat -> nth_error t i = Some (a, b) -> nth_error t j = Some (c, d) ->
  a <= b /\ b < c /\ c <= d.
Proof.
  induction t as [|(x, y) t IH]; intros H i j a b c d Hij Hi Hj.
  - destruct i; discriminate.
  - destruct j as [|j]; [lia|]. simpl in Hj. destruct i as [|i]; simpl in Hi.
    + injection Hi as <- <-. destruct (sorted_head_lt _ _ _ H _ _ _ Hj).
      simpl in H. lia.
    + apply (IH (sorted_tail _ _ H) i j); auto; lia.
Qed.

Lemma sorted_nth_le t : Sorted t -> forall i a b,
  nth_error t i = Some (a, b) -> a <= b.
Proof.
  induction t as [|(x, y) t IH]; intros H i a b Hi.
  - destruct i; discriminate.
  - destruct i as [|i]; simpl in Hi.
    + injection Hi as <- <-. simpl in H. lia.
    + eapply IH; eauto. eapply sorted_tail; eauto.
Qed.

Lemma Member_nth r t : Member r t <->
  exists i a b, nth_error t i = Some (a, b) /\ a <= r <= b.
Proof.
  split.
  - intros (a & b & Hin & Hr). apply In_nth_error in Hin. destruct Hin as [i Hi].
    exists i, a, b; auto.
  - intros (i & a & b & Hi & Hr). exists a, b; split; auto. eapply nth_error_In; eauto.
Qed.

Lemma inTable_loop_spec t r : Sorted t -> forall fuel bot top,
  0 <= bot -> top < slen t -> (Z.to_nat (top - bot + 1) < fuel)%nat ->
  (forall i a b, nth_error t i = Some (a, b) -> Z.of_nat i < bot -> b < r) ->
  (forall i a b, nth_error t i = Some (a, b) -> top < Z.of_nat i -> r < a) ->
  exists res, inTable_loop fuel t r bot top = Some res /\ (res = true <-> Member r t).
Proof.
  intros Hs. induction fuel as [|f IH]; intros bot top Hb Ht Hf Hlo Hhi; [lia|].
  cbn [inTable_loop].
  destruct (Z.geb_spec top bot).
  - rewrite Z.shiftr_div_pow2 by lia. change (2 ^ 1) with 2.
    set (mid := (bot + top) / 2).
    assert (Hm : bot <= mid <= top) by (unfold mid; lia).
    destruct (at_index_Some t mid) as ((first, last) & E & _ & En); [lia|].
    rewrite E.
    destruct (Z.ltb_spec last r).
    + apply IH; try lia; auto.
      intros i a b Hi Hlt. destruct (Z.eq_dec (Z.of_nat i) mid) as [e|ne].
      * assert (i = Z.to_nat mid) by lia. subst i. rewrite Hi in En.
        injection En as -> ->. lia.
      * assert (i < Z.to_nat mid)%nat as Hlt2 by lia.
        destruct (sorted_nth_lt t Hs i _ _ _ _ _ Hlt2 Hi En). lia.
    + destruct (Z.gtb_spec first r).
      * apply IH; try lia; auto.
        intros i a b Hi Hlt. destruct (Z.eq_dec (Z.of_nat i) mid) as [e|ne].
        -- assert (i = Z.to_nat mid) by lia. subst i. rewrite Hi in En.
           injection En as -> ->. lia.
        -- assert (Z.to_nat mid < i)%nat as Hlt2 by lia.
           destruct (sorted_nth_lt t Hs _ i _ _ _ _ Hlt2 En Hi). lia.
      * exists true; split; auto. split; auto. intros _.
        apply Member_nth. exists (Z.to_nat mid), first, last. split; auto; lia.
  - exists false. split; auto. split; [discriminate|].
    intros M. apply Member_nth in M. destruct M as (i & a & b & Hi & Hr).
    destruct (Z_lt_le_dec (Z.of_nat i) bot).
    + specialize (Hlo _ _ _ Hi l). lia.
    + assert (top < Z.of_nat i) as Hgt by lia. specialize (Hhi _ _ _ Hi Hgt). lia.
Qed.

Lemma inTable_go_spec t r : t <> [] -> Sorted t ->
  exists res, inTable_go r t = Some res /\ (res = true <-> Member r t).
Proof.
  intros Hne Hs. unfold inTable_go. destruct t as [|(f0, l0) t']; [congruence|].
  set (t := (f0, l0) :: t') in *.
  destruct (Z.ltb_spec r f0).
  - exists false; split; auto. split; [discriminate|]. intros M.
    apply Member_nth in M. destruct M as (i & a & b & Hi & Hr).
    destruct i as [|i].
    + simpl in Hi. injection Hi as <- <-. lia.
    + assert (0 < S i)%nat as L by lia.
      destruct (sorted_nth_lt t Hs 0 (S i) f0 l0 a b L eq_refl Hi). lia.
  - apply inTable_loop_spec; auto; try lia.
    + unfold slen. lia.
    + intros i a b Hi L. exfalso.
      assert (i < length t)%nat by (apply nth_error_Some; congruence).
      unfold slen in L. lia.
Qed.

Lemma inTable_spec t r : t <> [] -> Sorted t -> inTable r t = true <-> Member r t.
Proof.
  intros Hne Hs. destruct (inTable_go_spec t r Hne Hs) as (res & E & H).
  unfold inTable. rewrite E. exact H.
Qed.

Lemma Compact_Sorted t : Compact t -> Sorted t.
Proof.
  induction t as [|(a, b) t IH]; simpl; auto.
  intros (H1 & H2 & H3). repeat split; auto. destruct t as [|(a', b') t']; auto. lia.
Qed.

(** Boolean checkers. *)
Fixpoint compactb (t : list (Z * Z)) : bool :=
  match t with
  | [] => true
  | (a, b) :: rest =>
    (a <=? b) && match rest with [] => true | (a', _) :: _ => b + 1 <? a' end && compactb rest
  end.
Fixpoint sortedb (t : list (Z * Z)) : bool :=
  match t with
  | [] => true
  | (a, b) :: rest =>
    (a <=? b) && match rest with [] => true | (a', _) :: _ => b <? a' end && sortedb rest
  end.

Lemma compactb_ok t : compactb t = true -> Compact t.
Proof.
  induction t as [|(a, b) t IH]; cbn [compactb Compact]; auto.
  intros H. apply andb_true_iff in H. destruct H as [H H3].
  apply andb_true_iff in H. destruct H as [H1 H2].
  repeat split; auto; [lia|]. destruct t as [|(a', b') t']; auto. lia.
Qed.
Lemma sortedb_ok t : sortedb t = true -> Sorted t.
Proof.
  induction t as [|(a, b) t IH]; cbn [sortedb Sorted]; auto.
  intros H. apply andb_true_iff in H. destruct H as [H H3].
  apply andb_true_iff in H. destruct H as [H1 H2].
  repeat split; auto; [lia|]. destruct t as [|(a', b') t']; auto. lia.
Qed.

Definition rw_tables : list (list (Z * Z)) :=
  [tbl_private; tbl_nonprint; tbl_combining; tbl_doublewidth; tbl_ambiguous;
   tbl_narrow; tbl_neutral; tbl_emoji].

Lemma rw_tables_compact t : In t rw_tables -> t <> [] /\ Compact t.
Proof.
  assert (H : forallb (fun t => compactb t && negb (match t with [] => true | _ => false end))
                rw_tables = true) by (vm_compute; reflexivity).
  intros Hin. rewrite forallb_forall in H. specialize (H t Hin).
  apply andb_true_iff in H. destruct H as [H1 H2]. split.
  - destruct t; [discriminate|congruence].
  - apply compactb_ok; auto.
Qed.

(** ** Property tables *)

Lemma spans_nth d i a b p : nth_error d i = Some (a, b, p) ->
  nth_error (spans d) i = Some (a, b).
Proof. intros H. unfold spans. rewrite nth_error_map, H. reflexivity. Qed.

Lemma spans_nth_inv d i a b : nth_error (spans d) i = Some (a, b) ->
  exists p, nth_error d i = Some (a, b, p).
Proof.
  unfold spans. rewrite nth_error_map. destruct (nth_error d i) as [((x, y), p)|]; simpl;
    intros H; inversion H; subst; eauto.
Qed.

Lemma propertySearch_loop_spec d r : Sorted (spans d) -> forall fuel from to_,
  0 <= from -> to_ <= slen d -> (Z.to_nat (to_ - from) < fuel)%nat ->
  (forall i a b p, nth_error d i = Some (a, b, p) -> Z.of_nat i < from -> b < r) ->
  (forall i a b p, nth_error d i = Some (a, b, p) -> to_ <= Z.of_nat i -> r < a) ->
  exists a b p, propertySearch_loop fuel d r from to_ = Some (a, b, p)
  /\ ((In (a, b, p) d /\ a <= r <= b) \/
      ((a, b, p) = (0, 0, 0) /\ forall a b p, In (a, b, p) d -> ~ (a <= r <= b))).
Proof.
  intros Hs. induction fuel as [|f IH]; intros from to_ Hb Ht Hf Hlo Hhi; [lia|].
  cbn [propertySearch_loop].
  destruct (Z.gtb_spec to_ from).
  - set (mid := (from + to_) / 2).
    assert (Hm : from <= mid < to_) by (unfold mid; lia).
    destruct (at_index_Some d mid) as (((first, last), p) & E & Hin & En); [lia|].
    rewrite E.
    destruct (Z.ltb_spec r first).
    + apply IH; try lia; auto.
      intros i a b q Hi Hge. destruct (Z.eq_dec (Z.of_nat i) mid) as [e|ne].
      * assert (i = Z.to_nat mid) by lia. subst i. rewrite Hi in En.
        injection En as -> -> ->. lia.
      * assert (Z.to_nat mid < i)%nat as L by lia.
        destruct (sorted_nth_lt _ Hs _ i _ _ _ _ L (spans_nth _ _ _ _ _ En)
                    (spans_nth _ _ _ _ _ Hi)). lia.
    + destruct (Z.gtb_spec r last).
      * apply IH; try lia; auto.
        intros i a b q Hi Hge. destruct (Z.eq_dec (Z.of_nat i) mid) as [e|ne].
        -- assert (i = Z.to_nat mid) by lia. subst i. rewrite Hi in En.
           injection En as -> -> ->. lia.
        -- assert (i < Z.to_nat mid)%nat as L by lia.
           destruct (sorted_nth_lt _ Hs i _ _ _ _ _ L (spans_nth _ _ _ _ _ Hi)
                       (spans_nth _ _ _ _ _ En)). lia.
      * exists first, last, p. split; [reflexivity|left; split; [assumption|lia]].
  - exists 0, 0, 0. split; auto. right. split; auto.
    intros a b p Hin Hr. apply In_nth_error in Hin. destruct Hin as [i Hi].
    destruct (Z_lt_le_dec (Z.of_nat i) from).
    + specialize (Hlo _ _ _ _ Hi l). lia.
    + assert (to_ <= Z.of_nat i) as L by lia. specialize (Hhi _ _ _ _ Hi L). lia.
Qed.

Lemma propertySearch_spec d r : Sorted (spans d) ->
  exists a b p, propertySearch d r = Some (a, b, p)
  /\ ((In (a, b, p) d /\ a <= r <= b) \/
      ((a, b, p) = (0, 0, 0) /\ forall a b p, In (a, b, p) d -> ~ (a <= r <= b))).
Proof.
  intros Hs. apply propertySearch_loop_spec; auto; try lia.
  - unfold slen. lia.
  - intros i a b p Hi L. exfalso.
    assert (i < length d)%nat by (apply nth_error_Some; congruence). unfold slen in L. lia.
Qed.

Lemma property_HasProperty d r : Sorted (spans d) -> HasProperty d r (property d r).
Proof.
  intros Hs. destruct (propertySearch_spec d r Hs) as (a & b & p & E & H).
  unfold property. rewrite E. destruct H as [[Hin Hr]|[Heq Hno]].
  - left. exists a, b. auto.
  - right. injection Heq as -> -> ->. split; auto.
Qed.

Lemma HasProperty_unique d r p q : Sorted (spans d) ->
  HasProperty d r p -> HasProperty d r q -> p = q.
Proof.
  intros Hs [(a & b & Hin & Hr)|[-> Hno]] [(a' & b' & Hin' & Hr')|[-> Hno']]; auto.
  - apply In_nth_error in Hin, Hin'. destruct Hin as [i Hi], Hin' as [j Hj].
    destruct (Nat.lt_trichotomy i j) as [L|[e|L]].
    + destruct (sorted_nth_lt _ Hs _ _ _ _ _ _ L (spans_nth _ _ _ _ _ Hi)
                  (spans_nth _ _ _ _ _ Hj)). lia.
    + subst. congruence.
    + destruct (sorted_nth_lt _ Hs _ _ _ _ _ _ L (spans_nth _ _ _ _ _ Hj)
                  (spans_nth _ _ _ _ _ Hi)). lia.
  - exfalso. eapply Hno'; eauto.
  - exfalso. eapply Hno; eauto.
Qed.

Lemma property_spec d r p : Sorted (spans d) ->
  property d r = p <-> HasProperty d r p.
Proof.
  intros Hs. split.
  - intros <-. apply property_HasProperty; auto.
  - intros H. eapply HasProperty_unique; eauto. apply property_HasProperty; auto.
Qed.

Lemma grapheme_sorted : Sorted (spans graphemeCodePoints).
Proof. apply sortedb_ok. vm_compute. reflexivity. Qed.
Lemma eastAsian_sorted : Sorted (spans eastAsianWidth).
Proof. apply sortedb_ok. vm_compute. reflexivity. Qed.
Lemma emoji_sorted : Sorted (spans emojiPresentation).
Proof. apply sortedb_ok. vm_compute. reflexivity. Qed.
