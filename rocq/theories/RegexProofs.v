(** * RegexProofs: the matcher against the grammar of escape sequences. *)
From Verif Require Import GoBase Utf8 Utf8Proofs Regex Width EscapeSpec.
From Coq Require Import ZifyBool ZifyNat Sorting.Sorted.
Local Open Scope Z_scope.

(** ** Languages *)
Inductive Lang : re -> list Z -> Prop :=
| L_cls p c : p c = true -> Lang (Cls p) [c]
| L_seq a b u v : Lang a u -> Lang b v -> Lang (Seq a b) (u ++ v)
| L_opt0 a : Lang (Opt a) []
| L_opt1 a u : Lang a u -> Lang (Opt a) u
| L_star0 a : Lang (Star a) []
| L_star1 a u v : Lang a u -> Lang (Star a) v -> Lang (Star a) (u ++ v).

Lemma map_app_inv {A B} (f : A -> B) l : forall u v, map f l = u ++ v ->
  exists a b, l = a ++ b /\ map f a = u /\ map f b = v.
Proof.
  induction l as [|x l IH]; intros u v H.
  - destruct u; [|discriminate]. destruct v; [|discriminate]. exists [], []. auto.
  - destruct u as [|y u].
    + exists [], (x :: l). auto.
    + cbn [map app] in H. injection H as H1 H2. destruct (IH u v H2) as (a & b & -> & Ha & Hb).
      exists (x :: a), b. cbn [map app]. subst. auto.
Qed.

Lemma star_rests_sound (step : input -> list input) (P Q : list Z -> Prop) :
  (forall l rem, In rem (step l) -> exists m, l = m ++ rem /\ P (map fst m)) ->
  Q [] -> (forall u v, P u -> Q v -> Q (u ++ v)) ->
  forall f l rem, In rem (star_rests step f l) -> exists m, l = m ++ rem /\ Q (map fst m).
Proof.
  intros Hs H0 H1. induction f as [|f IH]; intros l rem H; cbn [star_rests] in H.
  - destruct H as [<-|[]]. exists []. auto.
  - apply in_app_or in H. destruct H as [H|[<-|[]]]; [|exists []; auto].
    apply in_flat_map in H. destruct H as (l' & Hin & H).
    destruct (Nat.ltb _ _); [|destruct H].
    destruct (Hs _ _ Hin) as (m & -> & Hm). destruct (IH _ _ H) as (m' & -> & Hm').
    exists (m ++ m'). rewrite app_assoc, map_app. auto.
Qed.

Lemma rests_sound r : forall l rem, In rem (rests r l) ->
  exists m, l = m ++ rem /\ Lang r (map fst m).
Proof.
  induction r as [p|a IHa b IHb|a IHa|a IHa]; intros l rem H; cbn [rests] in H.
  - destruct l as [|(c, n) l]; [destruct H|]. destruct (p c) eqn:E; [|destruct H].
    destruct H as [<-|[]]. exists [(c, n)]. split; auto. constructor; auto.
  - apply in_flat_map in H. destruct H as (l' & H1 & H2).
    destruct (IHa _ _ H1) as (m & -> & Hm). destruct (IHb _ _ H2) as (m' & -> & Hm').
    exists (m ++ m'). rewrite app_assoc, map_app. split; auto. constructor; auto.
  - apply in_app_or in H. destruct H as [H|[<-|[]]].
    + destruct (IHa _ _ H) as (m & -> & Hm). exists m. split; auto. apply L_opt1; auto.
    + exists []. split; auto. constructor.
  - apply (star_rests_sound (rests a) (Lang a) (Lang (Star a))) in H; auto.
    + constructor.
    + intros; constructor; auto.
Qed.

Lemma star_rests_end step f l : In l (star_rests step f l).
Proof. destruct f; cbn [star_rests]; [simpl; auto|]. apply in_or_app. simpl. auto. Qed.

Lemma star_complete (a : re) :
  (forall m rem, Lang a (map fst m) -> In rem (rests a (m ++ rem))) ->
  forall w, Lang (Star a) w -> forall m rem f, map fst m = w ->
  (length (m ++ rem) <= f)%nat -> In rem (star_rests (rests a) f (m ++ rem)).
Proof.
  intros Ha w H. remember (Star a) as r eqn:Er. induction H; try discriminate; injection Er as ->.
  - intros m rem f Hm _. destruct m; [|discriminate]. apply star_rests_end.
  - intros m rem f Hm Hf. destruct (map_app_inv _ _ _ _ Hm) as (m1 & m2 & -> & H1 & H2).
    destruct m1 as [|x m1].
    + cbn [app] in *. apply IHLang2; auto.
    + destruct f as [|f]; [rewrite !app_length in Hf; simpl in Hf; lia|]. cbn [star_rests].
      apply in_or_app. left. apply in_flat_map. exists (m2 ++ rem). split.
      { rewrite <- app_assoc. apply Ha. rewrite H1. auto. }
      assert (L : (length (m2 ++ rem) < length (((x :: m1) ++ m2) ++ rem))%nat)
        by (rewrite !app_length; simpl; lia).
      destruct (Nat.ltb_spec (length (m2 ++ rem)) (length (((x :: m1) ++ m2) ++ rem))); [|lia].
      apply IHLang2; auto. lia.
Qed.

Lemma rests_complete r : forall m rem, Lang r (map fst m) -> In rem (rests r (m ++ rem)).
Proof.
  induction r as [p|a IHa b IHb|a IHa|a IHa]; intros m rem H; cbn [rests].
  - inversion H as [p' c Hp Ep Em| | | | |]; subst. destruct m as [|(c', n) [|]]; try discriminate.
    cbn [map fst] in Em. injection Em as ->. cbn [app]. rewrite Hp. simpl. auto.
  - inversion H as [|a' b' u v Hu Hv Er Em| | | |]; subst.
    symmetry in Em. destruct (map_app_inv _ _ _ _ Em) as (m1 & m2 & -> & <- & <-).
    apply in_flat_map. exists (m2 ++ rem). rewrite <- app_assoc. auto.
  - inversion H as [| |a' Er Em|a' u Hu Er Em| |]; subst.
    + destruct m; [|discriminate]. apply in_or_app. simpl. auto.
    + apply in_or_app. left. auto.
  - eapply star_complete; eauto.
Qed.

Lemma rests_iff r l rem : In rem (rests r l) <-> exists m, l = m ++ rem /\ Lang r (map fst m).
Proof.
  split; [apply rests_sound|]. intros (m & -> & H). apply rests_complete; auto.
Qed.

(** ** Locality: a rune outside the alphabet stops the matcher *)

Fixpoint accepts (r : re) (c : Z) : bool :=
  match r with
  | Cls p => p c
  | Seq a b => accepts a c || accepts b c
  | Opt a | Star a => accepts a c
  end.

Lemma star_rests_fuel step f : forall g l, (length l <= f)%nat -> (length l <= g)%nat ->
  star_rests step f l = star_rests step g l.
Proof.
  induction f as [|f IH]; intros g l Hf Hg.
  - destruct l; [|simpl in Hf; lia]. destruct g; auto. cbn [star_rests].
    replace (flat_map _ (step [])) with (@nil input); auto.
    induction (step []) as [|x xs IHx]; auto.
  - destruct g as [|g].
    + destruct l; [|simpl in Hg; lia]. cbn [star_rests].
      replace (flat_map _ (step [])) with (@nil input); auto.
      induction (step []) as [|x xs IHx]; auto.
    + cbn [star_rests]. f_equal. induction (step l) as [|x xs IHx]; auto.
      cbn [flat_map]. rewrite IHx. f_equal.
      destruct (Nat.ltb_spec (length x) (length l)); auto. apply IH; lia.
Qed.

Lemma flat_map_map {A B C} (f : B -> list C) (g : A -> B) l :
  flat_map f (map g l) = flat_map (fun x => f (g x)) l.
Proof. induction l; simpl; congruence. Qed.

Lemma map_flat_map {A B C} (f : A -> list B) (g : B -> C) l :
  map g (flat_map f l) = flat_map (fun x => map g (f x)) l.
Proof. induction l; simpl; auto. rewrite map_app. congruence. Qed.

Lemma flat_map_ext_in {A B} (f g : A -> list B) l :
  (forall x, In x l -> f x = g x) -> flat_map f l = flat_map g l.
Proof.
  induction l as [|a l IH]; intros H; simpl; auto. rewrite H by (simpl; auto).
  rewrite IH; auto. intros; apply H; simpl; auto.
Qed.

Lemma flat_map_nil {A B} (l : list A) : flat_map (fun _ => @nil B) l = [].
Proof. induction l; auto. Qed.

Lemma rests_local r x t : accepts r (fst x) = false -> forall l,
  rests r (l ++ x :: t) = map (fun k => k ++ x :: t) (rests r l).
Proof.
  induction r as [p|a IHa b IHb|a IHa|a IHa]; intros Hx l; cbn [accepts] in Hx; cbn [rests].
  - destruct l as [|(c, n) l]; cbn [app].
    + destruct x as [c n]. cbn [fst] in Hx. rewrite Hx. reflexivity.
    + destruct (p c); reflexivity.
  - apply orb_false_iff in Hx. destruct Hx as [Hxa Hxb].
    rewrite IHa, flat_map_map, map_flat_map by auto. apply flat_map_ext. auto.
  - rewrite IHa, map_app by auto. reflexivity.
  - set (sfx := x :: t).
    assert (G : forall f l, (length l <= f)%nat ->
      star_rests (rests a) (length (l ++ sfx)) (l ++ sfx)
      = map (fun k => k ++ sfx) (star_rests (rests a) f l)).
    { clear l. induction f as [|f IH]; intros l Hf.
      - destruct l; [|simpl in Hf; lia]. cbn [app star_rests map].
        assert (E0 : rests a sfx = map (fun k => k ++ sfx) (rests a [])) by (apply (IHa Hx [])).
        assert (E1 : rests a [] = [] \/ forall k, In k (rests a []) -> k = []).
        { right. intros k Hk. apply rests_sound in Hk. destruct Hk as (m & E & _).
          symmetry in E. apply app_eq_nil in E. tauto. }
        unfold sfx at 1. cbn [length star_rests]. fold sfx. rewrite E0, flat_map_map.
        rewrite (flat_map_ext_in _ (fun _ => [])).
        { rewrite flat_map_nil. reflexivity. }
        intros k Hk. destruct E1 as [E1|E1]; [rewrite E1 in Hk; destruct Hk|].
        rewrite (E1 k Hk). cbn [app]. rewrite Nat.ltb_irrefl. reflexivity.
      - rewrite (star_rests_fuel _ (length (l ++ sfx)) (S (length (l ++ sfx)))) by lia.
        cbn [star_rests]. rewrite map_app. f_equal. rewrite (IHa Hx), flat_map_map, map_flat_map.
        apply flat_map_ext_in. intros k Hk.
        cbv beta. rewrite !app_length.
        assert (E : Nat.ltb (length k + length sfx) (length l + length sfx) = Nat.ltb (length k) (length l)).
        { destruct (Nat.ltb_spec (length k) (length l)), (Nat.ltb_spec (length k + length sfx) (length l + length sfx)); auto; lia. }
        change (x :: t) with sfx. rewrite E. destruct (Nat.ltb_spec (length k) (length l)) as [L|L]; auto.
        rewrite <- IH by lia. rewrite <- app_length. apply star_rests_fuel; rewrite !app_length; lia. }
    apply G. lia.
Qed.

(** ** Character classes *)

Lemma oneof_dec set r : {oneof set r} + {~ oneof set r}.
Proof. apply in_dec. apply Z.eq_dec. Defined.

Lemma oneof_b set r : oneof set r <-> existsb (Z.eqb r) (map bv (lit set)) = true.
Proof.
  unfold oneof. rewrite existsb_exists. split.
  - intros H. exists r. split; auto. apply Z.eqb_refl.
  - intros (x & H & E). apply Z.eqb_eq in E. subst; auto.
Qed.

Ltac class_tac := rewrite oneof_b;
  match goal with |- context [map bv (lit ?s)] =>
    let v := eval vm_compute in (map bv (lit s)) in change (map bv (lit s)) with v end;
  cbn [existsb]; unfold is_digit, is_punct, is_final, inb; split; intros; lia.

Lemma is_digit_spec r : is_digit r = true <-> oneof digits r.
Proof. class_tac. Qed.
Lemma is_punct_spec r : is_punct r = true <-> oneof punctuation r.
Proof. class_tac. Qed.
Lemma is_final_spec r : is_final r = true <-> oneof finals r.
Proof. class_tac. Qed.

(** ** Grammar *)

Lemma Lang_cls p w : Lang (Cls p) w -> exists c, w = [c] /\ p c = true.
Proof. inversion 1; subst. eauto. Qed.
Lemma Lang_seq a b w : Lang (Seq a b) w -> exists u v, w = u ++ v /\ Lang a u /\ Lang b v.
Proof. inversion 1; subst. eauto. Qed.
Lemma Lang_opt a w : Lang (Opt a) w -> w = [] \/ Lang a w.
Proof. inversion 1; subst; auto. Qed.

Lemma Lang_star_cls p w : Lang (Star (Cls p)) w <-> Forall (fun c => p c = true) w.
Proof.
  split.
  - remember (Star (Cls p)) as r. induction 1; try discriminate; [constructor|].
    injection Heqr as ->. apply Lang_cls in H. destruct H as (c & -> & Hc). constructor; auto.
  - induction 1 as [|c w Hc Hw IH]; [constructor|]. apply (L_star1 _ [c]); auto. constructor; auto.
Qed.

Lemma Lang_rep1_4 p w : Lang (rep1_4 (Cls p)) w <->
  Forall (fun c => p c = true) w /\ (1 <= length w <= 4)%nat.
Proof.
  unfold rep1_4. split.
  - intros H.
    repeat match goal with
    | H : Lang (Seq _ _) _ |- _ => apply Lang_seq in H; destruct H as (? & ? & -> & ? & ?)
    | H : Lang (Opt _) _ |- _ => apply Lang_opt in H; destruct H as [->|H]
    | H : Lang (Cls _) _ |- _ => apply Lang_cls in H; destruct H as (? & -> & ?)
    end; simpl; (split; [repeat constructor; auto|lia]).
  - intros [H L]. destruct w as [|c1 [|c2 [|c3 [|c4 [|c5 w]]]]]; simpl in L; try lia;
      repeat match goal with H : Forall _ (_ :: _) |- _ => inversion H; clear H; subst end.
    + apply (L_seq _ _ [c1] []); repeat constructor; auto.
    + apply (L_seq _ _ [c1] [c2]); [constructor; auto|]. apply L_opt1.
      apply (L_seq _ _ [c2] []); repeat constructor; auto.
    + apply (L_seq _ _ [c1] [c2; c3]); [constructor; auto|]. apply L_opt1.
      apply (L_seq _ _ [c2] [c3]); [constructor; auto|]. apply L_opt1.
      apply (L_seq _ _ [c3] []); repeat constructor; auto.
    + apply (L_seq _ _ [c1] [c2; c3; c4]); [constructor; auto|]. apply L_opt1.
      apply (L_seq _ _ [c2] [c3; c4]); [constructor; auto|]. apply L_opt1.
      apply (L_seq _ _ [c3] [c4]); [constructor; auto|]. apply L_opt1. constructor; auto.
Qed.

Lemma Forall_iff {A} (P Q : A -> Prop) l : (forall x, P x <-> Q x) -> Forall P l <-> Forall Q l.
Proof. intros H. rewrite !Forall_forall. split; intros K x Hx; apply H; auto. Qed.

Lemma Lang_digits1 w : Lang (rep1_4 (Cls is_digit)) w <-> Digits1 w.
Proof. rewrite Lang_rep1_4. unfold Digits1. rewrite (Forall_iff _ _ _ is_digit_spec). tauto. Qed.

Lemma Lang_digits0 w : Lang (rep0_4 (Cls is_digit)) w <-> Digits0 w.
Proof.
  unfold rep0_4, Digits0. split.
  - intros H. apply Lang_opt in H. destruct H as [->|H].
    + split; [constructor|simpl; lia].
    + apply Lang_digits1 in H. destruct H; split; auto; lia.
  - intros [H L]. destruct w as [|c w]; [constructor|]. apply L_opt1. apply Lang_digits1.
    split; auto. cbn [length] in *. lia.
Qed.

Lemma Lang_more w :
  Lang (Star (Seq (Cls is_semi) (rep0_4 (Cls is_digit)))) w <-> MoreParams w.
Proof.
  split.
  - remember (Star _) as r. induction 1; try discriminate; [constructor|].
    injection Heqr as ->. apply Lang_seq in H. destruct H as (s & ds & -> & Hs & Hd).
    apply Lang_cls in Hs. destruct Hs as (c & -> & Hc). unfold is_semi in Hc.
    assert (c = 59) by lia. subst c. cbn [app]. rewrite <- ?app_assoc.
    constructor; [apply Lang_digits0; auto|auto].
  - induction 1 as [|ds l Hd Hl IH]; [constructor|].
    change (59 :: ds ++ l) with (([59] ++ ds) ++ l). apply L_star1; auto.
    apply L_seq; [constructor; reflexivity|apply Lang_digits0; auto].
Qed.

Definition paramsRE : re :=
  Opt (Seq (rep1_4 (Cls is_digit)) (Star (Seq (Cls is_semi) (rep0_4 (Cls is_digit))))).

Lemma Lang_params w : Lang paramsRE w <-> Params w.
Proof.
  unfold paramsRE. split.
  - intros H. apply Lang_opt in H. destruct H as [->|H]; [constructor|].
    apply Lang_seq in H. destruct H as (u & v & -> & Hu & Hv). constructor.
    + apply Lang_digits1; auto.
    + apply Lang_more; auto.
  - intros H. destruct H as [|ds l Hd Hl]; [constructor|]. apply L_opt1. apply L_seq.
    + apply Lang_digits1; auto.
    + apply Lang_more; auto.
Qed.

Definition tailRE : re := Seq (Star (Cls is_punct)) (Seq paramsRE (Cls is_final)).

Lemma ansi_tail : ansiEscapeRE = Seq (Cls is_intro) tailRE.
Proof. reflexivity. Qed.

Lemma Lang_ansi w : Lang ansiEscapeRE w <-> Escape w.
Proof.
  rewrite ansi_tail. unfold tailRE. split.
  - intros H. apply Lang_seq in H. destruct H as (i & t & -> & Hi & H).
    apply Lang_seq in H. destruct H as (ps & t' & -> & Hp & H).
    apply Lang_seq in H. destruct H as (pr & f & -> & Hpr & H).
    apply Lang_cls in Hi. destruct Hi as (ci & -> & Hi).
    apply Lang_cls in H. destruct H as (cf & -> & Hf).
    cbn [app]. constructor.
    + unfold is_intro in Hi. lia.
    + apply Lang_star_cls in Hp. rewrite <- (Forall_iff _ _ _ is_punct_spec). auto.
    + apply Lang_params; auto.
    + apply is_final_spec; auto.
  - intros H. destruct H as [i ps pr f Hi Hp Hpr Hf].
    apply (L_seq _ _ [i]). { constructor. unfold is_intro. lia. }
    apply L_seq. { apply Lang_star_cls. rewrite (Forall_iff _ _ _ is_punct_spec). auto. }
    apply L_seq. { apply Lang_params; auto. }
    constructor. apply is_final_spec; auto.
Qed.

(** ** The preferred match is the longest *)

Definition shorter (a b : input) : Prop := (length a <= length b)%nat.
Definition ordered (ls : list input) : Prop := StronglySorted shorter ls.

Definition starts (p : Z -> bool) (l : input) : Prop :=
  exists c n l', l = (c, n) :: l' /\ p c = true.

Lemma ordered_nil : ordered [].
Proof. constructor. Qed.

Lemma ordered_app xs ys : ordered xs -> ordered ys ->
  (forall x y, In x xs -> In y ys -> shorter x y) -> ordered (xs ++ ys).
Proof.
  intros Hx Hy H. induction Hx as [|x xs Hx IH Hf]; auto. cbn [app]. constructor.
  - apply IH. intros; apply H; simpl; auto.
  - apply Forall_app. split; auto. apply Forall_forall. intros y Hin. apply H; simpl; auto.
Qed.

Lemma ordered_single x : ordered [x].
Proof. repeat constructor. Qed.

Lemma rests_shorter r l rem : In rem (rests r l) -> shorter rem l.
Proof.
  intros H. apply rests_sound in H. destruct H as (m & -> & _). unfold shorter.
  rewrite app_length. lia.
Qed.

(** Digits: greedy, and every shorter alternative leaves a digit in front. *)
Definition digit_shape (ls : list input) : Prop :=
  ls = [] \/ exists rem others, ls = rem :: others /\ Forall (starts is_digit) others
                             /\ ordered (rem :: others).

Ltac fst_digits :=
  repeat (apply Forall_cons; [eexists _, _, _; split; [reflexivity|assumption]|]); apply Forall_nil.
Ltac ord := repeat (constructor; unfold shorter; cbn [length]); lia.

Lemma rep1_4_shape l : digit_shape (rests (rep1_4 (Cls is_digit)) l).
Proof.
  unfold rep1_4. cbn [rests].
  destruct l as [|(c1, n1) l]; [left; reflexivity|].
  destruct (is_digit c1) eqn:E1; [|left; reflexivity]. right.
  assert (OS : forall a : input, ordered [a]) by apply ordered_single.
  destruct l as [|(c2, n2) l].
  { cbn. eexists _, _. split; [reflexivity|]. split; [constructor|ord]. }
  cbn [flat_map app rests]. destruct (is_digit c2) eqn:E2.
  2:{ cbn [flat_map app]. eexists _, _. split; [reflexivity|]. split; [constructor|ord]. }
  destruct l as [|(c3, n3) l].
  { cbn. eexists _, _. split; [reflexivity|].
    split; [fst_digits|ord]. }
  cbn [flat_map app rests]. destruct (is_digit c3) eqn:E3.
  2:{ cbn [flat_map app]. eexists _, _. split; [reflexivity|].
      split; [fst_digits|ord]. }
  destruct l as [|(c4, n4) l].
  { cbn. eexists _, _. split; [reflexivity|].
    split; [fst_digits|ord]. }
  cbn [flat_map app rests]. destruct (is_digit c4) eqn:E4; cbn [flat_map app];
    (eexists _, _; split; [reflexivity|];
     split; [fst_digits|ord]).
Qed.

Lemma rep0_4_shape l : exists rem others, rests (rep0_4 (Cls is_digit)) l = rem :: others
  /\ Forall (starts is_digit) others /\ ordered (rem :: others).
Proof.
  unfold rep0_4. cbn [rests]. destruct (rep1_4_shape l) as [->|(rem & others & E & Hd & Ho)].
  - exists l, []. split; [reflexivity|]. split; [constructor|ord].
  - assert (Hin : In rem (rests (rep1_4 (Cls is_digit)) l)) by (rewrite E; simpl; auto).
    assert (Hs : starts is_digit l).
    { apply rests_sound in Hin. destruct Hin as (m & -> & Hm). apply Lang_rep1_4 in Hm.
      destruct Hm as [Hm L]. destruct m as [|(c, n) m]; [simpl in L; lia|].
      inversion Hm; subst. exists c, n, (m ++ rem). auto. }
    exists rem, (others ++ [l]). rewrite E. split; [reflexivity|]. split.
    + apply Forall_app. split; auto.
    + change (rem :: others ++ [l]) with ((rem :: others) ++ [l]). apply ordered_app; auto.
      * apply ordered_single.
      * intros x y Hx [<-|[]]. rewrite <- E in Hx. eapply rests_shorter; eauto.
Qed.

Lemma star_shorter step f : (forall l rem, In rem (step l) -> shorter rem l) ->
  forall l rem, In rem (star_rests step f l) -> shorter rem l.
Proof.
  intros H. induction f as [|f IH]; intros l rem Hin; cbn [star_rests] in Hin.
  - destruct Hin as [<-|[]]. unfold shorter. lia.
  - apply in_app_or in Hin. destruct Hin as [Hin|[<-|[]]]; [|unfold shorter; lia].
    apply in_flat_map in Hin. destruct Hin as (l' & H1 & H2).
    destruct (Nat.ltb _ _); [|destruct H2]. specialize (IH _ _ H2). specialize (H _ _ H1).
    unfold shorter in *. lia.
Qed.

Definition moreRE : re := Seq (Cls is_semi) (rep0_4 (Cls is_digit)).

Lemma digit_not_semi c : is_digit c = true -> is_semi c = false.
Proof. unfold is_digit, is_semi, inb. lia. Qed.

Lemma more_on_digit l : starts is_digit l -> rests moreRE l = [].
Proof.
  intros (c & n & l' & -> & H). unfold moreRE. cbn [rests]. rewrite digit_not_semi; auto.
Qed.

Lemma star_more_on_digit f l : starts is_digit l -> star_rests (rests moreRE) f l = [l].
Proof. intros H. destruct f; auto. cbn [star_rests]. rewrite more_on_digit; auto. Qed.

(** [rem :: others] with only the head able to continue. *)
Lemma continue_ordered (g : input -> list input) rem others :
  Forall (starts is_digit) others -> ordered (rem :: others) ->
  ordered (g rem) -> (forall x, In x (g rem) -> shorter x rem) ->
  (forall x, starts is_digit x -> g x = [x] \/ g x = []) ->
  ordered (flat_map g (rem :: others)).
Proof.
  intros Hd Ho Hg Hs Hx. cbn [flat_map]. inversion Ho as [|? ? Ho1 Ho2]; subst.
  apply ordered_app; auto.
  - clear Ho Ho2. induction Ho1 as [|x xs H1 IH H2]; [constructor|].
    inversion Hd; subst. cbn [flat_map]. destruct (Hx x) as [->| ->]; auto.
    + cbn [app]. constructor; [apply IH; auto|]. apply Forall_forall. intros y Hy. rewrite Forall_forall in H2, H4.
      apply in_flat_map in Hy. destruct Hy as (z & Hz & Hy).
      destruct (Hx z) as [E|E]; auto; rewrite E in Hy; [|destruct Hy].
      destruct Hy as [<-|[]]. auto.
  - intros x y Hin Hy. apply in_flat_map in Hy. destruct Hy as (z & Hz & Hy).
    rewrite Forall_forall in Hd, Ho2.
    destruct (Hx z) as [E|E]; auto; rewrite E in Hy; [|destruct Hy].
    destruct Hy as [<-|[]]. specialize (Hs x Hin). specialize (Ho2 z Hz). unfold shorter in *. lia.
Qed.

Lemma star_more_ordered f : forall l, ordered (star_rests (rests moreRE) f l).
Proof.
  induction f as [|f IH]; intros l; cbn [star_rests]; [apply ordered_single|].
  apply ordered_app; [|apply ordered_single|].
  2:{ intros x y Hx [<-|[]]. apply in_flat_map in Hx. destruct Hx as (z & Hz & Hx).
      destruct (Nat.ltb _ _); [|destruct Hx]. apply star_shorter in Hx; [|apply rests_shorter].
      apply rests_shorter in Hz. unfold shorter in *. lia. }
  unfold moreRE at 2. cbn [rests]. destruct l as [|(c, n) l]; [constructor|].
  destruct (is_semi c); [|constructor]. cbn [flat_map]. rewrite app_nil_r.
  destruct (rep0_4_shape l) as (rem & others & E & Hd & Ho). rewrite E.
  apply continue_ordered; auto.
  - destruct (Nat.ltb _ _); [apply IH|constructor].
  - intros x Hx. destruct (Nat.ltb _ _); [|destruct Hx].
    apply star_shorter in Hx; auto. apply rests_shorter.
  - intros x Hx. destruct (Nat.ltb _ _); auto. left. apply star_more_on_digit; auto.
Qed.

Lemma params_ordered l : ordered (rests paramsRE l).
Proof.
  unfold paramsRE. cbn [rests]. fold moreRE.
  apply ordered_app; [|apply ordered_single|].
  2:{ intros x y Hx [<-|[]]. change (flat_map _ _) with
        (rests (Seq (rep1_4 (Cls is_digit)) (Star moreRE)) l) in Hx. eapply rests_shorter; eauto. }
  destruct (rep1_4_shape l) as [->|(rem & others & E & Hd & Ho)]; [constructor|].
  rewrite E. apply continue_ordered; auto.
  - apply star_more_ordered.
  - intros x Hx. apply (star_shorter (rests moreRE)) in Hx; auto. apply (rests_shorter moreRE).
  - intros x Hx. left. apply star_more_on_digit; auto.
Qed.

Lemma cls_ordered p ls : ordered ls -> ordered (flat_map (rests (Cls p)) ls).
Proof.
  induction 1 as [|x xs H IH Hf]; [constructor|]. cbn [flat_map].
  apply ordered_app; auto.
  - cbn [rests]. destruct x as [|(c, n) x]; [constructor|]. destruct (p c); [apply ordered_single|constructor].
  - intros a b Ha Hb. apply in_flat_map in Hb. destruct Hb as (z & Hz & Hb).
    rewrite Forall_forall in Hf. specialize (Hf z Hz). cbn [rests] in *.
    destruct x as [|(c, n) x]; [destruct Ha|]. destruct (p c); [|destruct Ha].
    destruct z as [|(c', n') z]; [destruct Hb|]. destruct (p c'); [|destruct Hb].
    destruct Ha as [<-|[]], Hb as [<-|[]]. unfold shorter in *. cbn [length] in *. lia.
Qed.

Definition bodyRE : re := Seq paramsRE (Cls is_final).

Lemma body_on_punct l : starts is_punct l -> rests bodyRE l = [].
Proof.
  intros (c & n & l' & -> & H). unfold bodyRE, paramsRE, rep1_4. cbn [rests].
  assert (is_digit c = false) as -> by (unfold is_digit, is_punct, inb in *; lia).
  cbn [flat_map app rests].
  assert (is_final c = false) as -> by (unfold is_final, is_punct, inb in *; lia).
  reflexivity.
Qed.

Lemma star_punct_shape f : forall l, (length l <= f)%nat ->
  exists rem others, star_rests (rests (Cls is_punct)) f l = rem :: others
  /\ Forall (starts is_punct) others.
Proof.
  induction f as [|f IH]; intros l Hf.
  - exists l, []. split; [reflexivity|constructor].
  - cbn [star_rests]. destruct l as [|(c, n) l].
    + exists [], []. split; [reflexivity|constructor].
    + change (rests (Cls is_punct) ((c, n) :: l)) with (if is_punct c then [l] else []).
      destruct (is_punct c) eqn:E.
      * cbn [flat_map]. rewrite app_nil_r. cbn [length] in Hf.
        destruct (Nat.ltb_spec (length l) (length ((c, n) :: l))) as [L|L]; [|cbn [length] in L; lia].
        destruct (IH l ltac:(lia)) as (rem & others & -> & Ho).
        exists rem, (others ++ [(c, n) :: l]). split; [reflexivity|]. apply Forall_app. split; auto.
        constructor; [|constructor]. exists c, n. eauto.
      * exists ((c, n) :: l), []. split; [reflexivity|constructor].
Qed.

Lemma tail_ordered l : ordered (rests tailRE l).
Proof.
  change (rests tailRE l) with
    (flat_map (rests bodyRE) (star_rests (rests (Cls is_punct)) (length l) l)).
  destruct (star_punct_shape (length l) l ltac:(lia)) as (rem & others & -> & Ho).
  cbn [flat_map]. rewrite (flat_map_ext_in (rests bodyRE) (fun _ => []) others).
  2:{ intros x Hx. rewrite Forall_forall in Ho. apply body_on_punct; auto. }
  rewrite flat_map_nil, app_nil_r.
  change (rests bodyRE rem) with (flat_map (rests (Cls is_final)) (rests paramsRE rem)).
  apply cls_ordered. apply params_ordered.
Qed.

Lemma ansi_ordered l : ordered (rests ansiEscapeRE l).
Proof.
  destruct l as [|(c, n) l]; [constructor|].
  change (rests ansiEscapeRE ((c, n) :: l)) with
    (flat_map (rests tailRE) (if is_intro c then [l] else [])).
  destruct (is_intro c); [|constructor]. cbn [flat_map]. rewrite app_nil_r. apply tail_ordered.
Qed.

(** The preferred match at the front of a text: the longest escape sequence
    that is a prefix of it. *)
Lemma match_front_some l rem tl : rests ansiEscapeRE l = rem :: tl ->
  exists m, l = m ++ rem /\ Escape (map fst m)
  /\ (forall m' rest', l = m' ++ rest' -> Escape (map fst m') -> (length m' <= length m)%nat).
Proof.
  intros E. assert (Hin : In rem (rests ansiEscapeRE l)) by (rewrite E; simpl; auto).
  apply rests_sound in Hin. destruct Hin as (m & -> & Hm). exists m. split; auto.
  split; [apply Lang_ansi; auto|]. intros m' rest' El Hm'.
  apply Lang_ansi in Hm'. pose proof (rests_complete _ m' rest' Hm') as Hin.
  rewrite <- El, E in Hin. pose proof (ansi_ordered (m ++ rem)) as Ho. rewrite E in Ho.
  apply (f_equal (@length _)) in El. rewrite !app_length in El.
  destruct Hin as [->|Hin].
  - lia.
  - inversion Ho as [|? ? _ Hf]; subst. rewrite Forall_forall in Hf. specialize (Hf _ Hin).
    unfold shorter in Hf. lia.
Qed.

Lemma match_front_none l : rests ansiEscapeRE l = [] ->
  forall m rest, l = m ++ rest -> ~ Escape (map fst m).
Proof.
  intros E m rest -> Hm. apply Lang_ansi in Hm. pose proof (rests_complete _ m rest Hm) as Hin.
  rewrite E in Hin. destruct Hin.
Qed.

Lemma Escape_nonempty w : Escape w -> w <> [].
Proof. destruct 1. congruence. Qed.

Lemma Escape_length2 w : Escape w -> (2 <= length w)%nat.
Proof. destruct 1. cbn [length]. rewrite !app_length. simpl. lia. Qed.
