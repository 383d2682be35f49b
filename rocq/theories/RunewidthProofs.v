(** * RunewidthProofs: rune widths, lookup table, environment handling. *)
From Verif Require Import GoBase Utf8 IntervalSpec Pointwise TableProofs Runewidth
  RuneWidthData RunewidthSpec ConditionSpec.
From Coq Require Import ZifyBool ZifyNat.
Local Open Scope Z_scope.
Ltac Zify.zify_post_hook ::= Z.div_mod_to_equations.

Lemma inTable_memb r t : In t rw_tables -> inTable r t = memb r t.
Proof.
  intros Hin. destruct (rw_tables_compact t Hin) as [Hne Hc].
  pose proof (inTable_spec t r Hne (Compact_Sorted t Hc)) as H1.
  pose proof (memb_Member r t) as H2.
  destruct (inTable r t), (memb r t); auto; [symmetry|]; tauto.
Qed.

Ltac in_rw := unfold rw_tables; simpl; tauto.

(** [RuneWidth_tables] with list membership instead of binary search. *)
Definition rwM (eastAsian strictEmoji : bool) (r : Z) : Z :=
  if negb eastAsian then
    if r <? 0x20 then 0
    else if ((r >=? 0x7F) && (r <=? 0x9F)) || (r =? 0xAD) then 0
    else if r <? 0x300 then 1
    else if memb r tbl_narrow then 1
    else if memb r tbl_nonprint || memb r tbl_combining then 0
    else if memb r tbl_doublewidth then 2
    else 1
  else
    if memb r tbl_nonprint || memb r tbl_combining then 0
    else if memb r tbl_narrow then 1
    else if memb r tbl_ambiguous || memb r tbl_doublewidth then 2
    else if negb strictEmoji
            && (memb r tbl_ambiguous || memb r tbl_emoji || memb r tbl_narrow) then 2
    else 1.

Lemma RuneWidth_tables_rwM ea st r : RuneWidth_tables ea st r = rwM ea st r.
Proof.
  unfold RuneWidth_tables, rwM, inTables.
  rewrite !(inTable_memb r) by in_rw.
  destruct (memb r tbl_narrow), (memb r tbl_nonprint), (memb r tbl_combining),
    (memb r tbl_doublewidth), (memb r tbl_ambiguous), (memb r tbl_emoji); reflexivity.
Qed.

Definition rw_cuts : list Z :=
  [0x20; 0x7F; 0xA0; 0xAD; 0xAE; 0x300]
  ++ cuts tbl_narrow ++ cuts tbl_nonprint ++ cuts tbl_combining
  ++ cuts tbl_doublewidth ++ cuts tbl_ambiguous ++ cuts tbl_emoji.

Lemma rw_memb_same r r' : same rw_cuts r r' ->
  memb r tbl_narrow = memb r' tbl_narrow /\ memb r tbl_nonprint = memb r' tbl_nonprint
  /\ memb r tbl_combining = memb r' tbl_combining
  /\ memb r tbl_doublewidth = memb r' tbl_doublewidth
  /\ memb r tbl_ambiguous = memb r' tbl_ambiguous /\ memb r tbl_emoji = memb r' tbl_emoji.
Proof.
  intros H. unfold rw_cuts in H.
  repeat split; apply memb_same; eapply same_incl; try exact H; intros x Hx;
    rewrite !in_app_iff; tauto.
Qed.

Lemma rwM_same ea st r r' : same rw_cuts r r' -> rwM ea st r = rwM ea st r'.
Proof.
  intros H. destruct (rw_memb_same r r' H) as (E1 & E2 & E3 & E4 & E5 & E6).
  assert (S : forall b, In b [0x20; 0x7F; 0xA0; 0xAD; 0xAE; 0x300] -> (b <=? r) = (b <=? r')).
  { intros b Hb. apply H. unfold rw_cuts. apply in_or_app. auto. }
  pose proof (S 0x20 ltac:(simpl; tauto)). pose proof (S 0x7F ltac:(simpl; tauto)).
  pose proof (S 0xA0 ltac:(simpl; tauto)). pose proof (S 0xAD ltac:(simpl; tauto)).
  pose proof (S 0xAE ltac:(simpl; tauto)). pose proof (S 0x300 ltac:(simpl; tauto)).
  unfold rwM. rewrite E1, E2, E3, E4, E5, E6.
  replace (r <? 0x20) with (r' <? 0x20) by lia.
  replace ((r >=? 0x7F) && (r <=? 0x9F) || (r =? 0xAD))
    with ((r' >=? 0x7F) && (r' <=? 0x9F) || (r' =? 0xAD)) by lia.
  replace (r <? 0x300) with (r' <? 0x300) by lia. reflexivity.
Qed.

Lemma rwM_range ea st r : rwM ea st r = 0 \/ rwM ea st r = 1 \/ rwM ea st r = 2.
Proof.
  unfold rwM.
  repeat match goal with |- context [if ?b then _ else _] => destruct b end; auto.
Qed.

(** The plain width as one formula without the shortcuts. *)
Definition plainM (r : Z) : Z :=
  if memb r tbl_nonprint || memb r tbl_combining then 0
  else if memb r tbl_doublewidth then 2 else 1.

Lemma plainM_same r r' : same rw_cuts r r' -> plainM r = plainM r'.
Proof.
  intros H. destruct (rw_memb_same r r' H) as (E1 & E2 & E3 & E4 & E5 & E6).
  unfold plainM. rewrite E2, E3, E4. reflexivity.
Qed.

Lemma rwM_plain st r : 0 <= r -> rwM false st r = plainM r.
Proof.
  intros Hr. apply Z.eqb_eq.
  apply (pointwise (fun r => rwM false st r =? plainM r) rw_cuts 0); [| |exact Hr].
  - intros x y H. rewrite (rwM_same false st x y H), (plainM_same x y H). reflexivity.
  - destruct st; vm_compute; reflexivity.
Qed.

Lemma rwM_mono st st' r : 0 <= r -> rwM false st r <= rwM true st' r.
Proof.
  intros Hr. apply Z.leb_le.
  apply (pointwise (fun r => rwM false st r <=? rwM true st' r) rw_cuts 0); [| |exact Hr].
  - intros x y H. rewrite (rwM_same false st x y H), (rwM_same true st' x y H). reflexivity.
  - destruct st, st'; vm_compute; reflexivity.
Qed.

Lemma memb_reflect r t : reflect (Member r t) (memb r t).
Proof. apply iff_reflect. symmetry. apply memb_Member. Qed.

Lemma plain_spec st r : 0 <= r -> WidthPlain r (RuneWidth_tables false st r).
Proof.
  intros Hr. rewrite RuneWidth_tables_rwM, rwM_plain by auto. unfold plainM.
  destruct (memb_reflect r tbl_nonprint) as [m|n]; cbn [orb].
  { apply wp_invisible. left; auto. }
  destruct (memb_reflect r tbl_combining) as [m'|n'].
  { apply wp_invisible. right; auto. }
  destruct (memb_reflect r tbl_doublewidth) as [w|nw].
  - apply wp_wide; unfold Invisible, Wide; tauto.
  - apply wp_other; unfold Invisible, Wide; tauto.
Qed.

Lemma eastasian_spec st r : WidthEastAsian st r (RuneWidth_tables true st r).
Proof.
  rewrite RuneWidth_tables_rwM. unfold rwM. cbn [negb].
  destruct (memb_reflect r tbl_nonprint); cbn [orb].
  { apply we_invisible. left; auto. }
  destruct (memb_reflect r tbl_combining).
  { apply we_invisible. right; auto. }
  destruct (memb_reflect r tbl_narrow).
  { apply we_narrow; auto. unfold Invisible. tauto. }
  destruct (memb_reflect r tbl_ambiguous); cbn [orb].
  { apply we_wide; auto; unfold Invisible; tauto. }
  destruct (memb_reflect r tbl_doublewidth).
  { apply we_wide; auto; unfold Invisible; tauto. }
  destruct st; cbn [negb andb].
  { apply we_other; auto; unfold Invisible; tauto. }
  destruct (memb_reflect r tbl_emoji); cbn [orb].
  { apply we_emoji; auto; unfold Invisible; tauto. }
  apply we_other; auto; unfold Invisible; tauto.
Qed.

(** The specifications determine the width. *)
Lemma WidthPlain_fun r a b : WidthPlain r a -> WidthPlain r b -> a = b.
Proof. intros H1 H2; destruct H1, H2; tauto. Qed.
Lemma WidthEastAsian_fun st r a b : WidthEastAsian st r a -> WidthEastAsian st r b -> a = b.
Proof. intros H1 H2; destruct H1, H2; try tauto; try congruence;
  repeat match goal with H : _ \/ _ |- _ => destruct H end; try tauto; congruence. Qed.

(** ** Lookup table *)

(** The condition without a lookup table. *)
Definition noLut (c : Condition) : Condition :=
  {| combinedLut := []; EastAsianWidth := EastAsianWidth c;
     StrictEmojiNeutral := StrictEmojiNeutral c |}.

Definition FullLut : nat := Z.to_nat 557056.

Lemma RuneWidth_noLut c r : RuneWidth (noLut c) r =
  if (r <? 0) || (r >? 0x10FFFF) then 0
  else rwM (EastAsianWidth c) (StrictEmojiNeutral c) r.
Proof. unfold RuneWidth, noLut. cbn [combinedLut slen length]. simpl (0 <? _).
  cbn [EastAsianWidth StrictEmojiNeutral]. rewrite RuneWidth_tables_rwM. reflexivity. Qed.

Lemma RuneWidth_noLut_range c r :
  RuneWidth (noLut c) r = 0 \/ RuneWidth (noLut c) r = 1 \/ RuneWidth (noLut c) r = 2.
Proof.
  rewrite RuneWidth_noLut. destruct (_ || _); auto. apply rwM_range.
Qed.

Definition lut_entry (x0 x1 : Z) : Z := Z.lor (u8 x0) (u8 (Z.shiftl (u8 x1) 4)).

Lemma lut_entry_get x0 x1 :
  (x0 = 0 \/ x0 = 1 \/ x0 = 2) -> (x1 = 0 \/ x1 = 1 \/ x1 = 2) ->
  Z.land (Z.shiftr (lut_entry x0 x1) (0 * 4)) 3 = x0
  /\ Z.land (Z.shiftr (lut_entry x0 x1) (1 * 4)) 3 = x1.
Proof.
  intros [->|[->| ->]] [->|[->| ->]]; vm_compute; auto.
Qed.

Lemma nth_map_seq (f : nat -> Z) n i d : (i < n)%nat -> nth i (map f (seq 0 n)) d = f i.
Proof.
  intros H. rewrite nth_indep with (d' := f 0%nat) by (rewrite map_length, seq_length; auto).
  rewrite map_nth. rewrite seq_nth by auto. f_equal. 
Qed.

Lemma CreateLUT_length c : combinedLut c = [] \/ length (combinedLut c) = FullLut ->
  length (combinedLut (CreateLUT c)) = FullLut.
Proof.
  intros H. unfold CreateLUT. cbn [combinedLut]. rewrite map_length, seq_length.
  destruct H as [H|H]; rewrite H; [reflexivity|].
  unfold slen. rewrite H. destruct (_ =? 0); reflexivity.
Qed.

Lemma CreateLUT_flags c :
  EastAsianWidth (CreateLUT c) = EastAsianWidth c /\
  StrictEmojiNeutral (CreateLUT c) = StrictEmojiNeutral c.
Proof. split; reflexivity. Qed.

Lemma land1_mod r : Z.land r 1 = r mod 2.
Proof. change 1 with (Z.ones 1) at 1. rewrite Z.land_ones by lia. reflexivity. Qed.

Lemma CreateLUT_nth c i : combinedLut c = [] \/ length (combinedLut c) = FullLut ->
  (i < FullLut)%nat ->
  nth i (combinedLut (CreateLUT c)) 0 =
  lut_entry (RuneWidth (noLut c) (Z.of_nat i * 2)) (RuneWidth (noLut c) (Z.of_nat i * 2 + 1)).
Proof.
  intros H Hi. pose proof (CreateLUT_length c H) as HL.
  unfold CreateLUT in *. cbn [combinedLut] in *.
  rewrite map_length, seq_length in HL. rewrite HL.
  rewrite nth_map_seq by auto. reflexivity.
Qed.

Lemma FullLut_Z : Z.of_nat FullLut = 557056.
Proof. unfold FullLut. rewrite Z2Nat.id; lia. Qed.

Lemma RuneWidth_CreateLUT c r : combinedLut c = [] \/ length (combinedLut c) = FullLut ->
  RuneWidth (CreateLUT c) r = RuneWidth (noLut c) r.
Proof.
  intros H. destruct ((r <? 0) || (r >? 0x10FFFF)) eqn:E.
  - unfold RuneWidth. rewrite E. reflexivity.
  - pose proof (CreateLUT_length c H) as HL. pose proof FullLut_Z as HF.
    assert (R : RuneWidth (CreateLUT c) r =
      Z.land (Z.shiftr (nth (Z.to_nat (Z.shiftr r 1)) (combinedLut (CreateLUT c)) 0)
                     (Z.land r 1 * 4)) 3).
    { unfold RuneWidth at 1. rewrite E.
      replace (0 <? slen (combinedLut (CreateLUT c))) with true; auto.
      unfold slen. rewrite HL. lia. }
    rewrite R.
    rewrite Z.shiftr_div_pow2 with (n := 1) by lia. change (2 ^ 1) with 2.
    assert (Hidx : (Z.to_nat (r / 2) < FullLut)%nat).
    { clear HL R. revert HF. generalize FullLut as N. intros N HF. lia. }
    rewrite CreateLUT_nth; [|exact H|exact Hidx]. clear HL R HF Hidx H.
    rewrite Z2Nat.id by lia. rewrite land1_mod.
    pose proof (RuneWidth_noLut_range c (r / 2 * 2)) as R0.
    pose proof (RuneWidth_noLut_range c (r / 2 * 2 + 1)) as R1.
    destruct (lut_entry_get _ _ R0 R1) as [G0 G1].
    assert (r mod 2 = 0 \/ r mod 2 = 1) as [e|e] by lia; rewrite e.
    + rewrite G0. f_equal. lia.
    + rewrite G1. f_equal. lia.
Qed.

Lemma Reachable_lut c : Reachable c -> combinedLut c = [] \/ length (combinedLut c) = FullLut.
Proof.
  induction 1 as [ea st|c H IH|c ea st H IH].
  - left. reflexivity.
  - right. apply CreateLUT_length. exact IH.
  - exact IH.
Qed.

(** The lookup table in force is the one for some flags. *)
Lemma Reachable_width c : Reachable c -> exists ea st, forall r,
  RuneWidth c r = RuneWidth {| combinedLut := []; EastAsianWidth := ea; StrictEmojiNeutral := st |} r.
Proof.
  intros H. assert (combinedLut c = [] \/ exists d, Reachable d /\ combinedLut c = combinedLut (CreateLUT d)) as K.
  { induction H as [ea st|c H IH|c ea st H IH].
    - left. reflexivity.
    - right. exists c. split; [exact H|reflexivity].
    - exact IH. }
  destruct K as [K|(d & Hd & K)].
  - exists (EastAsianWidth c), (StrictEmojiNeutral c). intros r.
    destruct c as [lut ea st]; cbn [combinedLut EastAsianWidth StrictEmojiNeutral] in *.
    rewrite K. reflexivity.
  - exists (EastAsianWidth d), (StrictEmojiNeutral d). intros r.
    change {| combinedLut := []; EastAsianWidth := EastAsianWidth d;
              StrictEmojiNeutral := StrictEmojiNeutral d |} with (noLut d).
    rewrite <- (RuneWidth_CreateLUT d r (Reachable_lut d Hd)).
    pose proof (CreateLUT_length d (Reachable_lut d Hd)) as HL.
    pose proof FullLut_Z as HF.
    unfold RuneWidth. rewrite K.
    replace (0 <? slen (combinedLut (CreateLUT d))) with true; [reflexivity|].
    unfold slen. rewrite HL. lia.
Qed.

Lemma Reachable_range c r : Reachable c ->
  RuneWidth c r = 0 \/ RuneWidth c r = 1 \/ RuneWidth c r = 2.
Proof.
  intros H. destruct (Reachable_width c H) as (ea & st & E). rewrite E.
  apply (RuneWidth_noLut_range
    {| combinedLut := []; EastAsianWidth := ea; StrictEmojiNeutral := st |}).
Qed.

(** The table lookup never leaves the table. *)
Lemma lut_index_in_range c r : Reachable c -> combinedLut c <> [] -> 0 <= r <= 0x10FFFF ->
  (Z.to_nat (Z.shiftr r 1) < length (combinedLut c))%nat.
Proof.
  intros H Hne Hr. destruct (Reachable_lut c H) as [E|E]; [congruence|].
  rewrite E. clear E. pose proof FullLut_Z as HF. revert HF. generalize FullLut as N.
  intros N HF. rewrite Z.shiftr_div_pow2 by lia. change (2 ^ 1) with 2. lia.
Qed.

(** ** Histories of handleEnv / CreateLUT *)

Definition env_inv (g : Globals) (ea : bool) : Prop :=
  gEastAsianWidth g = ea /\ gStrictEmojiNeutral g = true /\
  EastAsianWidth (DefaultCondition g) = ea /\
  StrictEmojiNeutral (DefaultCondition g) = true /\
  (combinedLut (DefaultCondition g) = [] \/
   exists d, combinedLut d = [] /\ DefaultCondition g = CreateLUT d).

Lemma env_inv_step g ea o : env_inv g ea ->
  env_inv (env_step g o) (match o with OpEnv e l => env_choice e l | OpLUT => ea end).
Proof.
  intros (H1 & H2 & H3 & H4 & H5).
  assert (Hpos : forall d, combinedLut d = [] ->
            (0 <? slen (combinedLut (CreateLUT d))) = true).
  { intros d Hd. unfold slen. rewrite (CreateLUT_length d (or_introl Hd)).
    pose proof FullLut_Z. lia. }
  destruct o as [env loc|]; cbn [env_step].
  - unfold handleEnv. fold (env_choice env loc). set (b := env_choice env loc).
    destruct (Bool.eqb (EastAsianWidth (DefaultCondition g)) b) eqn:Eb; cbn [negb].
    + apply eqb_prop in Eb. unfold env_inv; cbn [gEastAsianWidth gStrictEmojiNeutral DefaultCondition].
      repeat split; auto.
    + cbn [combinedLut]. destruct H5 as [H5|(d & Hd & H5)].
      * rewrite H5. cbn [slen length]. simpl (0 <? _).
        unfold env_inv; cbn [gEastAsianWidth gStrictEmojiNeutral DefaultCondition
          combinedLut EastAsianWidth StrictEmojiNeutral]. repeat split; auto.
      * rewrite H5, (Hpos d Hd). rewrite <- H5.
        unfold CreateLUT_default. cbn [DefaultCondition combinedLut slen length].
        simpl (0 <? _).
        unfold env_inv; cbn [gEastAsianWidth gStrictEmojiNeutral DefaultCondition].
        split; [reflexivity|]. split; [exact H2|]. split; [reflexivity|].
        split; [exact H4|]. right. eexists. split; [|reflexivity]. reflexivity.
  - unfold CreateLUT_default. destruct H5 as [H5|(d & Hd & H5)].
    + rewrite H5. cbn [slen length]. simpl (0 <? _).
      unfold env_inv; cbn [gEastAsianWidth gStrictEmojiNeutral DefaultCondition].
      split; [exact H1|]. split; [exact H2|]. split; [exact H3|]. split; [exact H4|].
      right. exists (DefaultCondition g). auto.
    + rewrite H5, (Hpos d Hd). unfold env_inv. repeat split; auto. right; eauto.
Qed.

Lemma env_inv_run ops : forall g ea, env_inv g ea ->
  env_inv (fold_left env_step ops g) (last_choice_from ea ops).
Proof.
  induction ops as [|o ops IH]; intros g ea H; cbn [fold_left last_choice_from]; auto.
  pose proof (IH _ _ (env_inv_step g ea o H)) as K. destruct o; exact K.
Qed.

Lemma env_history ops r :
  let g := fold_left env_step ops globals0 in
  gEastAsianWidth g = last_choice ops /\
  EastAsianWidth (DefaultCondition g) = last_choice ops /\
  RuneWidth (DefaultCondition g) r =
  RuneWidth {| combinedLut := []; EastAsianWidth := last_choice ops;
               StrictEmojiNeutral := true |} r.
Proof.
  intros g. assert (I : env_inv globals0 false).
  { unfold env_inv, globals0; simpl. tauto. }
  pose proof (env_inv_run ops globals0 false I) as (H1 & H2 & H3 & H4 & H5).
  fold g in H1, H2, H3, H4, H5. fold (last_choice ops) in H1, H3.
  split; [exact H1|]. split; [exact H3|].
  destruct H5 as [H5|(d & Hd & H5)].
  - destruct (DefaultCondition g) as [lut ea st]; cbn [combinedLut EastAsianWidth StrictEmojiNeutral] in *.
    rewrite H5, H3, H4. reflexivity.
  - rewrite H5 in *. rewrite RuneWidth_CreateLUT by auto.
    unfold noLut. cbn [EastAsianWidth StrictEmojiNeutral CreateLUT] in H3, H4.
    rewrite H3, H4. reflexivity.
Qed.
