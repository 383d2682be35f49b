(** * CommentProofs: comments in the code against the code. *)
From Verif Require Import GoBase Utf8 Utf8Proofs IntervalSpec Pointwise StepFun TableProofs PropConst GraphemeData EastAsianData EmojiData
  GraphemeSpec RuneWidthData RunewidthSpec ConditionSpec Runewidth RunewidthProofs RuneTheory Uniseg UnisegProofs
  ClusterSpec ClusterProofs SegmentSpec SegmentTheory CrossSpec CrossProofs Merge Table TableExamples MergeExamples CommentSpec.
From Coq Require Import ZifyBool.
Local Open Scope Z_scope.

(** ** The width of a rune in uniseg *)

Lemma decides_one l v w : Decides l v -> Decides l w -> v = w.
Proof. induction 1 as [|p x l Hp|p x l y Hp Hd IH]; intros H; inversion H; subst; tauto || auto. Qed.

Definition doc_value (g m e d : Z) : Z :=
  if (g =? prControl) || (g =? prCR) || (g =? prLF) || (g =? prExtend) || (g =? prZWJ) then 0
  else if negb (d =? 0) then d
  else if (e =? prW) || (e =? prF) then 2
  else if g =? prRegionalIndicator then 2
  else if (g =? prExtendedPictographic) && (m =? prEmojiPresentation) then 2 else 1.

Lemma doc_check : always
  (both (fun f tp => f tp)
  (both (fun f d => f d)
  (both (fun f e => f e)
  (both (fun g m e d tp => Bool.eqb (uni_value g m e d =? doc_value g m e d) (negb tp))
    (of_dict graphemeCodePoints) (of_dict emojiPresentation))
    (of_dict eastAsianWidth)) (of_dict dashes)) (of_table textPictographs)) = true.
Proof. vm_compute. reflexivity. Qed.

Lemma step_rule (p : Prop) (b : bool) v l w : (b = true <-> p) -> Decides l w -> Decides ((p, v) :: l) (if b then v else w).
Proof. intros Hb Hl. destruct b; [apply de_first; tauto|apply de_later; [intros X; apply Hb in X; discriminate|exact Hl]]. Qed.

Lemma doc_value_ok r : Decides (documented r)
  (doc_value (lookup graphemeCodePoints r) (lookup emojiPresentation r) (lookup eastAsianWidth r) (lookup dashes r)).
Proof.
  unfold doc_value, documented. rewrite dash_value.
  apply step_rule; [apply zero_class|].
  replace (if negb ((if r =? 0x2E3A then 3 else if r =? 0x2E3B then 4 else 0) =? 0) then if r =? 0x2E3A then 3 else if r =? 0x2E3B then 4 else 0 else
    if (lookup eastAsianWidth r =? prW) || (lookup eastAsianWidth r =? prF) then 2
    else if lookup graphemeCodePoints r =? prRegionalIndicator then 2
    else if (lookup graphemeCodePoints r =? prExtendedPictographic) && (lookup emojiPresentation r =? prEmojiPresentation) then 2 else 1)
   with (if r =? 0x2E3A then 3 else if r =? 0x2E3B then 4 else
    if (lookup eastAsianWidth r =? prW) || (lookup eastAsianWidth r =? prF) then 2
    else if lookup graphemeCodePoints r =? prRegionalIndicator then 2
    else if (lookup graphemeCodePoints r =? prExtendedPictographic) && (lookup emojiPresentation r =? prEmojiPresentation) then 2 else 1)
   by (destruct (r =? 0x2E3A), (r =? 0x2E3B); reflexivity).
  apply step_rule; [apply Z.eqb_eq|]. apply step_rule; [apply Z.eqb_eq|].
  apply step_rule. { rewrite orb_true_iff, !Z.eqb_eq, !has_ea. tauto. }
  apply step_rule. { rewrite class_code. clear. destruct (class r); split; intros X; vm_compute in *; intuition congruence. }
  apply step_rule. { rewrite andb_true_iff, Z.eqb_eq, Z.eqb_eq, has_em, class_code. assert (X : code (class r) = prExtendedPictographic <-> class r = Pict)
    by (clear; destruct (class r); split; intros X; vm_compute in *; intuition congruence). tauto. }
  apply de_none.
Qed.

Lemma documented_total r : exists w, Decides (documented r) w.
Proof. eexists. apply doc_value_ok. Qed.

Lemma documented_width r : Decides (documented r) (uniRuneWidth r (property graphemeCodePoints r)) <-> ~ Member r textPictographs.
Proof.
  rewrite uni_value_ok. pose proof (doc_value_ok r) as D. pose proof (always_at _ r doc_check) as C.
  rewrite !both_at, gr_at, em_at, ea_at, dashes_at, (small_at textPictographs _ textPictographs_ok) in C.
  revert D C. generalize (lookup graphemeCodePoints r) (lookup emojiPresentation r) (lookup eastAsianWidth r) (lookup dashes r).
  intros g m e d D C. apply Bool.eqb_prop in C. rewrite <- memb_Member. destruct (memb r textPictographs); cbn [negb] in C.
  - apply Z.eqb_neq in C. split; [|tauto]. intros D'. pose proof (decides_one _ _ _ D D'). congruence.
  - apply Z.eqb_eq in C. rewrite C. split; [discriminate|intros _; exact D].
Qed.

(** There the code says 1 and the comment 2. *)
Lemma documented_text r : Member r textPictographs -> uniRuneWidth r (property graphemeCodePoints r) = 1 /\ Decides (documented r) 2.
Proof.
  rewrite <- memb_Member, uni_value_ok. intros Hm. pose proof (doc_value_ok r) as D.
  assert (C : always (both (fun f tp => f tp) (both (fun f d => f d) (both (fun f e => f e)
    (both (fun g m e d tp => implb tp ((uni_value g m e d =? 1) && (doc_value g m e d =? 2)))
    (of_dict graphemeCodePoints) (of_dict emojiPresentation))
    (of_dict eastAsianWidth)) (of_dict dashes)) (of_table textPictographs)) = true) by (vm_compute; reflexivity).
  apply (always_at _ r) in C. rewrite !both_at, gr_at, em_at, ea_at, dashes_at, (small_at textPictographs _ textPictographs_ok), Hm in C.
  revert D C. generalize (lookup graphemeCodePoints r) (lookup emojiPresentation r) (lookup eastAsianWidth r) (lookup dashes r).
  intros g m e d D C. cbn [implb] in C. apply andb_prop in C as [C1 C2]. apply Z.eqb_eq in C1, C2. rewrite C2 in D. auto.
Qed.

(** ** The transitions *)

Lemma lookup_zero st : trans_lookup grTransitions st 0 = None.
Proof. unfold grTransitions. cbn [trans_lookup]. rewrite ?andb_false_r; reflexivity. Qed.

Lemma lookup_any st : trans_lookup grTransitions st prAny <> None <-> In st [grCR; grControlLF; grPrepend].
Proof.
  unfold grTransitions. cbn [trans_lookup].
  repeat match goal with |- context [(?a =? st) && (?x =? prAny)] =>
    let v := eval vm_compute in (x =? prAny) in change (x =? prAny) with v; rewrite ?andb_false_r, ?andb_true_r end.
  cbn [In]. destruct (Z.eqb_spec grCR st), (Z.eqb_spec grControlLF st), (Z.eqb_spec grPrepend st); intuition (try discriminate; congruence).
Qed.

Lemma branch st r : OnlySpecificState st r <-> In st [grCR; grControlLF; grPrepend] /\ HasProperty graphemeCodePoints r 0.
Proof.
  unfold OnlySpecificState. rewrite <- (property_spec graphemeCodePoints r 0 grapheme_sorted), gprop_class, lookup_any.
  destruct (class r) eqn:Ec; cbn [code]; try (split; [intros (_ & _ & X); discriminate X|intros (_ & X); discriminate X]).
  change prXX with 0. rewrite !lookup_zero. intuition.
Qed.

Lemma lookup_zeroed st p : p <> 0 -> p <> prAny -> trans_lookup zeroTransitions st p = trans_lookup grTransitions st p.
Proof.
  intros H0 H1. unfold zeroTransitions. induction grTransitions as [|[[s q] v] l IH]; [reflexivity|]. cbn [map trans_lookup]. rewrite IH.
  destruct (Z.eqb_spec q prAny) as [->|]; [|reflexivity]. replace (0 =? p) with false by lia. replace (prAny =? p) with false by lia. reflexivity.
Qed.
Lemma lookup_zeroed0 st : trans_lookup zeroTransitions st 0 = trans_lookup grTransitions st prAny.
Proof.
  unfold zeroTransitions, grTransitions. cbn [map].
  repeat match goal with |- context [if ?q =? prAny then 0 else ?q] =>
    let v := eval vm_compute in (if q =? prAny then 0 else q) in change (if q =? prAny then 0 else q) with v end.
  cbn [trans_lookup].
  repeat match goal with |- context [?a =? prAny] =>
    let v := eval vm_compute in (a =? prAny) in change (a =? prAny) with v end.
  repeat match goal with |- context [(?a =? 0)] => match a with st => fail 1 | _ => 
    let v := eval vm_compute in (a =? 0) in change (a =? 0) with v end end.
  rewrite ?andb_false_r, ?andb_true_r. reflexivity.
Qed.

Lemma zero_same st r : zeroTransition st (property graphemeCodePoints r) = transition st (property graphemeCodePoints r).
Proof.
  rewrite gprop_class. unfold zeroTransition, transition. destruct (Z.eq_dec (code (class r)) 0) as [E|E].
  - rewrite E, !lookup_zeroed0, !lookup_zero.
    replace (trans_lookup grTransitions grAny prAny) with (@None (Z * Z * Z)) by reflexivity.
    destruct (trans_lookup grTransitions st prAny) as [[[a b] n]|]; reflexivity.
  - assert (E' : code (class r) <> prAny) by (destruct (class r); discriminate).
    rewrite lookup_zeroed0, !lookup_zeroed by auto. reflexivity.
Qed.

(** ** The state handed on *)

Lemma pack_bits g : Z.land (pack g) maskGraphemeState <= 10 /\ Z.shiftr (pack g) shiftPropState = code g /\ 0 <= pack g < 2 ^ 31.
Proof. destruct g; vm_compute; intuition discriminate. Qed.

Lemma state_bits s st cluster rest b st' : StateFor s st -> StepString s st = Some (cluster, rest, b, st') -> rest <> [] ->
  0 <= st' < 2 ^ 31 /\ Z.land st' 15 <= 10 /\ HasProperty graphemeCodePoints (fst (DecodeRune rest)) (Z.shiftr st' 21).
Proof.
  intros HS E Hr. destruct s as [|c s]; [injection E as <- <- <- <-; congruence|].
  pose proof (StateFor_Good _ _ (sf_next _ _ _ _ _ _ HS E)) as G.
  rewrite (StepString_Good (c :: s) st (StateFor_Good _ _ HS)) in E.
  destruct (StepString_spec (c :: s) ltac:(discriminate)) as (p & q & ns & E' & _ & _ & _ & _ & _ & Hns). rewrite E in E'.
  assert (st' = ns) by congruence. subst ns.
  destruct G as [G|[G|(r & n & l & D & ->)]]; [lia|congruence|].
  rewrite decode_cons in D by exact Hr. injection D as D1 D2. rewrite D1. cbn [fst]. destruct (pack_bits (class r)) as (B1 & B2 & B3).
  split; [exact B3|]. split; [exact B1|]. change 21 with shiftPropState. rewrite B2, <- gprop_class.
  apply property_spec; [exact grapheme_sorted|reflexivity].
Qed.

(** ** The lookup table *)

Lemma lut_bytes c : Reachable c -> slen (combinedLut (CreateLUT c)) = 557056.
Proof.
  intros Hc. unfold slen. rewrite CreateLUT_length by (apply Reachable_lut, Hc). apply FullLut_Z.
Qed.

(** ** Groups of a vertical layout *)

Lemma lines_of n g : 1 <= n -> 1 <= g -> Lines n g (lineCountOf n g).
Proof.
  intros Hn Hg. unfold Lines, lineCountOf. rewrite Z.quot_div_nonneg by lia.
  pose proof (Z.div_mod (n - 1) g ltac:(lia)). pose proof (Z.mod_pos_bound (n - 1) g ltac:(lia)).
  rewrite Z.mul_add_distr_r. replace ((n - 1) / g + 1 - 1) with ((n - 1) / g) by lia. lia.
Qed.

Lemma lines_one n g L L' : 1 <= g -> Lines n g L -> Lines n g L' -> L = L'.
Proof.
  unfold Lines. intros Hg H1 H2. assert (A : ~ L < L') by (intros X; assert (L * g <= (L' - 1) * g) by (apply Z.mul_le_mono_nonneg_r; lia); lia).
  assert (B : ~ L' < L) by (intros X; assert (L' * g <= (L - 1) * g) by (apply Z.mul_le_mono_nonneg_r; lia); lia). lia.
Qed.

Lemma worthless (Item Val E : Type) c (t : Table Item Val E) items g L : 1 <= fiLen items -> 1 <= g -> Lines (fiLen items) g L ->
  (mergedRowsWidthV c t items g = Ok None <-> (g - 1) * L > fiLen items - 1)
  /\ (g - 1 > (fiLen items - 1) / L <-> (g - 1) * L > fiLen items - 1)
  /\ (1 < g -> (g - 1) * L > fiLen items - 1 -> Lines (fiLen items) (g - 1) L).
Proof.
  intros Hn Hg HL. set (n := fiLen items) in *. assert (EL : lineCountOf n g = L) by (eapply lines_one; [exact Hg|apply lines_of; auto|exact HL]).
  unfold Lines in HL. assert (L1 : 1 <= L).
  { destruct (Z_lt_le_dec L 1); [|auto]. assert (L * g <= 0 * g) by (apply Z.mul_le_mono_nonneg_r; lia). lia. }
  assert (A : g - 1 > (n - 1) / L <-> (g - 1) * L > n - 1).
  { pose proof (Z.div_mod (n - 1) L ltac:(lia)) as D. pose proof (Z.mod_pos_bound (n - 1) L ltac:(lia)).
    split; intros X.
    - assert (((n - 1) / L + 1) * L <= (g - 1) * L) by (apply Z.mul_le_mono_nonneg_r; lia). lia.
    - destruct (Z_gt_le_dec (g - 1) ((n - 1) / L)); [auto|]. assert ((g - 1) * L <= (n - 1) / L * L) by (apply Z.mul_le_mono_nonneg_r; lia). lia. }
  split; [|split; [exact A|]].
  - unfold mergedRowsWidthV. fold n. rewrite EL. replace (L =? 0) with false by lia. rewrite Z.quot_div_nonneg by lia.
    destruct (g >? (n - 1) / L + 1) eqn:Eg.
    + split; [intros _; apply A; lia|reflexivity].
    + split; [|intros X; apply A in X; lia]. destruct (widthsOf c items (ColumnCount (tSpec t)) _ g) as [l|e|p]; discriminate.
  - intros G1 X. unfold Lines. split; [|lia]. assert ((L - 1) * (g - 1) <= (L - 1) * g) by (apply Z.mul_le_mono_nonneg_l; lia). lia.
Qed.

Lemma rules_total r : exists w, Decides (documented r) w /\ forall w', Decides (documented r) w' -> w' = w.
Proof. destruct (documented_total r) as [w Hw]. exists w. split; [exact Hw|]. intros w' H. exact (decides_one _ _ _ H Hw). Qed.
Lemma lines_total n g : 1 <= n -> 1 <= g -> exists L, Lines n g L /\ forall L', Lines n g L' -> L' = L.
Proof. intros Hn Hg. exists (lineCountOf n g). split; [apply lines_of; auto|]. intros L' H. exact (lines_one _ _ _ _ Hg H (lines_of n g Hn Hg)). Qed.
Lemma prAny_one : prAny = 1 /\ forall st r,
  zeroTransition st (property graphemeCodePoints r) = transition st (property graphemeCodePoints r).
Proof. split; [reflexivity|exact zero_same]. Qed.

(** ** Cases *)

Lemma width_example : Member 0x3030 textPictographs /\ ~ Member 0x1F600 textPictographs
  /\ uniRuneWidth 0x1F600 (property graphemeCodePoints 0x1F600) = 2.
Proof.
  split; [apply memb_Member; vm_compute; reflexivity|]. split; [|vm_compute; reflexivity]. rewrite <- memb_Member. vm_compute. discriminate.
Qed.
Lemma branch_taken : exists s cluster rest b st, StepString s (-1) = Some (cluster, rest, b, st)
  /\ fst (fst (transitionGraphemeState (-1) (fst (DecodeRune s)))) = grControlLF
  /\ OnlySpecificState grControlLF (fst (DecodeRune rest)).
Proof.
  exists [x0a; x61], [x0a], [x61], 0, 0. split; [vm_compute; reflexivity|]. split; [vm_compute; reflexivity|]. apply branch. split; [right; left; reflexivity|].
  apply property_spec; [exact grapheme_sorted|vm_compute; reflexivity].
Qed.
Lemma groups_example : 1 <= fiLen (listOf mRows) /\ 1 <= 4 /\ Lines (fiLen (listOf mRows)) 4 2 /\ Lines (fiLen (listOf mRows)) 3 2
  /\ mergedRowsWidthV exC mTable (listOf mRows) 4 = Ok None /\ mergedRowsWidthV exC mTable (listOf mRows) 3 <> Ok None.
Proof. split; [vm_compute; discriminate|]. split; [lia|]. split; [vm_compute; auto; intuition discriminate|]. split; [vm_compute; intuition discriminate|]. split; [vm_compute; reflexivity|]. vm_compute. discriminate. Qed.
