(** * EnvProofs: start-up, NewCondition, and code pages. *)
From Coq Require Import NArith Strings.String DecimalString DecimalN.
From Verif Require Import GoBase Utf8 Utf8Proofs CacheProofs Runewidth ConditionSpec RunewidthProofs RuneTheory StringWidthProofs Locale LocaleSpec LocaleProofs EnvSpec.
From Coq Require Import ZifyBool ZifyNat.
Local Open Scope Z_scope.

(** ** NewCondition *)
Lemma new_condition ops r :
  let g := fold_left env_step ops globals0 in
  NewCondition g = plainCondition (last_choice ops) true /\ RuneWidth (NewCondition g) r = RuneWidth (DefaultCondition g) r.
Proof.
  intros g. destruct (env_history ops r) as (A & _ & B). fold g in A, B.
  assert (I : env_inv globals0 false) by (unfold env_inv, globals0; simpl; tauto).
  destruct (env_inv_run ops globals0 false I) as (_ & C & _). fold g in C.
  assert (K : NewCondition g = plainCondition (last_choice ops) true) by (unfold NewCondition, plainCondition; rewrite A, C; reflexivity).
  split; [exact K|]. rewrite K, B. reflexivity.
Qed.

(** ** handleEnv from any state *)
Lemma any_state g env loc r : 
  let g' := handleEnv env loc g in
  gEastAsianWidth g' = env_choice env loc /\ EastAsianWidth (DefaultCondition g') = env_choice env loc
  /\ StrictEmojiNeutral (DefaultCondition g') = StrictEmojiNeutral (DefaultCondition g)
  /\ gStrictEmojiNeutral g' = gStrictEmojiNeutral g
  /\ (EastAsianWidth (DefaultCondition g) = env_choice env loc -> DefaultCondition g' = DefaultCondition g)
  /\ (EastAsianWidth (DefaultCondition g) <> env_choice env loc ->
      RuneWidth (DefaultCondition g') r = RuneWidth (plainCondition (env_choice env loc) (StrictEmojiNeutral (DefaultCondition g))) r).
Proof.
  cbv zeta. unfold handleEnv. fold (env_choice env loc). set (b := env_choice env loc).
  destruct (Bool.eqb (EastAsianWidth (DefaultCondition g)) b) eqn:Eb; cbn [negb].
  - apply eqb_prop in Eb. cbn [gEastAsianWidth gStrictEmojiNeutral DefaultCondition]. repeat split; auto. intros K. congruence.
  - apply eqb_false_iff in Eb. cbn [combinedLut]. destruct (0 <? slen (combinedLut (DefaultCondition g))) eqn:El.
    + unfold CreateLUT_default. cbn [DefaultCondition combinedLut]. change (0 <? slen (@nil Z)) with false.
      cbn iota. cbn [gEastAsianWidth gStrictEmojiNeutral DefaultCondition].
      split; [reflexivity|]. split; [reflexivity|]. split; [reflexivity|]. split; [reflexivity|]. split; [congruence|].
      intros _. rewrite RuneWidth_CreateLUT by (left; reflexivity). reflexivity.
    + cbn [gEastAsianWidth gStrictEmojiNeutral DefaultCondition EastAsianWidth StrictEmojiNeutral]. repeat split; [congruence|]. intros _.
      destruct (combinedLut (DefaultCondition g)) as [|x l]; [reflexivity|]. unfold slen in El. cbn [List.length] in El. lia.
Qed.

(** ** Start-up *)
Lemma startup lowerOther : (forall r, 0x80 <= r -> 0x80 <= lowerOther r) ->
  forall env lc_all lc_ctype lang locale, Effective lc_all lc_ctype lang locale ->
  let g := handleEnv env (IsEastAsian lowerOther lc_all lc_ctype lang) globals0 in
  (gEastAsianWidth g = true <-> env = lit "1" \/ env = [] /\ ~ CLocale locale /\ EastAsianLocale locale)
  /\ forall s, StringWidth_default g s = StringWidth (plainCondition (gEastAsianWidth g) true) s.
Proof.
  intros Hl env lc_all lc_ctype lang locale He g. pose proof (IsEastAsian_spec lowerOther Hl _ _ _ _ He) as Sp.
  set (loc := IsEastAsian lowerOther lc_all lc_ctype lang) in *.
  assert (K : forall r, gEastAsianWidth g = env_choice env loc /\ RuneWidth (DefaultCondition g) r = RuneWidth (plainCondition (env_choice env loc) true) r).
  { intros r. destruct (env_history [OpEnv env loc] r) as (A & _ & B). split; [exact A|exact B]. }
  split.
  - rewrite (proj1 (K 0)). destruct env as [|x env]; cbn [env_choice].
    + rewrite Sp. split; [auto|]. intros [Q|[_ Q]]; [discriminate Q|exact Q].
    + split.
      * intros Q. left. destruct (str_eqb_spec (x :: env) [x31]); [assumption|discriminate Q].
      * intros [Q|[Q _]]; [|discriminate Q]. rewrite Q. reflexivity.
  - intros s. rewrite (proj1 (K 0)). unfold StringWidth_default. apply StringWidth_ext. intros r. apply K.
Qed.

(** On platforms without locales. *)
Lemma startup_platform env loc : let g := handleEnv env loc globals0 in
  (gEastAsianWidth g = true <-> env = lit "1" \/ env = [] /\ loc = true)
  /\ forall s, StringWidth_default g s = StringWidth (plainCondition (gEastAsianWidth g) true) s.
Proof.
  intros g. assert (K : forall r, gEastAsianWidth g = env_choice env loc /\ RuneWidth (DefaultCondition g) r = RuneWidth (plainCondition (env_choice env loc) true) r).
  { intros r. destruct (env_history [OpEnv env loc] r) as (A & _ & B). split; [exact A|exact B]. }
  split.
  - rewrite (proj1 (K 0)). destruct env as [|x env]; cbn [env_choice].
    + split; [auto|]. intros [Q|[_ Q]]; [discriminate Q|exact Q].
    + split.
      * intros Q. left. destruct (str_eqb_spec (x :: env) [x31]); [assumption|discriminate Q].
      * intros [Q|[Q _]]; [|discriminate Q]. rewrite Q. reflexivity.
  - intros s. rewrite (proj1 (K 0)). unfold StringWidth_default. apply StringWidth_ext. intros r. apply K.
Qed.
Lemma startup_others env page :
  let windows := handleEnv env (IsEastAsian_windows page) globals0 in
  let js := handleEnv env IsEastAsian_js globals0 in
  let appengine := handleEnv env IsEastAsian_appengine globals0 in
  (gEastAsianWidth windows = true <-> env = lit "1" \/ env = [] /\ In page [932; 936; 949; 950; 51932])
  /\ (gEastAsianWidth js = true <-> env = lit "1") /\ (gEastAsianWidth appengine = true <-> env = lit "1")
  /\ forall g, In g [windows; js; appengine] -> forall s, StringWidth_default g s = StringWidth (plainCondition (gEastAsianWidth g) true) s.
Proof.
  cbv zeta. split; [|split; [|split]].
  - rewrite (proj1 (startup_platform env (IsEastAsian_windows page))).
    assert (W : IsEastAsian_windows page = true <-> In page [932; 936; 949; 950; 51932]); [|tauto].
    unfold IsEastAsian_windows. cbn [existsb In]. destruct (page =? 0) eqn:E0; [lia|]. rewrite !Bool.orb_true_iff, !Z.eqb_eq. intuition (try congruence; auto).
  - rewrite (proj1 (startup_platform env IsEastAsian_js)). unfold IsEastAsian_js. intuition congruence.
  - rewrite (proj1 (startup_platform env IsEastAsian_appengine)). unfold IsEastAsian_appengine. intuition congruence.
  - intros g [<-|[<-|[<-|[]]]]; apply startup_platform.
Qed.

(** ** Code pages *)
Lemma digits_of d : Forall (fun b => 48 <= bv b <= 57) (lit (NilEmpty.string_of_uint d)).
Proof. unfold lit. induction d; cbn [NilEmpty.string_of_uint list_byte_of_string list_ascii_of_string map]; constructor; auto; vm_compute; split; discriminate. Qed.
Lemma lit_inj a b : lit a = lit b -> a = b.
Proof. unfold lit. intros H. rewrite <- (string_of_list_byte_of_string a), <- (string_of_list_byte_of_string b), H. reflexivity. Qed.
Lemma lit_app a b : lit (a ++ b)%string = lit a ++ lit b.
Proof. unfold lit. induction a as [|x a IH]; [reflexivity|]. cbn [append list_byte_of_string list_ascii_of_string map app] in *. f_equal. exact IH. Qed.
Lemma decimal_inj m n : decimal m = decimal n -> m = n.
Proof.
  unfold decimal. intros H. apply DecimalN.Unsigned.to_uint_inj. pose proof (NilEmpty.usu (N.to_uint m)) as A. rewrite H, NilEmpty.usu in A. congruence.
Qed.
Lemma code_pages lowerOther : (forall r, 0x80 <= r -> 0x80 <= lowerOther r) -> forall n,
  IsEastAsian lowerOther (lit ("cp" ++ decimal n)) [] [] = IsEastAsian_windows (Z.of_N n).
Proof.
  intros Hl n. set (locale := lit ("cp" ++ decimal n)).
  assert (El : locale = [x63; x70] ++ lit (decimal n)) by (unfold locale; rewrite lit_app; reflexivity).
  assert (Hd : Forall (fun b => 48 <= bv b <= 57 \/ bv b = 99 \/ bv b = 112) locale).
  { rewrite El. constructor; [right; left; reflexivity|]. constructor; [right; right; reflexivity|].
    eapply Forall_impl; [|apply digits_of]. cbn. auto. }
  assert (Hr : runes locale = map bv locale).
  { unfold runes. rewrite decode_ascii_str; [rewrite map_map; reflexivity|]. eapply Forall_impl; [|exact Hd]. cbn. lia. }
  assert (Hr' : Forall (fun r => 48 <= r <= 57 \/ r = 99 \/ r = 112) (runes locale)) by (rewrite Hr; apply Forall_map; exact Hd).
  assert (No : forall x, In x (runes locale) -> 48 <= x <= 57 \/ x = 99 \/ x = 112) by (apply Forall_forall; exact Hr').
  assert (Hf : folded (runes locale) = runes locale).
  { unfold folded. rewrite <- (map_id (runes locale)) at 2. apply map_ext_in. intros x Hx. pose proof (No x Hx). unfold fold_rune.
    destruct ((65 <=? x) && (x <=? 90)) eqn:E1; [lia|]. destruct (x =? 0x130) eqn:E2; [lia|]. destruct (x =? 0x212A) eqn:E3; [lia|]. reflexivity. }
  assert (NN : forall g, ~ Named (runes locale) g).
  { intros g Hg. inversion Hg as [lang terr g' rest H1 H2 H3 H4 H5 H6 E1 E2].
    assert (In 46 (runes locale)) by (rewrite <- E1; apply in_or_app; right; apply in_or_app; right; left; reflexivity).
    pose proof (No 46 H). lia. }
  assert (Cs : Charset locale (runes locale)) by (right; auto).
  assert (Nn : ~ Narrow (runes locale)).
  { intros [pre K]. rewrite Hf in K. assert (In 64 (runes locale)) by (rewrite K; apply in_or_app; right; left; reflexivity). pose proof (No 64 H). lia. }
  assert (Bs : forall name, Base (runes locale) name <-> ("cp" ++ decimal n)%string = name /\ ~ In 64 (ascii name)).
  { intros name. unfold Base. rewrite Hf, Hr. split.
    - intros (m & K & A & B). split; [|exact A]. assert (m = []).
      { destruct B as [B|[m' B]]; [exact B|]. exfalso. assert (In 64 (runes locale)) by (rewrite Hr, K, B; apply in_or_app; right; left; reflexivity). pose proof (No 64 H). lia. }
      subst m. rewrite app_nil_r in K. apply lit_inj. unfold ascii, locale in K. clear -K. 
      revert K. generalize (lit name) as l. intros l K. revert l K. induction (lit ("cp" ++ decimal n)) as [|x l0 IH]; intros [|y l] K; cbn in K; try discriminate K; [reflexivity|].
      injection K as K1 K2. f_equal; [apply bv_inj, K1|apply IH, K2].
    - intros [<- A]. exists []. rewrite app_nil_r. auto. }
  assert (NC : ~ CLocale locale).
  { rewrite El. unfold CLocale, StartsWith. intros [K|[K|[[r K]|[r K]]]]; discriminate K. }
  assert (Ef : Effective locale [] [] locale) by (left; split; [rewrite El; discriminate|reflexivity]).
  pose proof (IsEastAsian_spec lowerOther Hl _ _ _ _ Ef) as Sp.
  assert (Main : EastAsianLocale locale <-> In n [932; 51932; 936; 949; 950]%N).
  { split.
    - intros (cs & C & _ & B). rewrite (Charset_unique _ _ _ C Cs) in B.
      assert (Q : forall k name, ("cp" ++ decimal k)%string = name -> ("cp" ++ decimal n)%string = name -> k = n).
      { intros k name <- K. injection K as K. symmetry. apply decimal_inj, K. }
      assert (Name : exists name, In name (unicode_charsets ++ legacy_charsets) /\ ("cp" ++ decimal n)%string = name).
      { destruct B as [(name & I & B)|[(name & I & B) _]]; apply Bs in B; exists name; (split; [apply in_or_app; auto|apply B]). }
      destruct Name as (name & I & E). cbn in I.
      repeat (destruct I as [I|I]; [subst name; try discriminate E|]); try contradiction; cbn [In].
      + left. exact (Q 932%N _ eq_refl E).
      + right; left. exact (Q 51932%N _ eq_refl E).
      + right; right; left. exact (Q 936%N _ eq_refl E).
      + right; right; right; left. exact (Q 949%N _ eq_refl E).
      + right; right; right; right; left. exact (Q 950%N _ eq_refl E).
    - intros I. exists (runes locale). split; [exact Cs|]. split; [exact Nn|]. left. exists ("cp" ++ decimal n)%string.
      assert (K : In ("cp" ++ decimal n)%string legacy_charsets /\ ~ In 64 (ascii ("cp" ++ decimal n))).
      { cbn [In] in I. repeat (destruct I as [I|I]; [subst n; split; [cbn; tauto|vm_compute; intuition discriminate]|]). contradiction. }
      split; [apply K|]. apply Bs. split; [reflexivity|apply K]. }
  assert (W : IsEastAsian_windows (Z.of_N n) = true <-> In n [932; 51932; 936; 949; 950]%N).
  { unfold IsEastAsian_windows. cbn [In]. destruct (Z.of_N n =? 0) eqn:E0; cbn [existsb]; lia. }
  apply Bool.eq_iff_eq_true. rewrite Sp, W, Main. tauto.
Qed.
