(** * WidthTheory: the lemmas behind PropWidth. *)
From Coq Require Import Strings.String.
From Verif Require Import GoBase Utf8 Utf8Proofs GraphemeSpec Runewidth ConditionSpec
  StringWidthProofs Regex Width EscapeSpec TextSpec RegexProofs ScanProofs WidthProofs.
From Coq Require Import ZifyBool ZifyNat.
Local Open Scope Z_scope.

Lemma u16_small x : 0 <= x < 65536 -> u16 x = x.
Proof. intros. unfold u16. apply Z.mod_small. lia. Qed.

Lemma u16_range x : 0 <= u16 x < 65536.
Proof. unfold u16. apply Z.mod_pos_bound. lia. Qed.

Lemma ascii_width c s : Reachable c -> Forall (fun b => 0x20 <= bv b <= 0x7E) s ->
  rawWidth c s = slen s /\ (slen s < 65536 -> vwidth c s = slen s).
Proof.
  intros Hc H. pose proof (rawWidth_printable c s Hc H) as E. split; auto.
  intros L. unfold vwidth. rewrite E. apply u16_small. split; auto. apply slen_nonneg.
Qed.

Lemma vwidth_mod c s : vwidth c s = rawWidth c s mod 65536 /\ 0 <= vwidth c s < 65536.
Proof. split; [reflexivity|]. apply u16_range. Qed.

Lemma vwidth_wraps c : Reachable c -> vwidth c (spaces 65536) = 0.
Proof. intros Hc. unfold vwidth. rewrite rawWidth_spaces by (auto; lia). reflexivity. Qed.

Lemma JoinsPrevious_app s t : s <> [] -> ascii_str t -> JoinsPrevious (s ++ t) -> JoinsPrevious s.
Proof.
  intros Hs Ht (r & post & E & H).
  assert (Ed : decode (s ++ t) = decode s ++ decode t).
  { apply decode_app. apply noncont_ascii_str. exact Ht. }
  unfold runes in E. rewrite Ed in E. unfold JoinsPrevious, runes.
  destruct (decode s) as [|x l] eqn:Es; [apply decode_nil_inv in Es; congruence|].
  cbn [app map] in E. injection E as <- E. exists (fst x), (map fst l). split; auto.
Qed.

Lemma not_joins_prev_nil : ~ JoinsPrevious [].
Proof. intros (r & post & E & _). discriminate. Qed.
Lemma not_joins_next_nil : ~ JoinsNext [].
Proof. intros (r & post & E & _). destruct r; discriminate. Qed.

Lemma EscSequence_no_join e : EscSequence e -> ~ JoinsPrevious e.
Proof.
  intros He (r & post & E & H). rewrite EscSequence_runes in E by auto.
  destruct He as (body & fin & -> & _). cbn [map] in E. injection E as <- _.
  change (bv x1b) with 0x1B in H. rewrite class_esc in H. destruct H as [H|[H|H]]; discriminate.
Qed.

Lemma wrap_in_colour c on off s : Reachable c -> SGR on -> SGR off ->
  ~ JoinsPrevious s -> vwidth c (on ++ s ++ off) = vwidth c s.
Proof.
  intros Hc Hon Hoff Hs. apply SGR_sequence in Hon, Hoff. unfold vwidth. f_equal.
  assert (Hj : ~ JoinsPrevious (s ++ off)).
  { destruct s as [|b s]; [apply EscSequence_no_join; auto|]. intros K. apply Hs.
    apply (JoinsPrevious_app _ off); auto; [congruence|]. apply EscSequence_ascii; auto. }
  pose proof (rawWidth_sequence c [] on (s ++ off) Hc Hon Hj) as E1.
  change ([] ++ on ++ s ++ off) with (on ++ s ++ off) in E1. rewrite E1.
  pose proof (rawWidth_sequence c s off [] Hc Hoff not_joins_prev_nil) as E2.
  rewrite app_nil_r in E2. rewrite E2. change (rawWidth c []) with 0. lia.
Qed.

Lemma params_intro ds l : Digits1 ds -> MoreParams l -> Params (ds ++ l).
Proof. intros. constructor; auto. Qed.

Lemma sgr_example :
  SGR (x1b :: (x5b :: lit "1;38;5"%string) ++ [x6d]) /\ ~ JoinsPrevious (lit "text"%string)
  /\ vwidth (plainCondition false true) (lit "some "%string ++ (x1b :: (x5b :: lit "1;38;5"%string) ++ [x6d]) ++ lit "text"%string) = 9.
Proof.
  split; [|split].
  - constructor. apply (p_some [49] [59; 51; 56; 59; 53]).
    + split; [|cbn; lia]. constructor; [|constructor]. apply is_digit_spec. reflexivity.
    + apply (mp_group [51; 56] [59; 53]).
      * split; [|cbn; lia]. repeat constructor; apply is_digit_spec; reflexivity.
      * apply (mp_group [53] []); [|constructor].
        split; [|cbn; lia]. repeat constructor; apply is_digit_spec; reflexivity.
  - intros (r & post & E & H). injection E as <- _.
    rewrite class_printable in H by (vm_compute; split; discriminate).
    destruct H as [H|[H|H]]; discriminate.
  - vm_compute. reflexivity.
Qed.

Lemma sequence_joining_refuted : exists c a e b, Reachable c /\ SGR e /\
  vwidth c (a ++ e ++ b) <> u16 (vwidth c a + vwidth c b).
Proof.
  exists (plainCondition false true), [], (x1b :: (x5b :: []) ++ [x6d]), [xe0; xa4; x83].
  split; [apply r_fresh|]. split; [constructor; constructor|]. vm_compute. discriminate.
Qed.

Lemma no_underflow c s : Reachable c -> ~ In 0x9B (runes s) ->
  0 <= countMatchesLength ansiEscapeRE s <= StringWidth c s.
Proof.
  intros Hc H. pose proof (rawWidth_nonneg c s Hc H) as K. unfold rawWidth in K.
  pose proof (count_nonneg s). lia.
Qed.

Lemma vwidth_exact c s : Reachable c -> ~ In 0x9B (runes s) ->
  StringWidth c s < 65536 -> vwidth c s = StringWidth c s - countMatchesLength ansiEscapeRE s.
Proof.
  intros Hc H L. pose proof (no_underflow c s Hc H). unfold vwidth, rawWidth. apply u16_small. lia.
Qed.

Lemma c1_bound c s : Reachable c ->
  countMatchesLength ansiEscapeRE s <= StringWidth c s + slen (filter (fun r => r =? 0x9B) (runes s)).
Proof.
  intros Hc. pose proof (rawWidth_lower c s Hc) as K. unfold rawWidth, c1_count in K. lia.
Qed.

Lemma c1_refuted : exists c s, Reachable c /\ runes s = [0x9B; 0x6D] /\ rawWidth c s = -1 /\ vwidth c s = 65535.
Proof.
  exists (plainCondition false true), [xc2; x9b; x6d]. split; [apply r_fresh|].
  split; [vm_compute; reflexivity|]. split; vm_compute; reflexivity.
Qed.

Lemma find_some s i j : FindStringIndex ansiEscapeRE s = Some (i, j) ->
  exists pre m rest, decode s = pre ++ m ++ rest /\ FirstEscape pre m rest
    /\ i = text_bytes pre /\ j = i + text_bytes m.
Proof.
  intros H. destruct (FindStringIndex_some s i j H) as (pre & m & rest & H1 & H2 & -> & ->).
  exists pre, m, rest. repeat split; auto; apply H2.
Qed.

Lemma find_none s : FindStringIndex ansiEscapeRE s = None <->
  (forall pre m rest, decode s = pre ++ m ++ rest -> ~ Escape (text_runes m)).
Proof.
  split; [apply FindStringIndex_none|]. intros H.
  destruct (FindStringIndex ansiEscapeRE s) as [[i j]|] eqn:E; [|reflexivity]. exfalso.
  destruct (find_some s i j E) as (pre & m & rest & H1 & H2 & _). eapply H; [exact H1|apply H2].
Qed.

Lemma count_terminates s : exists ms, Scan (decode s) ms
  /\ countMatchesLength_go ansiEscapeRE s = Some (zsum (map (fun m => text_bytes m - 1) ms)).
Proof. exact (count_scan s). Qed.

Lemma scan_unique l ms ms' : Scan l ms -> Scan l ms' -> ms = ms'.
Proof. intros H H'. exact (Scan_unique l ms H ms' H'). Qed.
