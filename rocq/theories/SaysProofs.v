(** * SaysProofs: proofs about what is printed (C103). *)
From Coq Require Import Strings.String Permutation ZifyBool ZifyNat.
From Verif Require Import GoBase Locale LocaleProofs GenText GenTextSpec GenScan GenRead GenMain GenMainSpec GenMainProofs GenScriptTables ScriptMain ReadSpec ReadProofs Table Says SaysSpec.
Local Open Scope Z_scope.

(** ** Numerals *)
Lemma value_app s t : value (s ++ t) = fold_left (fun v b => 10 * v + (bv b - 48)) t (value s).
Proof. apply fold_left_app. Qed.
Lemma dec_loop_ok f : forall n acc, 0 <= n < 2 ^ Z.of_nat f -> (1 <= f)%nat ->
  exists d, dec_loop f n acc = d ++ acc /\ Numeral d n.
Proof.
  induction f as [|f IH]; intros n acc Hn Hf; [lia|]. cbn [dec_loop]. cbv zeta.
  pose proof (Z.mod_pos_bound n 10 ltac:(lia)) as Hm. pose proof (Z.div_mod n 10 ltac:(lia)) as HD.
  assert (Hb : bv (zb (48 + n mod 10)) = 48 + n mod 10) by (apply bv_zb; lia).
  destruct (Z.eqb_spec (n / 10) 0) as [e|ne].
  - exists [zb (48 + n mod 10)]. split; [reflexivity|]. split; [discriminate|]. split; [constructor; [rewrite Hb; lia|constructor]|].
    split; [intros u K; injection K as _ <-; reflexivity|]. unfold value. cbn [fold_left]. rewrite Hb. lia.
  - rewrite Nat2Z.inj_succ, Z.pow_succ_r in Hn by lia.
    assert (H2 : 0 < n / 10) by (pose proof (Z.div_pos n 10); lia).
    assert (H3 : n / 10 < 2 ^ Z.of_nat f) by lia.
    assert (Hf' : (1 <= f)%nat) by (destruct f; [cbn in H3; lia|lia]).
    destruct (IH (n / 10) (zb (48 + n mod 10) :: acc) ltac:(lia) Hf') as (d & E & N & F & Z0 & V).
    exists (d ++ [zb (48 + n mod 10)]). rewrite E, <- app_assoc. split; [reflexivity|]. split; [destruct d; discriminate|].
    split; [apply Forall_app; split; [exact F|constructor; [rewrite Hb; lia|constructor]]|]. split.
    + intros u K. destruct d as [|b d]; [congruence|]. injection K as -> K. rewrite (Z0 d eq_refl) in V. change (value [x30]) with 0 in V. lia.
    + rewrite value_app, V. cbn [fold_left]. rewrite Hb. lia.
Qed.
Lemma dec_text_ok n : 0 <= n -> Numeral (dec_text n) n.
Proof.
  intros H. unfold dec_text. destruct (dec_loop_ok (Datatypes.S (Z.to_nat (Z.log2 n))) n []) as (d & E & N); [|lia|].
  - rewrite Nat2Z.inj_succ, Z2Nat.id by apply Z.log2_nonneg. split; [exact H|]. destruct (Z.eq_dec n 0) as [->|D]; [reflexivity|apply Z.log2_spec; lia].
  - rewrite E, app_nil_r. exact N.
Qed.

Lemma digits_end (s s' t t' : str) x : Forall (fun b => 48 <= bv b <= 57) s -> Forall (fun b => 48 <= bv b <= 57) s' -> ~ 48 <= bv x <= 57 ->
  s ++ x :: t = s' ++ x :: t' -> s = s' /\ t = t'.
Proof.
  intros F. revert s'. induction F as [|b s Hb F IH]; intros s' F' Hx H; destruct F' as [|b' s' Hb' F']; cbn [app] in H.
  - injection H as ->. auto.
  - injection H as -> _. contradiction.
  - injection H as -> _. contradiction.
  - injection H as -> H. destruct (IH s' F' Hx H) as [-> ->]. auto.
Qed.

Lemma align_told (e e' : Z * Z) : 0 <= fst e -> 0 <= snd e -> 0 <= fst e' -> 0 <= snd e' -> AlignErrorText e = AlignErrorText e' -> e = e'.
Proof.
  destruct e as [a b], e' as [a' b']. cbn [fst snd]. intros H1 H2 H3 H4 K. unfold AlignErrorText in K. cbn [fst snd] in K.
  apply app_inv_head in K.
  destruct (dec_text_ok a H1) as (_ & F1 & _ & V1), (dec_text_ok a' H3) as (_ & F3 & _ & V3).
  destruct (dec_text_ok b H2) as (_ & _ & _ & V2), (dec_text_ok b' H4) as (_ & _ & _ & V4).
  change (lit ", must be ") with (x2c :: lit " must be ") in K. cbn [app] in K.
  apply digits_end in K; auto; [|change (bv x2c) with 44; lia]. destruct K as [K1 K2]. apply app_inv_head in K2. congruence.
Qed.
Lemma align_text {Item Val E} (t : Table Item Val E) row e : snd (AlignFormattedItem t row) = Err e ->
  exists a b, AlignErrorText e = lit "bad number of columns: " ++ a ++ lit ", must be " ++ b
    /\ Numeral a (slen row) /\ Numeral b (slen (Columns (tSpec t))) /\ slen row <> slen (Columns (tSpec t)).
Proof.
  unfold AlignFormattedItem, ColumnCount. destruct (Z.eqb_spec (slen row) (slen (Columns (tSpec t)))) as [Q|Q]; cbn [negb].
  - assert (K : forall cols done todo x, snd (alignFormatted_loop t cols done todo) <> Err x).
    { induction cols as [|[col|] cols IH]; intros done todo x; cbn [alignFormatted_loop]; try discriminate.
      destruct todo; [discriminate|]. destruct (colAlignment col); apply IH. }
    intros H. destruct (K _ _ _ _ H).
  - intros [= <-]. exists (dec_text (slen row)), (dec_text (slen (Columns (tSpec t)))). split; [reflexivity|].
    split; [apply dec_text_ok; unfold slen; lia|]. split; [apply dec_text_ok; unfold slen; lia|exact Q].
Qed.

(** ** The log *)
Lemma entry_logged p m : Logged p m (log_entry p m).
Proof.
  unfold log_entry, ends_line. destruct (rev m) as [|b r] eqn:R.
  - apply (f_equal (@rev byte)) in R. rewrite rev_involutive in R. subst m. apply lg_line. intros u K. destruct u; discriminate.
  - apply (f_equal (@rev byte)) in R. rewrite rev_involutive in R. cbn [rev] in R. subst m.
    destruct (Byte.eqb b x0a) eqn:B.
    + apply Byte.byte_dec_bl in B. subst b. rewrite app_nil_r. apply lg_ended.
    + apply lg_line. intros u K. apply app_inj_tail in K. destruct K as [_ ->]. discriminate.
Qed.
Lemma printed_log p ms : Log p ms (printed p ms).
Proof.
  exists (map (log_entry p) ms). split; [|reflexivity]. induction ms; cbn [map]; constructor; auto using entry_logged.
Qed.
Lemma log_one p ms err err' : Log p ms err -> Log p ms err' -> err = err'.
Proof.
  intros (ts & F & ->) (ts' & F' & ->). f_equal. revert ts' F'. induction F as [|m t ms ts L F IH]; intros ts' F'; inversion F' as [|? t' ? ts0 L' F0]; subst; [reflexivity|].
  f_equal; auto. clear - L L'. inversion L; subst; inversion L'; subst; auto.
  - exfalso. eapply H; eauto.
  - exfalso. eapply H; eauto.
Qed.
Lemma log_lines p ms err : ~ In x0a p -> Forall (fun m => ~ In x0a m) ms -> Log p ms err ->
  split [x0a] 0 err = map (fun m => p ++ m) ms ++ [[]].
Proof.
  intros Hp HF (ts & F & ->).
  assert (K : ts = map (fun l => l ++ [x0a]) (map (fun m => p ++ m) ms)).
  { clear - Hp HF F. induction F as [|m t ms ts L F IH]; [reflexivity|]. inversion HF; subst. cbn [map]. f_equal; auto.
    destruct L as [m|u]; [rewrite app_assoc; reflexivity|]. exfalso. apply H1. apply in_or_app. right. left. reflexivity. }
  rewrite K. apply split_lines. rewrite Forall_map. eapply Forall_impl; [|exact HF]. cbn beta. intros m Hm. rewrite in_app_iff. tauto.
Qed.

(** ** gen_properties *)
Lemma lines_said keep label (bad : Z -> gen_error) lines : forall n, 0 <= n ->
  (exists ps, read_lines keep bad n lines = Ok ps /\ read_lines_said keep label n lines = Ok ps)
  \/ (exists k d, 0 < k /\ Numeral d k /\ read_lines keep bad n lines = Err (bad k)
        /\ read_lines_said keep label n lines = Err (label ++ lit " line " ++ d ++ lit ": no property found")).
Proof.
  induction lines as [|line rest IH]; intros n Hn; cbn [read_lines read_lines_said]; [left; eauto|].
  destruct (keep line) as [text|]; [|apply IH; lia].
  destruct (parseProperty text) as [p|].
  - destruct (IH (n + 1) ltac:(lia)) as [(ps & -> & ->)|(k & d & Hk & Hd & -> & ->)]; cbn [obind]; [left; eauto|right; exists k, d; auto].
  - right. exists (n + 1), (dec_text (n + 1)). split; [lia|]. split; [apply dec_text_ok; lia|]. split; [reflexivity|]. reflexivity.
Qed.
Lemma scan_fails fails s : forall cur ls, scan_from fails cur s = (ls, ScanRead) -> fails = true.
Proof.
  induction s as [|b s IH]; intros cur ls; cbn [scan_from].
  - destruct (maxToken <=? slen cur); [discriminate|]. destruct fails; [auto|discriminate].
  - destruct (Byte.eqb b x0a).
    + destruct (maxToken <=? slen cur); [discriminate|]. destruct (scan_from fails [] s) as [l e] eqn:K. intros [= _ ->]. eapply IH; eauto.
    + apply IH.
Qed.
Lemma body_said T w url keep label (bad : Z -> gen_error) :
  fst (read_said T w url keep label) = [lit "Parsing " ++ url] /\
  ((exists ps, read_body keep bad (web w url) = Ok ps /\ snd (read_said T w url keep label) = Ok ps)
   \/ exists e t, read_body keep bad (web w url) = Err e /\ snd (read_said T w url keep label) = Err t
      /\ ((e = GetFailed /\ web w url = None /\ t = getText T url)
          \/ (exists k d, e = bad k /\ Numeral d k /\ t = label ++ lit " line " ++ d ++ lit ": no property found")
          \/ (e = ScanFailed ScanTooLong /\ t = lit "bufio.Scanner: token too long")
          \/ (e = ScanFailed ScanRead /\ exists b, web w url = Some b /\ bFails b = true /\ t = readText T url))).
Proof.
  split; [reflexivity|]. unfold read_said, read_body. cbn [snd]. destruct (web w url) as [b|] eqn:EW.
  2:{ right. exists GetFailed, (getText T url). split; [reflexivity|]. split; [reflexivity|]. left. repeat split; reflexivity. }
  destruct (scan b) as [lines e] eqn:ES.
  destruct (lines_said keep label bad lines 0 ltac:(lia)) as [(ps & -> & ->)|(k & d & Hk & Hd & -> & ->)]; cbn [obind].
  - destruct e; [left; eauto|right|right].
    + exists (ScanFailed ScanTooLong). eexists. split; [reflexivity|]. split; [reflexivity|]. auto.
    + exists (ScanFailed ScanRead). eexists. split; [reflexivity|]. split; [reflexivity|]. right. right. right. split; [reflexivity|].
      exists b. split; [reflexivity|]. split; [|reflexivity]. eapply scan_fails. exact ES.
  - right. exists (bad k). eexists. split; [reflexivity|]. split; [reflexivity|]. right. left. eauto.
Qed.

Lemma parse_says T w a4 url property :
  fst (parse_said T w a4 url property) = map (fun u => lit "Parsing " ++ u) (requests w url property)
  /\ ((exists ps, read_properties (main_body w url) property (web w emojiURL) = Ok ps /\ snd (parse_said T w a4 url property) = Ok ps)
      \/ exists e t, read_properties (main_body w url) property (web w emojiURL) = Err e /\ snd (parse_said T w a4 url property) = Err t
         /\ Blames T w a4 (requests w url property) e t).
Proof.
  assert (HB : forall us u e t label bad, (label = a4 /\ bad = MainLine) \/ (label = lit "emojis" /\ bad = EmojiLine) ->
     ((e = GetFailed /\ web w u = None /\ t = getText T u)
          \/ (exists k d, e = bad k /\ Numeral d k /\ t = label ++ lit " line " ++ d ++ lit ": no property found")
          \/ (e = ScanFailed ScanTooLong /\ t = lit "bufio.Scanner: token too long")
          \/ (e = ScanFailed ScanRead /\ exists b, web w u = Some b /\ bFails b = true /\ t = readText T u)) -> Blames T w a4 (us ++ [u]) e t).
  { intros us u e t label bad HL [(-> & H1 & H2)|[(k & d & -> & H1 & H2)|[(-> & H)|(-> & b & H1 & H2 & H3)]]]; cbn [Blames].
    - exists us, u. auto.
    - destruct HL as [[-> ->]|[-> ->]]; cbn [Blames]; exists d; (split; [exact H1|rewrite H2; reflexivity]).
    - exact H.
    - exists us, u, b. auto. }
  destruct url as [|x u].
  - destruct property as [|y pr].
    + split; [reflexivity|]. right. exists NoProperties. eexists. split; [reflexivity|]. split; [reflexivity|]. split; reflexivity.
    + cbn [main_body]. unfold parse_said, requests, read_properties. cbn [obind app].
      destruct (body_said T w emojiURL (keep_emoji (y :: pr)) (lit "emojis") EmojiLine) as [S1 S2].
      destruct (read_said T w emojiURL (keep_emoji (y :: pr)) (lit "emojis")) as [s r]. cbn [fst snd] in *. subst s. split; [reflexivity|].
      destruct S2 as [(ps & -> & ->)|(e & t & -> & -> & K)]; cbn [obind app]; [left; eauto|right]. exists e, t. split; [reflexivity|]. split; [reflexivity|].
      apply (HB []) with (label := lit "emojis") (bad := EmojiLine); auto.
  - set (U := x :: u). cbn [main_body]. unfold parse_said, requests. change (main_body w U) with (Some (web w U)). unfold read_properties.
    destruct (body_said T w U keep_main a4 MainLine) as [S1 S2].
    change (match U with [] => [] | _ :: _ => [U] end) with [U].
    replace (match U with [] => match property with [] => ([], Err (lit "no properties to parse")) | _ :: _ =>
       let '(said1, r1) := match U with [] => ([], Ok []) | _ :: _ => read_said T w U keep_main a4 end in
       match r1 with
       | Ok ps => let '(said2, r2) := match property with [] => ([], Ok []) | _ :: _ => read_said T w emojiURL (keep_emoji property) (lit "emojis") end in
           (said1 ++ said2, obind r2 (fun qs => Ok (ps ++ qs)))
       | Err t => (said1, Err t)
       | Panic r => (said1, Panic r)
       end end | _ :: _ =>
       let '(said1, r1) := match U with [] => ([], Ok []) | _ :: _ => read_said T w U keep_main a4 end in
       match r1 with
       | Ok ps => let '(said2, r2) := match property with [] => ([], Ok []) | _ :: _ => read_said T w emojiURL (keep_emoji property) (lit "emojis") end in
           (said1 ++ said2, obind r2 (fun qs => Ok (ps ++ qs)))
       | Err t => (said1, Err t)
       | Panic r => (said1, Panic r)
       end end) with
      (let '(said1, r1) := read_said T w U keep_main a4 in
       match r1 with
       | Ok ps => let '(said2, r2) := match property with [] => ([], Ok []) | _ :: _ => read_said T w emojiURL (keep_emoji property) (lit "emojis") end in
           (said1 ++ said2, obind r2 (fun qs => Ok (ps ++ qs)))
       | Err t => (said1, Err t)
       | Panic r => (said1, Panic r)
       end) by reflexivity.
    destruct (read_said T w U keep_main a4) as [s1 r1]. cbn [fst snd] in S1, S2. subst s1.
    destruct S2 as [(ps & E1 & ->)|(e & t & E1 & -> & K)]; rewrite E1; cbn [obind].
    + destruct property as [|y pr].
      * split; [reflexivity|]. left. cbn [obind snd]. eauto.
      * destruct (body_said T w emojiURL (keep_emoji (y :: pr)) (lit "emojis") EmojiLine) as [S3 S4].
        destruct (read_said T w emojiURL (keep_emoji (y :: pr)) (lit "emojis")) as [s2 r2]. cbn [fst snd] in S3, S4. subst s2.
        change (match U with [] => [emojiURL] | _ :: _ => [emojiURL] end) with [emojiURL]. cbn [fst snd].
        split; [reflexivity|].
        destruct S4 as [(qs & -> & ->)|(e & t & -> & -> & K)]; cbn [obind]; [left; eauto|right]. exists e, t. split; [reflexivity|]. split; [reflexivity|].
        change [U; emojiURL] with ([U] ++ [emojiURL]). eapply HB; eauto.
    + replace (match property with [] => [] | _ :: _ => match U with [] => [emojiURL] | _ :: _ => [] end end) with (@nil str) by (destruct property; reflexivity).
      split; [destruct property; reflexivity|]. right. exists e, t. split; [destruct property; reflexivity|]. split; [reflexivity|].
      apply (HB []) with (label := a4) (bad := MainLine); auto.
Qed.

Lemma printing a3 g qs e : print_table a3 g qs <> Err e.
Proof.
  unfold print_table. assert (K : forall x, omap (print_prop g) qs <> Err x).
  { induction qs as [|q qs IH]; intros x; cbn; [discriminate|]. unfold print_prop at 1. destruct g; [destruct (slen (pComment q) <? 3)|]; cbn; try discriminate;
      destruct (omap _ qs); cbn; try discriminate; intros [= ->]; apply (IH x eq_refl). }
  destruct (omap (print_prop g) qs) as [rows|x|r] eqn:Q; cbn [obind]; try discriminate. destruct (K x eq_refl).
Qed.

Lemma said T w prog a1 a2 a3 a4 rest out err status file : Saying T w (prog :: a1 :: a2 :: a3 :: a4 :: rest) out err status file ->
  exists reqs res last text, Ran w (prog :: a1 :: a2 :: a3 :: a4 :: rest) reqs res /\ Ended res status file /\ LastWords T w a2 a4 reqs res last
    /\ Log (lit "gen_properties (" ++ a4 ++ lit "): ") (map (fun u => lit "Parsing " ++ u) reqs ++ last) text
    /\ out = [] /\ err = text ++ match res with Crashed _ => trace T | _ => [] end.
Proof.
  cbn [Saying]. set (p := lit "gen_properties (" ++ a4 ++ lit "): "). unfold Ran.
  destruct (parse_says T w a4 (mainURL a1) (emoji_flag rest)) as [HS HP].
  destruct (parse_said T w a4 (mainURL a1) (emoji_flag rest)) as [sd r]. cbn [fst snd] in HS, HP. subst sd.
  set (reqs := requests w (mainURL a1) (emoji_flag rest)) in *. intros [-> H].
  destruct HP as [(ps & -> & ->)|(e & t & -> & -> & K)].
  - destruct H as (qs & HPm & HO & H). destruct (print_table a3 (gencat_flag rest) qs) as [text|x|x] eqn:EP.
    + unfold write_out. set (src := header a3 (mainURL a1) (today w) ++ text) in *.
      destruct (gofmt w src) as [fo|] eqn:EG.
      * destruct (writable w) eqn:EW; destruct H as (-> & -> & ->).
        -- exists reqs, (Wrote a2 fo). eexists. eexists. split; [split; [reflexivity|]; exists qs; rewrite EP; fold src; rewrite EG; auto|].
           split; [split; reflexivity|]. split; [split; reflexivity|]. split; [apply printed_log|]. split; [reflexivity|rewrite app_nil_r; reflexivity].
        -- exists reqs, NotWritten. eexists. eexists. split; [split; [reflexivity|]; exists qs; rewrite EP; fold src; rewrite EG; auto|].
           split; [split; reflexivity|]. split; [reflexivity|]. split; [apply printed_log|]. split; [reflexivity|rewrite app_nil_r; reflexivity].
      * destruct H as (-> & -> & ->). exists reqs, BadSource. eexists. eexists. split; [split; [reflexivity|]; exists qs; rewrite EP; fold src; rewrite EG; auto|].
        split; [split; reflexivity|]. split; [exists src; split; [exact EG|reflexivity]|]. split; [apply printed_log|]. split; [reflexivity|rewrite app_nil_r; reflexivity].
    + destruct H.
    + destruct H as (-> & -> & ->). exists reqs, (Crashed x), []. eexists. split; [split; [reflexivity|]; exists qs; rewrite EP; auto|].
      split; [split; reflexivity|]. split; [reflexivity|]. split; [rewrite app_nil_r; apply printed_log|]. split; reflexivity.
  - destruct H as (-> & -> & ->). exists reqs, (BadData e), [t]. eexists. split; [split; reflexivity|].
    split; [split; reflexivity|]. split; [exists t; auto|]. split; [apply printed_log|]. split; [reflexivity|rewrite app_nil_r; reflexivity].
Qed.

Lemma few_said T w args out err status file : (List.length args < 5)%nat ->
  (Saying T w args out err status file <-> out = lit "Not enough arguments, see code for details" ++ [x0a] /\ err = [] /\ status = 1 /\ file = None).
Proof.
  intros H. destruct args as [|? [|? [|? [|? [|? ?]]]]]; cbn [List.length] in H; try lia; cbn [Saying]; tauto.
Qed.

(** Whatever can happen is said. *)
Lemma all_said T w args reqs res : Ran w args reqs res -> exists out err status file, Saying T w args out err status file /\ Ended res status file.
Proof.
  intros H.
  assert (HF : (List.length args < 5)%nat -> exists out err status file, Saying T w args out err status file /\ Ended res status file).
  { intros L. destruct (ran_few _ _ _ _ L H) as [_ ->]. eexists. eexists. eexists. eexists. split; [apply few_said; [exact L|]; repeat split; reflexivity|split; reflexivity]. }
  destruct args as [|prog [|a1 [|a2 [|a3 [|a4 rest]]]]]; try (apply HF; cbn; lia).
  clear HF. unfold Ran in H. destruct H as [_ H]. cbn [Saying].
  destruct (parse_says T w a4 (mainURL a1) (emoji_flag rest)) as [_ HP].
  destruct (parse_said T w a4 (mainURL a1) (emoji_flag rest)) as [sd r]. cbn [fst snd] in HP.
  destruct HP as [(ps & Q & ->)|(e & t & Q & -> & _)]; rewrite Q in H.
  - destruct H as (qs & HPm & HO & H). destruct (print_table a3 (gencat_flag rest) qs) as [text|x|x] eqn:EP.
    + unfold write_out in H. destruct (gofmt w (header a3 (mainURL a1) (today w) ++ text)) as [fo|] eqn:EG.
      * destruct (writable w) eqn:EW; subst res; eexists; eexists; eexists; eexists;
          (split; [split; [reflexivity|]; exists qs; rewrite EP, EG; split; [exact HPm|split; [exact HO|repeat split; reflexivity]]|split; reflexivity]).
      * subst res. eexists; eexists; eexists; eexists.
          (split; [split; [reflexivity|]; exists qs; rewrite EP, EG; split; [exact HPm|split; [exact HO|repeat split; reflexivity]]|split; reflexivity]).
    + destruct (printing _ _ _ _ EP).
    + subst res. eexists; eexists; eexists; eexists.
          (split; [split; [reflexivity|]; exists qs; rewrite EP; split; [exact HPm|split; [exact HO|repeat split; reflexivity]]|split; reflexivity]).
  - subst res. eexists; eexists; eexists; eexists. split; [split; [reflexivity|repeat split; reflexivity]|split; reflexivity].
Qed.

(** Silence and success. *)
Lemma script_says T stamp w early err status file : ScriptSaying T stamp w early = (err, status, file) ->
  (status = 0 /\ err = [] /\ exists out, file = Some (lit "runewidth_table.go", out) /\ snd (Script w early) = Written (lit "runewidth_table.go") out)
  \/ (status = 1 /\ file = None /\ (forall path out, snd (Script w early) <> Written path out) /\
      exists t, Log stamp [t] err /\ ((exists u us, fst (Script w early) = us ++ [u] /\ web w u = None /\ t = getText T u)
        \/ (exists src, gofmt w src = None /\ t = fmtText T src) \/ (writable w = false /\ t = writeText T (lit "runewidth_table.go")))).
Proof.
  unfold ScriptSaying, Script. cbv zeta.
  destruct (web w ea_url) as [ea|] eqn:E1; cbn [fst snd].
  2:{ intros [= <- <- <-]. right. repeat split; try discriminate. eexists. split; [apply printed_log|]. left. exists ea_url, []. auto. }
  destruct (web w em_url) as [em|] eqn:E2.
  2:{ intros [= <- <- <-]. right. repeat split; try discriminate. eexists. split; [apply printed_log|]. left. exists em_url, [ea_url]. auto. }
  destruct (gofmt w (script_text early ea em)) as [out|] eqn:E3.
  2:{ intros [= <- <- <-]. right. repeat split; try discriminate. eexists. split; [apply printed_log|]. right. left. eauto. }
  destruct (writable w) eqn:E4; intros [= <- <- <-].
  - left. repeat split; eauto.
  - right. repeat split; try discriminate. eexists. split; [apply printed_log|]. auto.
Qed.

(** The first fault is named by its line, whether or not the download breaks off
    after it. *)
Lemma main_fault_said T w prog a1 a2 a3 a4 rest out err status file text fails ls k : a1 <> lit "-" ->
  web w (main_url a1) = Some {| bText := text; bFails := fails |} -> ShortLines text -> Lines text ls -> MainFault ls k ->
  Saying T w (prog :: a1 :: a2 :: a3 :: a4 :: rest) out err status file ->
  out = [] /\ status = 1 /\ file = None /\ exists d, Numeral d k /\
    Log (lit "gen_properties (" ++ a4 ++ lit "): ") [lit "Parsing " ++ main_url a1; a4 ++ lit " line " ++ d ++ lit ": no property found"] err.
Proof.
  intros HD HW HS HL HF H. apply said in H. destruct H as (reqs & res & last & txt & (HR1 & HR2) & HE & HLW & HLog & -> & ->).
  destruct (url_cases a1) as [[HD' _]|(_ & HU & HN)]; [contradiction|].
  assert (HB : read_body keep_main MainLine (web w (main_url a1)) = Err (MainLine k)).
  { rewrite HW. unfold read_body. rewrite (scan_short _ _ HS HL). rewrite (proj2 (main_err ls 0 (MainLine k)) (ex_intro _ k (conj eq_refl HF))). reflexivity. }
  rewrite HU in *. remember (main_url a1) as u eqn:Eu. destruct u as [|x u]; [congruence|].
  unfold requests in HR1. rewrite HB in HR1. replace (match emoji_flag rest with [] => [] | _ :: _ => [] end) with (@nil str) in HR1 by (destruct (emoji_flag rest); reflexivity).
  cbn [main_body] in HR2. unfold read_properties in HR2. rewrite HB in HR2. cbn [obind] in HR2.
  assert (res = BadData (MainLine k)) as -> by (destruct (emoji_flag rest); exact HR2).
  cbn [LastWords Blames] in HLW. destruct HLW as (t & -> & d & Hd & ->). destruct HE as [-> ->]. subst reqs.
  split; [reflexivity|]. split; [reflexivity|]. split; [reflexivity|]. exists d. split; [exact Hd|]. rewrite app_nil_r. exact HLog.
Qed.
Lemma emoji_fault_said T w prog a1 a2 a3 a4 rest p out err status file text fails ls k es : EmojisAsked rest p -> p <> [] -> FromMain w a1 es ->
  web w emoji_url = Some {| bText := text; bFails := fails |} -> ShortLines text -> Lines text ls -> EmojiFault p ls k ->
  Saying T w (prog :: a1 :: a2 :: a3 :: a4 :: rest) out err status file ->
  out = [] /\ status = 1 /\ file = None /\ exists d first, Numeral d k /\ (a1 = lit "-" -> first = []) /\ (a1 <> lit "-" -> first = [lit "Parsing " ++ main_url a1]) /\
    Log (lit "gen_properties (" ++ a4 ++ lit "): ") (first ++ [lit "Parsing " ++ emoji_url; lit "emojis line " ++ d ++ lit ": no property found"]) err.
Proof.
  intros HA HN HM HW HS HL HF H. apply said in H. destruct H as (reqs & res & last & txt & HR & HE & HLW & HLog & -> & ->).
  destruct (ran_requests _ _ _ _ _ _ _ _ _ _ HR HA) as (f & s & -> & Hf1 & Hf2 & [(-> & _)|(_ & [?|K])]); [|contradiction|destruct (K _ HM)].
  destruct HR as [_ HR2]. apply emojis_asked in HA. rewrite HA in HR2. destruct p as [|y p]; [congruence|].
  assert (HB : read_body (keep_emoji (y :: p)) EmojiLine (web w emojiURL) = Err (EmojiLine k)).
  { change emojiURL with emoji_url. rewrite HW. unfold read_body. rewrite (scan_short _ _ HS HL).
    rewrite (proj2 (emoji_err (y :: p) HN ls 0 (EmojiLine k)) (ex_intro _ k (conj eq_refl HF))). reflexivity. }
  pose proof (proj2 (main_part w a1 (map prop_of es)) (ex_intro _ es (conj HM eq_refl))) as HMP.
  unfold read_properties in HR2. rewrite HMP, HB in HR2. cbn [obind] in HR2.
  assert (res = BadData (EmojiLine k)) as -> by (destruct (main_body w (mainURL a1)); exact HR2).
  cbn [LastWords Blames] in HLW. destruct HLW as (t & -> & d & Hd & ->). destruct HE as [-> ->].
  split; [reflexivity|]. split; [reflexivity|]. split; [reflexivity|]. exists d, (map (fun u => lit "Parsing " ++ u) f).
  split; [exact Hd|]. split; [intros Q; rewrite (Hf1 Q); reflexivity|]. split; [intros Q; rewrite (Hf2 Q); reflexivity|].
  rewrite app_nil_r. rewrite map_app, <- app_assoc in HLog. exact HLog.
Qed.
