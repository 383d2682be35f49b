(** * GenRead: property files read by the generator. *)
From Coq Require Import Strings.String.
From Verif Require Import GoBase Utf8 Utf8Proofs Locale LocaleProofs GenText GenTextSpec GenScan GenPattern.
From Coq Require Import ZifyBool ZifyNat.
Local Open Scope Z_scope.

Lemma contains_iff sub s : Contains s sub = true <-> Mentions sub s.
Proof.
  unfold Mentions. induction s as [|x s IH].
  - cbn [Contains]. rewrite orb_false_r. split.
    + intros H. apply HasPrefix_spec in H. destruct H as [r ->]. exists [], r. reflexivity.
    + intros (a & b & E). symmetry in E. apply app_eq_nil in E. destruct E as [-> E]. apply HasPrefix_spec. exists b. symmetry. exact E.
  - cbn [Contains]. rewrite orb_true_iff, IH. split.
    + intros [H|(a & b & ->)]; [apply HasPrefix_spec in H; destruct H as [r E]; exists [], r; exact E|exists (x :: a), b; reflexivity].
    + intros ([|y a] & b & E); [left; apply HasPrefix_spec; exists b; exact E|]. injection E as -> ->. right. exists a, b. reflexivity.
Qed.

Lemma str_eqb_nil s : str_eqb s [] = true <-> s = [].
Proof. unfold str_eqb. destruct (str_eq_dec s []); split; congruence. Qed.
Lemma hash_prefix s : HasPrefix s (lit "#") = true <-> exists d, s = x23 :: d.
Proof. rewrite HasPrefix_spec. reflexivity. Qed.

Lemma keep_main_none line : keep_main line = None <-> Stripped line [] \/ exists c, Stripped line (x23 :: c).
Proof.
  unfold keep_main. pose proof (trim_stripped line) as HT. split.
  - destruct (HasPrefix (TrimSpace line) (lit "#")) eqn:E1; cbn [orb].
    + intros _. apply hash_prefix in E1. destruct E1 as [d E]. right. exists d. rewrite <- E. exact HT.
    + destruct (str_eqb (TrimSpace line) []) eqn:E2; [|discriminate]. intros _. apply str_eqb_nil in E2. left. rewrite <- E2. exact HT.
  - intros [H|[c H]].
    + rewrite (stripped_fun line _ _ HT H). reflexivity.
    + rewrite (stripped_fun line _ _ HT H). reflexivity.
Qed.
Lemma keep_main_some line c : keep_main line = Some c <-> Stripped line c /\ c <> [] /\ forall d, c <> x23 :: d.
Proof.
  unfold keep_main. pose proof (trim_stripped line) as HT. split.
  - destruct (HasPrefix (TrimSpace line) (lit "#")) eqn:E1; cbn [orb]; [discriminate|].
    destruct (str_eqb (TrimSpace line) []) eqn:E2; [discriminate|]. intros [= <-]. split; [exact HT|]. split.
    + intros E. rewrite E in E2. discriminate.
    + intros d E. rewrite E in E1. discriminate.
  - intros (H & N & D). rewrite (stripped_fun line _ _ HT H). destruct (HasPrefix c (lit "#")) eqn:E1.
    + apply hash_prefix in E1. destruct E1 as [d ->]. destruct (D d eq_refl).
    + cbn [orb]. destruct (str_eqb c []) eqn:E2; [apply str_eqb_nil in E2; congruence|reflexivity].
Qed.
Lemma keep_emoji_none property line : property <> [] -> keep_emoji property line = None <-> (exists c, line = x23 :: c) \/ ~ Mentions property line.
Proof.
  intros Hp. unfold keep_emoji. split.
  - destruct (HasPrefix line (lit "#")) eqn:E1; [intros _; apply hash_prefix in E1; left; exact E1|]. cbn [orb].
    destruct (str_eqb line []) eqn:E2; cbn [orb].
    + intros _. apply str_eqb_nil in E2. subst line. right. intros (a & b & E). symmetry in E. apply app_eq_nil in E. destruct E as [_ E]. apply app_eq_nil in E. destruct E. congruence.
    + destruct (Contains line property) eqn:E3; [discriminate|]. intros _. right. rewrite <- contains_iff. congruence.
  - intros [[c ->]|H]; [reflexivity|]. rewrite <- contains_iff in H. destruct (Contains line property); [congruence|]. cbn [negb]. rewrite orb_true_r. reflexivity.
Qed.
Lemma keep_emoji_some property line c : property <> [] -> keep_emoji property line = Some c <-> c = line /\ Mentions property line /\ forall d, line <> x23 :: d.
Proof.
  intros Hp. split.
  - intros H. assert (K : ~ ((exists c, line = x23 :: c) \/ ~ Mentions property line)) by (rewrite <- (keep_emoji_none property line Hp); congruence).
    unfold keep_emoji in H. destruct (_ || _ || _); [discriminate|]. injection H as ->. split; [reflexivity|]. split.
    + apply contains_iff. destruct (Contains c property) eqn:E; [reflexivity|]. destruct K. right. rewrite <- contains_iff. congruence.
    + intros d E. apply K. left. eauto.
  - intros (-> & HM & HD). assert (K : keep_emoji property line <> None) by (rewrite keep_emoji_none by exact Hp; intros [[d E]|K]; [exact (HD d E)|exact (K HM)]).
    unfold keep_emoji in *. destruct (_ || _ || _); [congruence|reflexivity].
Qed.

Lemma line_start c from to_ name comment : PropertyLine c from to_ name comment -> c <> [] /\ forall d, c <> x23 :: d.
Proof.
  intros (w1 & w2 & w3 & b & -> & [L F] & _). destruct F as [|x from Hx F]; [cbn in L; lia|]. split; [discriminate|]. intros d [= -> _].
  revert Hx. rewrite in_existsb. discriminate.
Qed.

(** ** The main file *)
Lemma main_ok lines : forall n ps, read_lines keep_main MainLine n lines = Ok ps <-> exists es, MainFile lines es /\ ps = map prop_of es.
Proof.
  induction lines as [|line rest IH]; intros n ps; cbn [read_lines].
  - split; [intros [= <-]; exists []; split; [constructor|reflexivity]|]. intros (es & H & ->). inversion H. reflexivity.
  - destruct (keep_main line) as [c|] eqn:EK.
    + apply keep_main_some in EK. destruct EK as (HS & N & D). split.
      * destruct (parseProperty c) as [p|] eqn:EP; [|discriminate]. apply parse_inv in EP. destruct EP as (f & t & nm & cm & HP & ->).
        destruct (read_lines keep_main MainLine (n + 1) rest) as [qs|?|?] eqn:ER; cbn [obind]; try discriminate. intros [= <-].
        apply IH in ER. destruct ER as (es & HM & ->). exists (Entry f t nm cm :: es). split; [econstructor; eassumption|reflexivity].
      * intros (es & HM & ->). remember (line :: rest) as ls eqn:El. destruct HM as [|l r e HS' HM|l c' r e HS' HM|l c' f t nm cm r e HS' HP HM]; [discriminate|..]; injection El as -> ->.
        -- pose proof (stripped_fun _ _ _ HS HS'). congruence.
        -- pose proof (stripped_fun _ _ _ HS HS') as E. destruct (D c' E).
        -- rewrite (stripped_fun _ _ _ HS HS'). rewrite (parse_some _ _ _ _ _ HP). rewrite (proj2 (IH (n + 1) (map prop_of e))); [reflexivity|eauto].
    + apply keep_main_none in EK. rewrite IH. split.
      * intros (es & HM & ->). exists es. split; [|reflexivity]. destruct EK as [HS|[c HS]]; [apply main_blank; assumption|eapply main_comment; eassumption].
      * intros (es & HM & ->). remember (line :: rest) as ls eqn:El. destruct HM as [|l r e HS' HM|l c' r e HS' HM|l c' f t nm cm r e HS' HP HM]; [discriminate|..]; injection El as -> ->; eauto.
        exfalso. destruct (line_start _ _ _ _ _ HP) as [N D]. destruct EK as [HS|[c HS]]; pose proof (stripped_fun _ _ _ HS HS') as E; [congruence|exact (D c (eq_sym E))].
Qed.
Lemma main_err lines : forall n e, read_lines keep_main MainLine n lines = Err e <-> exists k, e = MainLine (n + k) /\ MainFault lines k.
Proof.
  induction lines as [|line rest IH]; intros n e; cbn [read_lines].
  - split; [discriminate|]. intros (k & _ & good & line & rest & es & c & E & _). destruct good; discriminate.
  - assert (Skip : keep_main line = None -> forall k, MainFault rest k -> MainFault (line :: rest) (k + 1)).
    { intros EK k (good & l & r & es & c & -> & HM & -> & K). exists (line :: good), l, r, es, c. split; [reflexivity|]. split.
      - apply keep_main_none in EK. destruct EK as [HS|[d HS]]; [apply main_blank; assumption|eapply main_comment; eassumption].
      - split; [cbn [List.length]; lia|exact K]. }
    assert (Down : forall k, MainFault (line :: rest) k -> k = 1 /\ (exists c, keep_main line = Some c /\ parseProperty c = None)
                     \/ MainFault rest (k - 1) /\ (keep_main line = None \/ exists c, keep_main line = Some c /\ parseProperty c <> None)).
    { intros k (good & l & r & es & c & E & HM & -> & HS & N & D & NP). destruct good as [|g good].
      - left. injection E as -> ->. split; [reflexivity|]. exists c. split; [apply keep_main_some; auto|]. destruct (parseProperty c) eqn:EP; [|reflexivity].
        apply parse_inv in EP. destruct EP as (f & t & nm & cm & HP & _). destruct (NP _ _ _ _ HP).
      - right. injection E as -> ->. remember (g :: good) as gs eqn:Eg.
        destruct HM as [|l' r' e' HS' HM|l' c' r' e' HS' HM|l' c' f t nm cm r' e' HS' HP HM]; [discriminate|..]; injection Eg as -> ->; split;
          try (exists good, l, r, e', c; repeat (split; [first [reflexivity|assumption|cbn [List.length]; lia]|]); assumption).
        + left. apply keep_main_none. auto.
        + left. apply keep_main_none. eauto.
        + right. exists c'. destruct (line_start _ _ _ _ _ HP) as [N' D']. split; [apply keep_main_some; auto|]. rewrite (parse_some _ _ _ _ _ HP). discriminate. }
    destruct (keep_main line) as [c|] eqn:EK.
    + destruct (parseProperty c) as [p|] eqn:EP.
      * pose proof EP as EP'. apply parse_inv in EP'. destruct EP' as (f & t & nm & cm & HP & ->). split.
        -- intros H. assert (HR : read_lines keep_main MainLine (n + 1) rest = Err e) by (destruct (read_lines keep_main MainLine (n + 1) rest); cbn in H; congruence).
           apply IH in HR. destruct HR as (k & -> & good & l & r & es & c' & -> & HM & -> & K). exists (Z.of_nat (List.length good) + 1 + 1).
           split; [f_equal; lia|]. exists (line :: good), l, r, (Entry f t nm cm :: es), c'. apply keep_main_some in EK. destruct EK as (HS & _).
           split; [reflexivity|]. split; [econstructor; eassumption|]. split; [cbn [List.length]; lia|exact K].
        -- intros (k & -> & HF). apply Down in HF. destruct HF as [(_ & c' & [= <-] & K)|[HF _]]; [congruence|].
           rewrite (proj2 (IH (n + 1) (MainLine (n + k)))); [reflexivity|]. exists (k - 1). split; [f_equal; lia|exact HF].
      * split.
        -- intros [= <-]. exists 1. split; [reflexivity|]. apply keep_main_some in EK. destruct EK as (HS & N & D).
           exists [], line, rest, [], c. repeat (split; [first [reflexivity|assumption|constructor]|]). apply parse_none, EP.
        -- intros (k & -> & HF). apply Down in HF. destruct HF as [(-> & _)|[_ [K|(c' & [= <-] & K)]]]; [reflexivity|discriminate|congruence].
    + rewrite IH. split.
      * intros (k & -> & HF). exists (k + 1). split; [f_equal; lia|]. apply Skip; [reflexivity|exact HF].
      * intros (k & -> & HF). apply Down in HF. destruct HF as [(_ & c & K & _)|[HF _]]; [discriminate|]. exists (k - 1). split; [f_equal; lia|exact HF].
Qed.

(** ** The emoji file *)
Lemma emoji_ok property : property <> [] -> forall lines n ps,
  read_lines (keep_emoji property) EmojiLine n lines = Ok ps <-> exists es, EmojiFile property lines es /\ ps = map prop_of es.
Proof.
  intros Hp. induction lines as [|line rest IH]; intros n ps; cbn [read_lines].
  - split; [intros [= <-]; exists []; split; [constructor|reflexivity]|]. intros (es & H & ->). inversion H. reflexivity.
  - destruct (keep_emoji property line) as [c|] eqn:EK.
    + apply keep_emoji_some in EK; [|exact Hp]. destruct EK as (-> & HM & D). split.
      * destruct (parseProperty line) as [p|] eqn:EP; [|discriminate]. apply parse_inv in EP. destruct EP as (f & t & nm & cm & HP & ->).
        destruct (read_lines (keep_emoji property) EmojiLine (n + 1) rest) as [qs|?|?] eqn:ER; cbn [obind]; try discriminate. intros [= <-].
        apply IH in ER. destruct ER as (es & HE & ->). exists (Entry f t nm cm :: es). split; [apply em_entry; assumption|reflexivity].
      * intros (es & HE & ->). remember (line :: rest) as ls eqn:El. destruct HE as [|c r e HE|l r e HN HE|l f t nm cm r e HM' HP HE]; [discriminate|..]; injection El; intros; subst.
        -- destruct (D c eq_refl).
        -- contradiction.
        -- rewrite (parse_some _ _ _ _ _ HP). rewrite (proj2 (IH (n + 1) (map prop_of e))); [reflexivity|eauto].
    + apply keep_emoji_none in EK; [|exact Hp]. rewrite IH. split.
      * intros (es & HE & ->). exists es. split; [|reflexivity]. destruct EK as [[c ->]|HN]; [apply em_comment; assumption|apply em_other; assumption].
      * intros (es & HE & ->). remember (line :: rest) as ls eqn:El. destruct HE as [|c r e HE|l r e HN HE|l f t nm cm r e HM' HP HE]; [discriminate|..]; injection El; intros; subst; eauto.
        exfalso. destruct EK as [[c ->]|HN]; [|contradiction]. destruct (line_start _ _ _ _ _ HP) as [_ D]. exact (D c eq_refl).
Qed.
Lemma emoji_err property : property <> [] -> forall lines n e,
  read_lines (keep_emoji property) EmojiLine n lines = Err e <-> exists k, e = EmojiLine (n + k) /\ EmojiFault property lines k.
Proof.
  intros Hp. induction lines as [|line rest IH]; intros n e; cbn [read_lines].
  - split; [discriminate|]. intros (k & _ & good & line & rest & es & E & _). destruct good; discriminate.
  - assert (Down : forall k, EmojiFault property (line :: rest) k -> k = 1 /\ keep_emoji property line = Some line /\ parseProperty line = None
                     \/ EmojiFault property rest (k - 1) /\ (keep_emoji property line = None \/ keep_emoji property line = Some line /\ parseProperty line <> None)).
    { intros k (good & l & r & es & E & HE & -> & HM & D & NP). destruct good as [|g good].
      - left. injection E as -> ->. split; [reflexivity|]. split; [apply keep_emoji_some; auto|]. destruct (parseProperty l) eqn:EP; [|reflexivity].
        apply parse_inv in EP. destruct EP as (f & t & nm & cm & HP & _). destruct (NP _ _ _ _ HP).
      - right. injection E as -> ->. remember (g :: good) as gs eqn:Eg.
        destruct HE as [|c r' e' HE|l' r' e' HN HE|l' f t nm cm r' e' HM' HP HE]; [discriminate|..]; injection Eg; intros; subst; split;
          try (exists good, l, r, e'; repeat (split; [first [reflexivity|assumption|cbn [List.length]; lia]|]); assumption).
        + left. apply keep_emoji_none; eauto.
        + left. apply keep_emoji_none; eauto.
        + right. destruct (line_start _ _ _ _ _ HP) as [N' D']. split; [apply keep_emoji_some; auto|]. rewrite (parse_some _ _ _ _ _ HP). discriminate. }
    assert (Up : forall k, (keep_emoji property line = None \/ keep_emoji property line = Some line /\ parseProperty line <> None) ->
                   EmojiFault property rest k -> EmojiFault property (line :: rest) (k + 1)).
    { intros k HK (good & l & r & es & -> & HE & -> & K). destruct HK as [HK|[HK HP]].
      - exists (line :: good), l, r, es. split; [reflexivity|]. apply keep_emoji_none in HK; [|exact Hp].
        split; [destruct HK as [[c ->]|HN]; [apply em_comment|apply em_other]; assumption|]. split; [cbn [List.length]; lia|exact K].
      - destruct (parseProperty line) as [p|] eqn:EP; [|congruence]. apply parse_inv in EP. destruct EP as (f & t & nm & cm & HPL & ->).
        exists (line :: good), l, r, (Entry f t nm cm :: es). apply keep_emoji_some in HK; [|exact Hp]. destruct HK as (_ & HM & _).
        split; [reflexivity|]. split; [apply em_entry; assumption|]. split; [cbn [List.length]; lia|exact K]. }
    destruct (keep_emoji property line) as [c|] eqn:EK.
    + assert (c = line) by (apply keep_emoji_some in EK; [apply EK|exact Hp]). subst c. destruct (parseProperty line) as [p|] eqn:EP.
      * split.
        -- intros H. assert (HR : read_lines (keep_emoji property) EmojiLine (n + 1) rest = Err e) by (destruct (read_lines (keep_emoji property) EmojiLine (n + 1) rest); cbn in H; congruence).
           apply IH in HR. destruct HR as (k & -> & HF). exists (k + 1). split; [f_equal; lia|]. apply Up; [right; split; [reflexivity|discriminate]|exact HF].
        -- intros (k & -> & HF). apply Down in HF. destruct HF as [(_ & _ & K)|[HF _]]; [congruence|].
           rewrite (proj2 (IH (n + 1) (EmojiLine (n + k)))); [reflexivity|]. exists (k - 1). split; [f_equal; lia|exact HF].
      * split.
        -- intros [= <-]. exists 1. split; [reflexivity|]. apply keep_emoji_some in EK; [|exact Hp]. destruct EK as (_ & HM & D).
           exists [], line, rest, []. repeat (split; [first [reflexivity|assumption|constructor]|]). apply parse_none, EP.
        -- intros (k & -> & HF). apply Down in HF. destruct HF as [(-> & _)|[_ [K|(_ & K)]]]; [reflexivity|discriminate|congruence].
    + rewrite IH. split.
      * intros (k & -> & HF). exists (k + 1). split; [f_equal; lia|]. apply Up; [left; reflexivity|exact HF].
      * intros (k & -> & HF). apply Down in HF. destruct HF as [(_ & K & _)|[HF _]]; [discriminate|]. exists (k - 1). split; [f_equal; lia|exact HF].
Qed.

(** ** Both files *)
Lemma scan_text text ls : ShortLines text -> Lines text ls -> scan {| bText := text; bFails := false |} = (ls, ScanOk).
Proof.
  intros HS HL. unfold scan. cbn [bText bFails]. destruct (scan_ok false text [] (fun x => x) HS) as (ls' & HL' & E). cbn [app] in HL'.
  rewrite (lines_fun _ _ _ HL HL'). exact E.
Qed.
Lemma short_line cur : slen cur < 65536 -> ShortLines cur.
Proof. intros L pre run post -> _. rewrite !slen_app in L. pose proof (slen_nonneg pre). pose proof (slen_nonneg post). lia. Qed.
Lemma short_join cur rest : slen cur < 65536 -> ShortLines rest -> ShortLines (cur ++ x0a :: rest).
Proof.
  intros L HS pre run post E Hr. apply app_eq_app in E. destruct E as (l & [[-> E]|[-> E]]).
  - rewrite slen_app in L. pose proof (slen_nonneg pre). apply app_eq_app in E. destruct E as (m & [[-> E]|[-> E]]).
    + destruct m as [|y m]; [rewrite app_nil_r; lia|]. injection E as <- _. destruct Hr. apply in_or_app. right. left. reflexivity.
    + rewrite slen_app in L. pose proof (slen_nonneg m). lia.
  - destruct l as [|y l]; cbn [app] in E.
    + destruct run as [|z run]; [rewrite slen_nil; lia|]. injection E as <- _. destruct Hr. left. reflexivity.
    + injection E as <- ->. apply (HS l run post); auto.
Qed.
Lemma scan_complete fails s : forall cur ls, scan_from fails cur s = (ls, ScanOk) -> fails = false /\ ShortLines (cur ++ s).
Proof.
  induction s as [|b s IH]; intros cur ls; cbn [scan_from]; unfold maxToken.
  - destruct (Z.leb_spec 65536 (slen cur)) as [|L]; [discriminate|]. destruct fails; [discriminate|]. intros _. split; [reflexivity|].
    rewrite app_nil_r. apply short_line, L.
  - destruct (Byte.eqb b x0a) eqn:Eb.
    + apply Byte.byte_dec_bl in Eb. subst b. destruct (Z.leb_spec 65536 (slen cur)) as [|L]; [discriminate|].
      destruct (scan_from fails [] s) as [l e] eqn:E. intros [= <- ->]. destruct (IH [] l E) as [Hf HS]. split; [exact Hf|]. apply short_join; assumption.
    + intros E. apply IH in E. rewrite <- app_assoc in E. exact E.
Qed.

Lemma body_ok keep bad b (ps : list prop4) : read_body keep bad b = Ok ps ->
  exists text ls, b = Some {| bText := text; bFails := false |} /\ ShortLines text /\ Lines text ls /\ read_lines keep bad 0 ls = Ok ps.
Proof.
  destruct b as [[text fails]|]; [|discriminate]. unfold read_body. destruct (scan {| bText := text; bFails := fails |}) as [ls e] eqn:ES.
  destruct (read_lines keep bad 0 ls) as [qs|?|?] eqn:ER; cbn [obind]; try discriminate. destruct e; try discriminate. intros [= ->].
  pose proof ES as ES'. unfold scan in ES'. cbn [bText bFails] in ES'. destruct (scan_complete _ _ _ _ ES') as [-> HS]. cbn [app] in HS.
  destruct (scan_ok false text [] (fun x => x) HS) as (ls' & HL & E'). rewrite E' in ES'. injection ES' as ->. exists text, ls. auto.
Qed.
Lemma read_short keep bad text ls : ShortLines text -> Lines text ls ->
  read_body keep bad (Some {| bText := text; bFails := false |}) = read_lines keep bad 0 ls.
Proof. intros HS HL. unfold read_body. rewrite (scan_text text ls HS HL). destruct (read_lines keep bad 0 ls); reflexivity. Qed.

Section Texts.
  Variables (m e : str) (ml el : list str).
  Hypotheses (Sm : ShortLines m) (Lm : Lines m ml) (Se : ShortLines e) (Le : Lines e el).
  Let main := Some (Some {| bText := m; bFails := false |}).
  Let emoji := Some {| bText := e; bFails := false |}.
  Lemma both_ok property ps : read_properties main property emoji = Ok ps <->
    exists es fs, MainFile ml es /\ EmojiPart property el fs /\ ps = map prop_of (es ++ fs).
  Proof.
    unfold read_properties, main, emoji. rewrite !(read_short _ _ _ _ Sm Lm), !(read_short _ _ _ _ Se Le). split.
    - destruct (read_lines keep_main MainLine 0 ml) as [qs|?|?] eqn:E1; cbn [obind]; try discriminate.
      apply main_ok in E1. destruct E1 as (es & HM & ->). destruct property as [|x property].
      + cbn [obind]. intros [= <-]. exists es, []. split; [exact HM|]. split; [left; auto|]. rewrite !app_nil_r. reflexivity.
      + destruct (read_lines (keep_emoji (x :: property)) EmojiLine 0 el) as [qs|?|?] eqn:E2; cbn [obind]; try discriminate.
        apply emoji_ok in E2; [|discriminate]. destruct E2 as (fs & HE & ->). intros [= <-]. exists es, fs. split; [exact HM|].
        split; [right; split; [discriminate|exact HE]|]. rewrite map_app. reflexivity.
    - intros (es & fs & HM & HE & ->). rewrite (proj2 (main_ok ml 0 (map prop_of es))) by eauto. cbn [obind]. destruct HE as [[-> ->]|[N HE]].
      + cbn [obind map]. rewrite map_app. reflexivity.
      + destruct property as [|x property]; [congruence|]. rewrite (proj2 (emoji_ok (x :: property) N el 0 (map prop_of fs))) by eauto. cbn [obind].
        rewrite map_app. reflexivity.
  Qed.
  Lemma both_err property err : read_properties main property emoji = Err err <->
    (exists k, MainFault ml k /\ err = MainLine k)
    \/ (property <> [] /\ exists es k, MainFile ml es /\ EmojiFault property el k /\ err = EmojiLine k).
  Proof.
    unfold read_properties, main, emoji. rewrite !(read_short _ _ _ _ Sm Lm), !(read_short _ _ _ _ Se Le).
    destruct (read_lines keep_main MainLine 0 ml) as [qs|err1|pr] eqn:E1; cbn [obind].
    - pose proof E1 as E1'. apply main_ok in E1'. destruct E1' as (es & HM & ->). split.
      + destruct property as [|x property]; [cbn [obind]; discriminate|].
        destruct (read_lines (keep_emoji (x :: property)) EmojiLine 0 el) as [qs|err2|pr] eqn:E2; cbn [obind]; try discriminate. intros [= <-].
        apply emoji_err in E2; [|discriminate]. destruct E2 as (k & -> & HF). right. split; [discriminate|]. exists es, k. auto.
      + intros [(k & HF & ->)|(N & es' & k & _ & HF & ->)].
        * rewrite (proj2 (main_err ml 0 (MainLine (0 + k)))) in E1 by eauto. discriminate.
        * destruct property as [|x property]; [congruence|]. rewrite (proj2 (emoji_err (x :: property) N el 0 (EmojiLine (0 + k)))) by eauto. reflexivity.
    - pose proof E1 as E1'. apply main_err in E1'. destruct E1' as (k & -> & HF). split.
      + intros K. assert (K' : Err (MainLine (0 + k)) = @Err gen_error (list prop4) err) by (destruct property; exact K). injection K' as <-. left. eauto.
      + intros [(k' & HF' & ->)|(N & es' & k' & HM & _)].
        * assert (K : read_lines keep_main MainLine 0 ml = Err (MainLine (0 + k'))) by (apply main_err; eauto). rewrite E1 in K. injection K as ->. destruct property; reflexivity.
        * rewrite (proj2 (main_ok ml 0 (map prop_of es'))) in E1 by eauto. discriminate.
    - exfalso. clear - E1. revert E1. generalize 0. induction ml as [|l r IH]; intros n; cbn [read_lines]; [discriminate|].
      destruct (keep_main l) as [c|]; [|apply IH]. destruct (parseProperty c); [|discriminate]. specialize (IH (n + 1)).
      destruct (read_lines keep_main MainLine (n + 1) r); cbn [obind]; try discriminate. intros [= ->]. destruct IH. reflexivity.
  Qed.
End Texts.

(** Nothing is read from a file that could not be read to its end. *)
Lemma whole_files main property emoji ps : read_properties main property emoji = Ok ps ->
  (forall b, main = Some b -> exists text, b = Some {| bText := text; bFails := false |} /\ ShortLines text)
  /\ (property <> [] -> exists text, emoji = Some {| bText := text; bFails := false |} /\ ShortLines text)
  /\ (main = None -> property <> []).
Proof.
  unfold read_properties. intros H.
  assert (HN : main = None -> property <> []) by (intros -> ->; discriminate).
  assert (H' : obind (match main with None => Ok [] | Some b => read_body keep_main MainLine b end) (fun ps =>
    obind (match property with [] => Ok [] | _ => read_body (keep_emoji property) EmojiLine emoji end) (fun qs => Ok (ps ++ qs))) = Ok ps)
    by (destruct main, property; [exact H..|discriminate H|exact H]). clear H.
  destruct (match main with None => Ok [] | Some b => read_body keep_main MainLine b end) as [qs|?|?] eqn:E1; cbn [obind] in H'; try discriminate.
  destruct (match property with [] => Ok [] | _ => read_body (keep_emoji property) EmojiLine emoji end) as [qs'|?|?] eqn:E2; cbn [obind] in H'; try discriminate.
  split; [|split; [|exact HN]].
  - intros b ->. apply (body_ok) in E1. destruct E1 as (text & ls & -> & HS & _). eauto.
  - intros N. destruct property as [|x property]; [congruence|]. apply (body_ok) in E2. destruct E2 as (text & ls & -> & HS & _). eauto.
Qed.
