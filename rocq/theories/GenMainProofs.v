(** * GenMainProofs: the command gen_properties. *)
From Coq Require Import Strings.String Permutation.
From Verif Require Import GoBase CacheProofs GenText GenTextSpec GenPattern GenRead GenSource GenLookup GenMain GenMainSpec.
From Coq Require Import ZifyBool ZifyNat.
Local Open Scope Z_scope.

(** ** Flags *)
Lemma split_pieces x s ps : Split x s = ps <-> Pieces x s ps.
Proof.
  assert (F : forall s, Pieces x s (Split x s)).
  { clear. induction s as [|b s IH]; cbn [Split]; [constructor; intros []|]. destruct (Byte.eqb b x) eqn:E.
    - apply beq_true in E. subst b. apply (pieces_more x [] s); [intros []|exact IH].
    - apply beq_false in E. remember (Split x s) as l eqn:El. clear El. destruct IH as [p Hp|p s' qs Hp IH'].
      + constructor. intros [K|K]; [congruence|exact (Hp K)].
      + apply (pieces_more x (b :: p) s' qs); [|exact IH']. intros [K|K]; [congruence|exact (Hp K)]. }
  assert (U : forall s ps, Pieces x s ps -> Split x s = ps).
  { clear. assert (P1 : forall p, ~ In x p -> Split x p = [p]).
    { induction p as [|b p IH]; intros Hp; [reflexivity|]. cbn [Split].
      rewrite (proj2 (beq_false b x)) by (intros ->; apply Hp; left; reflexivity). rewrite IH by (intros K; apply Hp; right; exact K). reflexivity. }
    assert (P2 : forall p s, ~ In x p -> Split x (p ++ x :: s) = p :: Split x s).
    { induction p as [|b p IH]; intros s Hp; cbn [app Split].
      - rewrite (proj2 (beq_true x x)) by reflexivity. reflexivity.
      - rewrite (proj2 (beq_false b x)) by (intros ->; apply Hp; left; reflexivity). rewrite IH by (intros K; apply Hp; right; exact K). reflexivity. }
    induction 1 as [p Hp|p s ps Hp _ IH]; [apply P1, Hp|]. rewrite P2 by exact Hp. rewrite IH. reflexivity. }
  split; [intros <-; apply F|apply U].
Qed.
Lemma add_flag_sets m flag : exists k v, Sets flag k v /\ (forall k' v', Sets flag k' v' -> k' = k /\ v' = v) /\ add_flag m flag = set_flag m k v.
Proof.
  assert (KU : forall (k k' : str) r r', ~ In x3d k -> ~ In x3d k' -> k ++ x3d :: r = k' ++ x3d :: r' -> k = k' /\ r = r').
  { induction k as [|b k IH]; intros [|b' k'] r r' H H' E; cbn [app] in E; injection E; intros; subst; auto.
    - destruct H'. left. reflexivity.
    - destruct H. left. reflexivity.
    - destruct (IH k' r r') as [-> ->]; auto; intros K; [apply H|apply H']; right; exact K. }
  assert (NE : forall (k k' : str) r, ~ In x3d k -> k <> k' ++ x3d :: r).
  { intros k k' r H ->. apply H, in_elt. }
  unfold add_flag. pose proof (proj1 (split_pieces x3d flag _) eq_refl) as P. destruct P as [p Hp|p s ps Hp P].
  - exists p, (lit "yes"). split; [left; auto|]. split; [|reflexivity]. intros k' v' [(-> & _ & ->)|(t & E & _)]; auto.
    exfalso. exact (NE _ _ _ Hp E).
  - destruct P as [q Hq|q s' ps Hq P]; exists p; [exists q|exists q]; (split; [|split; [|reflexivity]]).
    + right. exists []. rewrite app_nil_r. auto.
    + intros k' v' [(<- & H & ->)|(t & E & Hk & Hv & Ht)]; [destruct H; apply in_elt|].
      apply KU in E; auto. destruct E as [-> E]. split; auto. destruct Ht as [->|[u ->]]; [rewrite app_nil_r in E; congruence|].
      exfalso. exact (NE _ _ _ Hq E).
    + right. exists (lit "=" ++ s'). split; [reflexivity|]. split; [exact Hp|]. split; [exact Hq|]. right. exists s'. reflexivity.
    + intros k' v' [(<- & H & ->)|(t & E & Hk & Hv & Ht)]; [destruct H; apply in_elt|].
      apply KU in E; auto. destruct E as [-> E]. split; auto. destruct Ht as [->|[u ->]].
      * rewrite app_nil_r in E. exfalso. exact (NE _ _ _ Hv (eq_sym E)).
      * apply KU in E; auto. destruct E. auto.
Qed.
Lemma fold_flags ps : forall m k v, fold_left add_flag ps m k = Some v <->
  (exists before flag after, ps = before ++ flag :: after /\ Sets flag k v /\ forall g u, In g after -> ~ Sets g k u)
  \/ (m k = Some v /\ forall g u, In g ps -> ~ Sets g k u).
Proof.
  induction ps as [|p ps IH]; intros m k v; cbn [fold_left].
  - split; [intros H; right; split; [exact H|intros g u []]|]. intros [(b & f & a & E & _)|[H _]]; [destruct b; discriminate|exact H].
  - rewrite IH. destruct (add_flag_sets m p) as (k0 & v0 & S & U & E). rewrite E. unfold set_flag. split.
    + intros [(b & f & a & -> & R)|[H N]]; [left; exists (p :: b), f, a; auto|].
      destruct (str_eqb_spec k k0) as [->|D].
      * injection H as <-. left. exists [], p, ps. auto.
      * right. split; [exact H|]. intros g u [<-|K]; [|apply N, K]. intros Sg. apply U in Sg. destruct Sg. contradiction.
    + intros [(b & f & a & Eb & Sf & N)|[H N]].
      * destruct b as [|x b]; injection Eb as -> ->; [|left; exists b, f, a; auto].
        right. split; [|exact N]. apply U in Sf. destruct Sf as [-> ->]. destruct (str_eqb_spec k0 k0); [reflexivity|contradiction].
      * right. split; [|intros g u K; apply N; right; exact K]. destruct (str_eqb_spec k k0) as [->|D]; [|exact H].
        destruct (N p v0 (or_introl eq_refl) S).
Qed.
Lemma flags_asked f rest k v : parse_flags (f :: rest) k = Some v <-> Asked f k v.
Proof.
  unfold parse_flags, Asked. rewrite fold_flags. pose proof (proj1 (split_pieces x2c f _) eq_refl) as P. split.
  - intros [(b & g & a & E & R)|[H _]]; [|discriminate]. exists b, g, a. rewrite <- E. auto.
  - intros (b & g & a & P' & R). left. exists b, g, a. apply split_pieces in P'. auto.
Qed.
Lemma emojis_asked rest p : emoji_flag rest = p <-> EmojisAsked rest p.
Proof.
  unfold emoji_flag. destruct rest as [|f rest]; [cbn; split; congruence|]. unfold EmojisAsked.
  destruct (parse_flags (f :: rest) (lit "emojis")) as [v|] eqn:E.
  - apply flags_asked in E. split; [intros <-; left; exact E|]. intros [H|[_ H]]; [|destruct (H v E)].
    apply (flags_asked f rest) in E, H. congruence.
  - split.
    + intros <-. right. split; [reflexivity|]. intros v H. apply (flags_asked f rest) in H. congruence.
    + intros [H|[-> _]]; [|reflexivity]. apply (flags_asked f rest) in H. congruence.
Qed.
Lemma gencat_asked rest : gencat_flag rest = true <-> CategoryAsked rest.
Proof.
  unfold gencat_flag. destruct rest as [|f rest]; [split; [discriminate|intros []]|]. unfold CategoryAsked.
  destruct (parse_flags (f :: rest) (lit "gencat")) as [v|] eqn:E.
  - apply flags_asked in E. split; eauto.
  - split; [discriminate|]. intros [v H]. apply (flags_asked f rest) in H. congruence.
Qed.

(** ** Data *)
Lemma url_cases a1 : (a1 = lit "-" /\ mainURL a1 = []) \/ (a1 <> lit "-" /\ mainURL a1 = main_url a1 /\ main_url a1 <> []).
Proof.
  unfold mainURL. destruct (str_eqb_spec a1 (lit "-")) as [->|D]; [left; auto|right]. split; [exact D|]. split; [reflexivity|discriminate].
Qed.
Lemma main_part w a1 ps : (match main_body w (mainURL a1) with None => Ok [] | Some b => read_body keep_main MainLine b end) = Ok ps <->
  exists es, FromMain w a1 es /\ ps = map prop_of es.
Proof.
  destruct (url_cases a1) as [[-> ->]|(D & -> & N)]; cbn [main_body].
  - split; [intros [= <-]; exists []; split; [left; auto|reflexivity]|]. intros (es & [[_ ->]|[H _]] & ->); [reflexivity|congruence].
  - destruct (main_url a1) as [|x u] eqn:Eu; [congruence|]. cbn [main_body]. rewrite <- Eu in *. split.
    + intros H. apply body_ok in H. destruct H as (text & ls & E & S & L & R). apply main_ok in R. destruct R as (es & M & ->).
      exists es. split; [|reflexivity]. right. split; [exact D|]. exists ls. split; [exists text; auto|exact M].
    + intros (es & [[H _]|(_ & ls & (text & E & S & L) & M)] & ->); [contradiction|]. rewrite E, (read_short _ _ _ _ S L). apply main_ok. eauto.
Qed.
Lemma emoji_part w property ps : (match property with [] => Ok [] | _ => read_body (keep_emoji property) EmojiLine (web w emojiURL) end) = Ok ps <->
  exists es, FromEmoji w property es /\ ps = map prop_of es.
Proof.
  destruct property as [|x property].
  - split; [intros [= <-]; exists []; split; [left; auto|reflexivity]|]. intros (es & [[_ ->]|[H _]] & ->); [reflexivity|congruence].
  - assert (N : x :: property <> []) by discriminate. split.
    + intros H. apply body_ok in H. destruct H as (text & ls & E & S & L & R). apply (emoji_ok _ N) in R. destruct R as (es & M & ->).
      exists es. split; [|reflexivity]. right. split; [exact N|]. exists ls. split; [exists text; auto|exact M].
    + intros (es & [[H _]|(_ & ls & (text & E & S & L) & M)] & ->); [discriminate|]. change emojiURL with emoji_url.
      rewrite E, (read_short _ _ _ _ S L). apply (emoji_ok _ N). eauto.
Qed.
Lemma read_entries w a1 property ps : read_properties (main_body w (mainURL a1)) property (web w emojiURL) = Ok ps <->
  exists es, Entries w a1 property es /\ ps = map prop_of es.
Proof.
  assert (E0 : (main_body w (mainURL a1) = None /\ property = []) \/ ((a1 <> lit "-" \/ property <> []) /\
    read_properties (main_body w (mainURL a1)) property (web w emojiURL) =
    obind (match main_body w (mainURL a1) with None => Ok [] | Some b => read_body keep_main MainLine b end) (fun ps =>
    obind (match property with [] => Ok [] | _ => read_body (keep_emoji property) EmojiLine (web w emojiURL) end) (fun qs => Ok (ps ++ qs))))).
  { unfold read_properties. destruct (url_cases a1) as [[-> ->]|(D & -> & N)].
    - cbn [main_body]. destruct property as [|x property]; [left; auto|right]. split; [right; discriminate|reflexivity].
    - right. split; [left; exact D|]. destruct (main_url a1) as [|x u]; [congruence|]. cbn [main_body]. reflexivity. }
  destruct E0 as [[E ->]|[A E]].
  - unfold read_properties. rewrite E. split; [discriminate|]. intros (es & ([D|D] & _) & _); [|congruence].
    destruct (url_cases a1) as [[-> _]|(_ & U & N)]; [congruence|]. rewrite U in E. destruct (main_url a1); [congruence|discriminate].
  - rewrite E. clear E. split.
    + destruct (match main_body w (mainURL a1) with None => Ok [] | Some b => read_body keep_main MainLine b end) as [ms|?|?] eqn:E1; cbn [obind]; try discriminate.
      destruct (match property with [] => Ok [] | _ => read_body (keep_emoji property) EmojiLine (web w emojiURL) end) as [fs|?|?] eqn:E2; cbn [obind]; try discriminate.
      intros [= <-]. apply main_part in E1. apply emoji_part in E2. destruct E1 as (es & M & ->), E2 as (gs & F & ->).
      exists (es ++ gs). split; [|symmetry; apply map_app]. split; [exact A|]. eauto.
    + intros (es & (_ & ms & fs & M & F & ->) & ->).
      rewrite (proj2 (main_part w a1 (map prop_of ms))) by eauto. cbn [obind]. rewrite (proj2 (emoji_part w property (map prop_of fs))) by eauto. cbn [obind].
      rewrite map_app. reflexivity.
Qed.
Lemma entries_good w a1 property es : Entries w a1 property es -> Forall GoodEntry es.
Proof.
  intros (_ & ms & fs & M & F & ->). apply Forall_app. split.
  - destruct M as [[_ ->]|(_ & ls & _ & M)]; [constructor|exact (main_good _ _ M)].
  - destruct F as [[_ ->]|(_ & ls & _ & F)]; [constructor|exact (emoji_good _ _ _ F)].
Qed.

(** ** The whole file *)
Lemma header_clean name url date r : ~ In x0a name -> ~ In x0a url -> ~ In x0a date ->
  squeeze (strip false (header name url date ++ r)) = lit "packageuniseg" ++ squeeze (strip false r).
Proof.
  intros Hn Hu Hd. unfold header. rewrite <- !app_assoc.
  rewrite (clean_lit (lit "package uniseg")) by reflexivity. rewrite (clean_lit [x0a; x0a]) by reflexivity.
  change (squeeze (lit "package uniseg")) with (lit "packageuniseg"). change (squeeze [x0a; x0a]) with (@nil byte). cbn [app]. f_equal.
  assert (D : forall l c t, existsb (Byte.eqb x0a) l = false -> ~ In x0a c -> squeeze (strip false (lit "//" ++ l ++ c ++ [x0a] ++ t)) = squeeze (strip false t)).
  { intros l c t El Hc. rewrite (app_assoc l). apply (clean_comment (l ++ c) t). intros K. apply in_app_or in K. destruct K as [K|K]; [|exact (Hc K)].
    apply in_existsb in K. congruence. }
  assert (Z0 : forall t, squeeze (strip false ([x0a] ++ t)) = squeeze (strip false t)) by (intros t; rewrite (clean_lit [x0a]); reflexivity).
  transitivity (squeeze (strip false (lit "//" ++ lit " Code generated via go generate from gen_properties.go. DO NOT EDIT." ++ [] ++ [x0a]
    ++ [x0a] ++ lit "//" ++ lit " " ++ (name ++ lit " are taken from") ++ [x0a]
    ++ lit "//" ++ lit " " ++ url ++ [x0a] ++ lit "//" ++ lit " and" ++ [] ++ [x0a] ++ lit "//" ++ (lit " " ++ emojiURL) ++ [] ++ [x0a]
    ++ lit "//" ++ lit " (""Extended_Pictographic"" only)" ++ [] ++ [x0a]
    ++ lit "//" ++ lit " on " ++ (date ++ lit ". See https://www.unicode.org/license.html for the Unicode") ++ [x0a]
    ++ lit "//" ++ lit " license agreement." ++ [] ++ [x0a] ++ r))).
  - rewrite <- !app_assoc. reflexivity.
  - rewrite D; [|reflexivity|intros []]. rewrite Z0. rewrite D; [|reflexivity|]. rewrite D; [|reflexivity|exact Hu]. rewrite D; [|reflexivity|intros []]. rewrite D; [|reflexivity|intros []].
    rewrite D; [|reflexivity|intros []]. rewrite D; [|reflexivity|]. rewrite D; [reflexivity|reflexivity|intros []].
    + intros K. apply in_app_or in K. destruct K as [K|K]; [exact (Hd K)|]. apply in_existsb in K. discriminate.
    + intros K. apply in_app_or in K. destruct K as [K|K]; [exact (Hn K)|]. apply in_existsb in K. discriminate.
Qed.
Lemma cut_front x pre s h rest : ~ In x pre -> cut x s = Some (h, rest) -> cut x (pre ++ s) = Some (pre ++ h, rest).
Proof.
  intros H C. induction pre as [|b pre IH]; [exact C|]. cbn [app cut]. rewrite (proj2 (beq_false b x)) by (intros ->; apply H; left; reflexivity).
  rewrite IH by (intros K; apply H; right; exact K). reflexivity.
Qed.
Lemma read_front pre src' src h rows : pre <> [] -> ~ In x7b pre -> squeeze (strip false src') = pre ++ squeeze (strip false src) ->
  read_go src = Some [(h, rows)] -> read_go src' = Some [(pre ++ h, rows)].
Proof.
  intros N H E. unfold read_go. rewrite E. set (s := squeeze (strip false src)). clearbody s. cbn [read_decls].
  destruct s as [|b s]; [discriminate|]. destruct (cut x7b (b :: s)) as [[h0 rest]|] eqn:C; [|discriminate].
  destruct (read_rows (List.length rest) rest) as [[rows0 q]|] eqn:R; [|discriminate].
  destruct (read_decls (List.length (b :: s)) q) as [ds|] eqn:Q; [|discriminate]. intros [= -> -> ->].
  assert (q = []) as ->.
  { cbn [List.length read_decls] in Q. destruct q as [|y q]; [reflexivity|]. destruct (cut x7b (y :: q)) as [[h1 r1]|]; [|discriminate].
    destruct (read_rows (List.length r1) r1) as [[rw q1]|]; [|discriminate]. destruct (read_decls (List.length s) q1); discriminate. }
  destruct (pre ++ b :: s) as [|y t] eqn:Ey; [destruct pre; discriminate|]. rewrite <- Ey in *. rewrite (cut_front _ _ _ _ _ H C), R.
  rewrite Ey. reflexivity.
Qed.

Definition row_of (gencat : bool) : entry -> list str := if gencat then row4 else row3.
Lemma text_back gencat name gs : Plain name -> Forall GoodEntry gs -> (gencat = true -> Forall Categorised gs) ->
  exists text, print_table name gencat (map prop_of gs) = Ok text /\
    read_go text = Some [(table_head name (if gencat then lit "4" else lit "3"), map (row_of gencat) gs)].
Proof.
  intros Hn HG HC. apply table_text; [exact Hn|]. rewrite Forall_forall in *. intros g Hg. unfold row_of. destruct gencat.
  - specialize (HC eq_refl). split; [apply prop_row4; auto|]. apply plain_row; [destruct g; discriminate|apply row4_plain; auto].
  - split; [apply prop_row; auto|]. apply plain_row; [destruct g; discriminate|apply row3_plain; auto].
Qed.

(** ** The command *)
Lemma ran_exists w args : exists reqs res, Ran w args reqs res.
Proof.
  unfold Ran. destruct args as [|prog [|a1 [|a2 [|a3 [|a4 rest]]]]]; eauto.
  destruct (read_properties (main_body w (mainURL a1)) (emoji_flag rest) (web w emojiURL)) as [ps|e|r]; eauto.
  destruct (sort_exists ps) as (qs & HP & HO). destruct (print_table a3 (gencat_flag rest) qs) eqn:E; eexists _, _; (split; [reflexivity|]); exists qs; rewrite E; eauto.
Qed.
Lemma ran_few w args reqs res : (List.length args < 5)%nat -> Ran w args reqs res -> reqs = [] /\ res = NotEnough.
Proof. unfold Ran. destruct args as [|prog [|a1 [|a2 [|a3 [|a4 rest]]]]]; auto. cbn [List.length]. lia. Qed.

Lemma ran_requests w prog a1 a2 a3 a4 rest reqs res p : Ran w (prog :: a1 :: a2 :: a3 :: a4 :: rest) reqs res -> EmojisAsked rest p ->
  exists first second, reqs = first ++ second /\ (a1 = lit "-" -> first = []) /\ (a1 <> lit "-" -> first = [main_url a1]) /\
    ((second = [emoji_url] /\ p <> [] /\ exists es, FromMain w a1 es) \/ (second = [] /\ (p = [] \/ forall es, ~ FromMain w a1 es))).
Proof.
  intros [-> _] A. apply emojis_asked in A. rewrite A. clear A. unfold requests. eexists _, _. split; [reflexivity|]. split; [|split].
  - intros ->. reflexivity.
  - intros D. destruct (url_cases a1) as [[-> _]|(_ & -> & N)]; [congruence|]. destruct (main_url a1); [congruence|reflexivity].
  - destruct p as [|x p]; [auto|]. pose proof (main_part w a1) as M. destruct (url_cases a1) as [[-> E]|(D & E & N)]; rewrite E in M |- *.
    + left. split; [reflexivity|]. split; [discriminate|]. exists []. left. auto.
    + destruct (main_url a1) as [|y u]; [congruence|]. cbn [main_body] in M. destruct (read_body keep_main MainLine (web w (y :: u))) as [ps|e|r].
      * left. split; [reflexivity|]. split; [discriminate|]. destruct (proj1 (M ps) eq_refl) as (es & F & _). eauto.
      * right. split; [reflexivity|]. right. intros es F. assert (H := proj2 (M (map prop_of es)) (ex_intro _ es (conj F eq_refl))). discriminate.
      * right. split; [reflexivity|]. right. intros es F. assert (H := proj2 (M (map prop_of es)) (ex_intro _ es (conj F eq_refl))). discriminate.
Qed.

Lemma ran_file w prog a1 a2 a3 a4 rest reqs res p es : Ran w (prog :: a1 :: a2 :: a3 :: a4 :: rest) reqs res ->
  EmojisAsked rest p -> Entries w a1 p es -> (CategoryAsked rest -> Forall Categorised es) ->
  Plain a3 -> ~ In x0a a1 -> ~ In x0a (today w) ->
  exists gs src, Permutation es gs /\ InOrder gs /\
    (CategoryAsked rest -> read_go src = Some [(lit "packageuniseg" ++ table_head a3 (lit "4"), map row4 gs)]) /\
    (~ CategoryAsked rest -> read_go src = Some [(lit "packageuniseg" ++ table_head a3 (lit "3"), map row3 gs)]) /\
    res = match gofmt w src with
          | Some out => if writable w then Wrote a2 out else NotWritten
          | None => BadSource
          end.
Proof.
  intros [_ R] A HE HC Hn H1 Hd. apply emojis_asked in A. rewrite A in R. clear A.
  rewrite (proj2 (read_entries w a1 p (map prop_of es))) in R by eauto. destruct R as (qs & HP & HO & R).
  symmetry in HP. apply Permutation_map_inv in HP. destruct HP as (gs & -> & HP).
  assert (HG : Forall GoodEntry gs) by (rewrite <- HP; eapply entries_good; eauto).
  destruct (text_back (gencat_flag rest) a3 gs Hn HG) as (text & E & ER).
  { intros K. apply gencat_asked in K. rewrite <- HP. exact (HC K). }
  rewrite E in R. exists gs, (header a3 (mainURL a1) (today w) ++ text). split; [exact HP|]. split; [apply ordered_entries; assumption|].
  assert (B : read_go (header a3 (mainURL a1) (today w) ++ text) =
    Some [(lit "packageuniseg" ++ table_head a3 (if gencat_flag rest then lit "4" else lit "3"), map (row_of (gencat_flag rest)) gs)]).
  { eapply read_front; [discriminate| | |exact ER]; [rewrite in_existsb; discriminate|]. apply header_clean; [| |exact Hd].
    - apply (plain_no _ _ Hn). rewrite in_existsb. reflexivity.
    - destruct (url_cases a1) as [[-> ->]|(_ & -> & _)]; [intros []|]. unfold main_url. intros K. apply in_app_or in K.
      destruct K as [K|K]; [rewrite in_existsb in K; discriminate|]. apply in_app_or in K. destruct K as [K|K]; [exact (H1 K)|]. rewrite in_existsb in K. discriminate. }
  rewrite B. split; [|split].
  - intros K. apply gencat_asked in K. rewrite K. reflexivity.
  - intros K. rewrite <- gencat_asked in K. destruct (gencat_flag rest); [congruence|reflexivity].
  - exact R.
Qed.

Lemma ran_wrote w args reqs path out : Ran w args reqs (Wrote path out) ->
  exists prog a1 a3 a4 rest p es, args = prog :: a1 :: path :: a3 :: a4 :: rest /\ EmojisAsked rest p /\ Entries w a1 p es /\
    writable w = true /\ (exists src, gofmt w src = Some out) /\ reqs <> [] /\ forall u, In u reqs -> exists ls, Served w u ls.
Proof.
  intros R. pose proof R as R0. unfold Ran in R. destruct args as [|prog [|a1 [|a2 [|a3 [|a4 rest]]]]]; try (destruct R; discriminate).
  destruct R as [_ R]. destruct (read_properties (main_body w (mainURL a1)) (emoji_flag rest) (web w emojiURL)) as [ps|e|r] eqn:E; try discriminate.
  destruct R as (qs & _ & _ & R). destruct (print_table a3 (gencat_flag rest) qs) as [text|e|r]; try discriminate.
  unfold write_out in R. destruct (gofmt w (header a3 (mainURL a1) (today w) ++ text)) as [o|] eqn:G; [|discriminate].
  destruct (writable w) eqn:W; [|discriminate]. injection R as <- <-. apply read_entries in E. destruct E as (es & HE & _).
  pose proof (proj1 (emojis_asked rest _) eq_refl) as HA. exists prog, a1, a3, a4, rest, (emoji_flag rest), es.
  split; [reflexivity|]. split; [exact HA|]. split; [exact HE|]. split; [reflexivity|]. split; [eauto|].
  destruct (ran_requests _ _ _ _ _ _ _ _ _ _ R0 HA) as (first & second & -> & F1 & F2 & S).
  destruct HE as (N & ms & fs & M & F & ->). split.
  - destruct S as [(-> & _)|(-> & [P|P])].
    + destruct first; discriminate.
    + destruct N as [N|N]; [|contradiction]. rewrite (F2 N). discriminate.
    + destruct (P _ M).
  - intros u K. apply in_app_or in K. destruct K as [K|K].
    + destruct M as [[D _]|(D & ls & HS & _)]; [rewrite (F1 D) in K; destruct K|]. rewrite (F2 D) in K. destruct K as [<-|[]]. eauto.
    + destruct S as [(-> & P & _)|(-> & _)]; [|destruct K]. destruct K as [<-|[]]. destruct F as [[D _]|(_ & ls & HS & _)]; [contradiction|eauto].
Qed.

(** Anything served in place of the emoji data that does not mention the property. *)
Lemma ran_page w prog a1 a2 a3 a4 f more p ls reqs res : a1 <> lit "-" -> Asked f (lit "emojis") p -> (forall v, ~ Asked f (lit "gencat") v) ->
  p <> [] -> Served w emoji_url ls -> Forall (fun l => ~ Mentions p l) ls ->
  Ran w (prog :: a1 :: a2 :: a3 :: a4 :: f :: more) reqs res -> exists reqs', Ran w [prog; a1; a2; a3; a4] reqs' res.
Proof.
  intros D A C N HS HF [_ R]. eexists. split; [reflexivity|].
  assert (Ee : emoji_flag (f :: more) = p) by (apply emojis_asked; left; exact A).
  assert (Eg : gencat_flag (f :: more) = false).
  { destruct (gencat_flag (f :: more)) eqn:E; [|reflexivity]. apply gencat_asked in E. destruct E as [v E]. destruct (C v E). }
  rewrite Ee, Eg in R. change (emoji_flag []) with (@nil byte). change (gencat_flag []) with false.
  assert (FE : FromEmoji w p []).
  { right. split; [exact N|]. exists ls. split; [exact HS|]. clear - HF. induction HF; [constructor|apply em_other; assumption]. }
  assert (Q : read_properties (main_body w (mainURL a1)) p (web w emojiURL) = read_properties (main_body w (mainURL a1)) [] (web w emojiURL)).
  { destruct (url_cases a1) as [[E _]|(_ & E & NE)]; [contradiction|]. rewrite E. destruct (main_url a1) as [|x u]; [congruence|].
    cbn [main_body]. unfold read_properties. destruct (read_body keep_main MainLine (web w (x :: u))); cbn [obind]; try reflexivity.
    rewrite (proj2 (emoji_part w p [])) by (exists []; auto). reflexivity. }
  rewrite Q in R. exact R.
Qed.

(** ** Examples *)
Definition wide_text : str := lit "# EastAsianWidth" ++ [x0a] ++ lit "3000 ; F # Zs IDEOGRAPHIC SPACE" ++ [x0a].
Definition one_file : World :=
  {| web := fun u => if str_eqb u (main_url (lit "EastAsianWidth")) then Some {| bText := wide_text; bFails := false |} else None;
     gofmt := fun src => Some src; writable := true; today := lit "September 10, 2022" |}.
Definition wide_args : list str := [lit "gen_properties"; lit "EastAsianWidth"; lit "eastasianwidth.go"; lit "eastAsianWidth"; lit "eastasianwidth"].
Definition wide_file : str :=
  header (lit "eastAsianWidth") (main_url (lit "EastAsianWidth")) (lit "September 10, 2022")
  ++ lit "var eastAsianWidth = [][3]int{" ++ [x0a; x09] ++ lit "{0x3000,0x3000,prF}, // Zs IDEOGRAPHIC SPACE" ++ [x0a] ++ lit "}".
Lemma wide_ran : Ran one_file wide_args [main_url (lit "EastAsianWidth")] (Wrote (lit "eastasianwidth.go") wide_file).
Proof.
  unfold Ran, wide_args. split; [vm_compute; reflexivity|].
  set (e := {| pFrom := lit "3000"; pTo := lit "3000"; pProp := lit "F"; pComment := lit "Zs IDEOGRAPHIC SPACE" |}).
  replace (read_properties _ _ _) with (Ok [e] : outcome gen_error (list prop4)) by (vm_compute; reflexivity).
  exists [e]. split; [reflexivity|]. split; [constructor|]. vm_compute. reflexivity.
Qed.
Lemma header_says : exists w args reqs path out, Ran w args reqs (Wrote path out) /\ gofmt w = (fun src => Some src) /\
  Mentions emoji_url out /\ ~ In emoji_url reqs.
Proof.
  exists one_file, wide_args, [main_url (lit "EastAsianWidth")], (lit "eastasianwidth.go"), wide_file.
  split; [exact wide_ran|]. split; [reflexivity|]. split.
  - apply contains_iff. vm_compute. reflexivity.
  - intros [K|[]]. vm_compute in K. discriminate.
Qed.
Lemma go_generate : EmojisAsked [lit "emojis=Extended_Pictographic"] (lit "Extended_Pictographic")
  /\ EmojisAsked [lit "gencat,emojis=A,emojis=B=C"] (lit "B") /\ CategoryAsked [lit "gencat,emojis=A,emojis=B=C"]
  /\ EmojisAsked [lit "emojis"] (lit "yes") /\ EmojisAsked [] [] /\ ~ CategoryAsked [lit "Gencat"].
Proof.
  rewrite <- !emojis_asked, <- !gencat_asked. vm_compute. repeat split. discriminate.
Qed.
Lemma wide_entries : exists es, Entries one_file (lit "EastAsianWidth") [] es /\ List.length es = 1%nat
  /\ Plain (lit "eastAsianWidth") /\ ~ In x0a (lit "EastAsianWidth") /\ ~ In x0a (today one_file).
Proof.
  destruct (proj1 (read_entries one_file (lit "EastAsianWidth") []
    [{| pFrom := lit "3000"; pTo := lit "3000"; pProp := lit "F"; pComment := lit "Zs IDEOGRAPHIC SPACE" |}])) as (es & H & E); [vm_compute; reflexivity|].
  exists es. split; [exact H|]. split; [apply (f_equal (@List.length _)) in E; rewrite map_length in E; symmetry; exact E|].
  split; [apply lit_plain; reflexivity|]. split; rewrite in_existsb; discriminate.
Qed.
(** A page in place of the emoji data. *)
Definition with_page : World :=
  {| web := fun u => if str_eqb u emoji_url then Some {| bText := lit "<h1>404 Not Found</h1>"; bFails := false |} else web one_file u;
     gofmt := gofmt one_file; writable := true; today := today one_file |}.
Lemma page_case : Served with_page emoji_url [lit "<h1>404 Not Found</h1>"] /\ ~ Mentions (lit "Extended_Pictographic") (lit "<h1>404 Not Found</h1>")
  /\ Asked (lit "emojis=Extended_Pictographic") (lit "emojis") (lit "Extended_Pictographic")
  /\ (forall v, ~ Asked (lit "emojis=Extended_Pictographic") (lit "gencat") v)
  /\ Ran with_page (wide_args ++ [lit "emojis=Extended_Pictographic"]) [main_url (lit "EastAsianWidth"); emoji_url] (Wrote (lit "eastasianwidth.go") wide_file).
Proof.
  split; [|split; [|split; [|split]]].
  - exists (lit "<h1>404 Not Found</h1>"). split; [reflexivity|]. split; [apply short_line; vm_compute; reflexivity|].
    apply lines_last; [discriminate|rewrite in_existsb; discriminate|]. apply line_plain. intros m E. assert (K : In x0d (lit "<h1>404 Not Found</h1>")) by (rewrite E; apply in_elt).
    rewrite in_existsb in K. discriminate.
  - rewrite <- contains_iff. vm_compute. discriminate.
  - apply (flags_asked _ []). vm_compute. reflexivity.
  - intros v H. apply (flags_asked _ []) in H. vm_compute in H. discriminate.
  - unfold Ran, wide_args. cbn [app]. split; [vm_compute; reflexivity|].
    set (e := {| pFrom := lit "3000"; pTo := lit "3000"; pProp := lit "F"; pComment := lit "Zs IDEOGRAPHIC SPACE" |}).
    replace (read_properties _ _ _) with (Ok [e] : outcome gen_error (list prop4)) by (vm_compute; reflexivity).
    exists [e]. split; [reflexivity|]. split; [constructor|]. vm_compute. reflexivity.
Qed.
