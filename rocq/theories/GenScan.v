(** * GenScan: lines and white space. *)
From Coq Require Import Strings.String.
From Verif Require Import GoBase Utf8 Utf8Proofs Utf8Spec Utf8Theory Regex Locale GenText GenTextSpec.
From Coq Require Import ZifyBool ZifyNat.
Local Open Scope Z_scope.

(** ** Lines *)
Lemma dropCR_line s : Line s (dropCR s).
Proof.
  unfold dropCR. destruct (rev s) as [|b r] eqn:E.
  - apply line_plain. intros m ->. rewrite rev_app_distr in E. discriminate.
  - assert (Es : s = rev r ++ [b]) by (rewrite <- (rev_involutive s), E; reflexivity).
    destruct (Byte.eqb b x0d) eqn:Eb.
    + apply Byte.byte_dec_bl in Eb. subst b. rewrite Es. apply line_cr.
    + apply line_plain. intros m ->. rewrite rev_app_distr in E. injection E as <- _. discriminate Eb.
Qed.
Lemma line_fun raw l l' : Line raw l -> Line raw l' -> l = l'.
Proof.
  intros [m|m Hm] H'.
  - remember (m ++ [x0d]) as t eqn:Er. destruct H' as [n|n Hn].
    + apply app_inj_tail in Er. symmetry. apply Er.
    + destruct (Hn m Er).
  - destruct H' as [n|n Hn]; [|reflexivity]. destruct (Hm n eq_refl).
Qed.
Lemma first_newline (a b c d : str) : ~ In x0a a -> ~ In x0a c -> a ++ x0a :: b = c ++ x0a :: d -> a = c /\ b = d.
Proof.
  revert c. induction a as [|x a IH]; intros [|y c] Ha Hc E; cbn in *.
  - injection E. auto.
  - injection E as <- _. destruct Hc. auto.
  - injection E as -> _. destruct Ha. auto.
  - injection E as -> E. destruct (IH c) as [-> ->]; auto.
Qed.
Lemma lines_fun text ls ls' : Lines text ls -> Lines text ls' -> ls = ls'.
Proof.
  intros H. revert ls'. induction H as [|raw l N I L|raw l rest ls I L H IH]; intros ls' H'.
  - remember (@nil byte) as t eqn:Et. destruct H' as [|raw l N I L|raw l rest ls I L H']; [reflexivity|congruence|]. destruct raw; discriminate.
  - remember raw as t eqn:Et in H'. destruct H' as [|raw' l' N' I' L'|raw' l' rest' ls' I' L' H']; subst.
    + congruence.
    + f_equal. exact (line_fun _ _ _ L L').
    + destruct I. apply in_or_app. right. left. reflexivity.
  - remember (raw ++ x0a :: rest) as t eqn:Et. destruct H' as [|raw' l' N' I' L'|raw' l' rest' ls' I' L' H'].
    + destruct raw; discriminate.
    + subst raw'. destruct I'. apply in_or_app. right. left. reflexivity.
    + destruct (first_newline _ _ _ _ I' I Et) as [-> ->]. f_equal; [exact (line_fun _ _ _ L L')|]. apply IH. exact H'.
Qed.

Lemma short_part a b c : ShortLines (a ++ b ++ c) -> ShortLines b.
Proof. intros H pre run post -> Hn. apply (H (a ++ pre) run (post ++ c)); [rewrite <- !app_assoc; reflexivity|exact Hn]. Qed.

Lemma scan_ok fails s : forall cur, ~ In x0a cur -> ShortLines (cur ++ s) ->
  exists ls, Lines (cur ++ s) ls /\ scan_from fails cur s = (ls, if fails then ScanRead else ScanOk).
Proof.
  induction s as [|b s IH]; intros cur Hc HS; cbn [scan_from].
  - rewrite app_nil_r in *. assert (L : slen cur < 65536) by (apply (HS [] cur []); [rewrite app_nil_r; reflexivity|exact Hc]).
    unfold maxToken. destruct (Z.leb_spec 65536 (slen cur)); [lia|].
    destruct cur as [|x cur]; [exists []; split; [constructor|reflexivity]|].
    exists [dropCR (x :: cur)]. split; [|reflexivity]. apply lines_last; [discriminate|exact Hc|apply dropCR_line].
  - destruct (Byte.eqb b x0a) eqn:E.
    + apply Byte.byte_dec_bl in E. subst b.
      assert (L : slen cur < 65536) by (apply (HS [] cur (x0a :: s)); [reflexivity|exact Hc]).
      unfold maxToken. destruct (Z.leb_spec 65536 (slen cur)); [lia|].
      destruct (IH [] ltac:(auto)) as (ls & A & B).
      { apply (short_part (cur ++ [x0a]) _ []). rewrite app_nil_r, <- app_assoc. exact HS. }
      rewrite B. exists (dropCR cur :: ls). split; [|reflexivity]. apply lines_cons; [exact Hc|apply dropCR_line|exact A].
    + assert (EE : cur ++ b :: s = (cur ++ [b]) ++ s) by (rewrite <- app_assoc; reflexivity). rewrite EE in *. apply IH; [|exact HS].
      intros K. apply in_app_or in K. destruct K as [K|[K|[]]]; [auto|]. subst b. discriminate E.
Qed.

Lemma no_newline_prefix (cur s run post : str) : ~ In x0a run -> cur ++ x0a :: s = run ++ post -> exists x, cur = run ++ x.
Proof.
  revert run. induction cur as [|c cur IH]; intros [|r run] H E; cbn in *.
  - exists []. reflexivity.
  - injection E as <- _. destruct H. auto.
  - exists (c :: cur). reflexivity.
  - injection E as -> E. destruct (IH run) as [x ->]; auto. exists x. reflexivity.
Qed.
Lemma newline_first (cur s pre tl : str) : ~ In x0a cur -> (exists p, pre = p ++ [x0a]) -> cur ++ x0a :: s = pre ++ tl ->
  exists pre', pre = cur ++ x0a :: pre' /\ s = pre' ++ tl /\ (pre' = [] \/ exists p, pre' = p ++ [x0a]).
Proof.
  revert pre. induction cur as [|c cur IH]; intros pre H [p Ep] E; cbn in *.
  - destruct p as [|x p]; cbn in Ep; subst pre; cbn in E.
    + injection E as E2. exists []. auto.
    + injection E as E1 E2. subst x. exists (p ++ [x0a]). split; [reflexivity|]. split; [exact E2|]. right. eauto.
  - destruct p as [|x p]; cbn in Ep; subst pre; cbn in E; injection E as E1 E2.
    + subst c. destruct H. auto.
    + subst x. destruct (IH (p ++ [x0a])) as (pre' & A & B & C); eauto. exists pre'. rewrite A. auto.
Qed.
Lemma scan_long fails run post : ~ In x0a run -> 65536 <= slen run -> forall s cur pre, ~ In x0a cur ->
  cur ++ s = pre ++ run ++ post -> (pre = [] \/ exists p, pre = p ++ [x0a]) -> ShortLines pre ->
  exists ls, Lines pre ls /\ scan_from fails cur s = (ls, ScanTooLong).
Proof.
  intros Hr Hl. induction s as [|b s IH]; intros cur pre Hc E Hp HS; cbn [scan_from].
  - rewrite app_nil_r in E. destruct Hp as [->|[p ->]].
    + cbn [app] in E. subst cur. exists []. split; [constructor|]. rewrite slen_app. pose proof (slen_nonneg post). unfold maxToken.
      destruct (Z.leb_spec 65536 (slen run + slen post)); [reflexivity|lia].
    + subst cur. destruct Hc. rewrite <- app_assoc. apply in_or_app. right. left. reflexivity.
  - destruct (Byte.eqb b x0a) eqn:Eb.
    + apply Byte.byte_dec_bl in Eb. subst b. destruct Hp as [->|Hp].
      * cbn [app] in E. destruct (no_newline_prefix _ _ _ _ Hr E) as [x ->]. exists []. split; [constructor|].
        rewrite slen_app. pose proof (slen_nonneg x). unfold maxToken. destruct (Z.leb_spec 65536 (slen run + slen x)); [reflexivity|lia].
      * destruct (newline_first _ _ _ _ Hc Hp E) as (pre' & -> & -> & Hp').
        assert (L : slen cur < 65536) by (apply (HS [] cur (x0a :: pre')); [reflexivity|exact Hc]).
        unfold maxToken. destruct (Z.leb_spec 65536 (slen cur)); [lia|].
        destruct (IH [] pre' ltac:(auto) eq_refl Hp') as (ls & A & B).
        { apply (short_part (cur ++ [x0a]) _ []). rewrite app_nil_r, <- app_assoc. exact HS. }
        rewrite B. exists (dropCR cur :: ls). split; [|reflexivity]. apply lines_cons; [exact Hc|apply dropCR_line|exact A].
    + apply IH; auto.
      * intros K. apply in_app_or in K. destruct K as [K|[K|[]]]; [auto|]. subst b. discriminate Eb.
      * rewrite <- app_assoc. exact E.
Qed.

(** ** White space *)
Definition space_runes : list Z :=
  [0x09; 0x0A; 0x0B; 0x0C; 0x0D; 0x20; 0x85; 0xA0; 0x1680]
  ++ [0x2000; 0x2001; 0x2002; 0x2003; 0x2004; 0x2005; 0x2006; 0x2007; 0x2008; 0x2009; 0x200A; 0x2028; 0x2029; 0x202F]
  ++ [0x205F; 0x3000].
Lemma is_space_in r : IsSpace r = true <-> In r space_runes.
Proof.
  split.
  - intros H. unfold IsSpace, inb in H. cbn. lia.
  - intros H. cbn in H. repeat (destruct H as [<-|H]; [reflexivity|]). destruct H.
Qed.
Lemma whites_runes : whites = map EncodeRune space_runes.
Proof. vm_compute. reflexivity. Qed.
Lemma space_scalar : Forall Scalar space_runes.
Proof. repeat (apply Forall_cons; [unfold Scalar; lia|]). apply Forall_nil. Qed.
Lemma white_encodes w : In w whites <-> exists r, IsSpace r = true /\ Encodes r w.
Proof.
  rewrite whites_runes. rewrite in_map_iff. split.
  - intros (r & <- & H). exists r. split; [apply is_space_in, H|]. apply encode_encodes. pose proof space_scalar as S. rewrite Forall_forall in S. apply S, H.
  - intros (r & H & He). exists r. apply is_space_in in H. split; [|exact H]. apply (encodes_unique r); [|exact He].
    apply encode_encodes. apply (encodes_scalar _ _ He).
Qed.
Lemma error_no_space : IsSpace RuneError = false.
Proof. reflexivity. Qed.

Lemma white_len w : In w whites -> 1 <= slen w.
Proof. intros H. apply white_encodes in H. destruct H as (r & _ & He). apply encodes_len in He. lia. Qed.
Lemma white_left s r n : s <> [] -> DecodeRune s = (r, n) -> IsSpace r = true -> exists w, In w whites /\ s = w ++ drop n s /\ n = slen w.
Proof.
  intros Hs HD Hr. apply (decode_spec s r n Hs) in HD. destruct HD as [(e & rest & -> & He & ->)|(-> & _)]; [|discriminate Hr].
  exists e. split; [apply white_encodes; eauto|]. rewrite drop_app_exact. auto.
Qed.
Lemma white_left_inv w rest : In w whites -> exists r, DecodeRune (w ++ rest) = (r, slen w) /\ IsSpace r = true.
Proof. intros H. apply white_encodes in H. destruct H as (r & Hr & He). exists r. split; [apply decode_encodes, He|exact Hr]. Qed.

Lemma back_le k : forall n r, n <= back k n r <= n + slen r.
Proof.
  induction k as [|k IH]; intros n [|b r]; cbn [back]; rewrite ?slen_nil, ?slen_cons; try lia; pose proof (slen_nonneg r); try lia.
  destruct (rune_start b); [lia|]. specialize (IH (n + 1) r). lia.
Qed.
Lemma white_right s r n : DecodeLastRune s = (r, n) -> IsSpace r = true ->
  exists w, In w whites /\ s = take (slen s - n) s ++ w /\ n = slen w.
Proof.
  unfold DecodeLastRune. destruct (rev s) as [|b q] eqn:E; [intros [= <- <-] K; discriminate K|].
  assert (Es : s = rev q ++ [b]) by (rewrite <- (rev_involutive s), E; reflexivity).
  assert (Ls : slen s = slen q + 1) by (rewrite Es, slen_app; unfold slen; rewrite rev_length; cbn; lia).
  destruct (Z.ltb_spec (bv b) 0x80) as [Hb|Hb].
  - intros [= <- <-] Hr. exists [b]. split; [apply white_encodes; exists (bv b); split; [exact Hr|constructor; exact Hb]|]. split; [|reflexivity].
    rewrite Ls. replace (slen q + 1 - 1) with (slen (rev q)) by (unfold slen; rewrite rev_length; lia).
    rewrite Es at 2. rewrite take_app_exact. exact Es.
  - set (k := back 3 1 q). pose proof (back_le 3 1 q) as Hk. fold k in Hk.
    destruct (DecodeRune (drop (slen s - k) s)) as [c size] eqn:ED. destruct (Z.eqb_spec size k) as [->|Hn]; [|intros [= <- <-] K; discriminate K].
    intros [= <- <-] Hr. assert (Hd : slen (drop (slen s - k) s) = k) by (rewrite slen_drop; lia).
    assert (Hne : drop (slen s - k) s <> []) by (intros K; rewrite K, slen_nil in Hd; lia).
    destruct (white_left _ _ _ Hne ED Hr) as (w & Hw & E1 & E2). exists w. split; [exact Hw|]. split; [|exact E2].
    assert (E3 : drop k (drop (slen s - k) s) = []) by (apply slen_0; rewrite slen_drop; lia).
    rewrite E3, app_nil_r in E1. rewrite <- E1. symmetry. apply take_drop.
Qed.
Lemma white_right_inv w rest : In w whites -> exists r, DecodeLastRune (rest ++ w) = (r, slen w) /\ IsSpace r = true.
Proof.
  intros H. unfold DecodeLastRune. rewrite rev_app_distr.
  assert (Hd : drop (slen (rest ++ w) - slen w) (rest ++ w) = w).
  { rewrite slen_app. replace (slen rest + slen w - slen w) with (slen rest) by lia. apply drop_app_exact. }
  assert (K : In w whites) by exact H. apply white_encodes in H. destruct H as (r & Hr & He). exists r. split; [|exact Hr].
  pose proof (decode_encodes r w [] He) as HD. rewrite app_nil_r in HD.
  cbn in K. repeat (destruct K as [<-|K]; [
    cbn [rev app]; first [ cbn in HD |- *; injection HD as <-; reflexivity
                         | match goal with |- context [if bv ?b <? 0x80 then _ else _] => change (bv b <? 0x80) with false end; cbn iota;
                           match goal with |- context [back 3 1 ?l] => let v := eval cbn in (back 3 1 l) in change (back 3 1 l) with v end;
                           cbv beta zeta; change (slen [_]) with 1 in *; change (slen [_; _]) with 2 in *; change (slen [_; _; _]) with 3 in *; rewrite Hd, HD; reflexivity ] |]).
  destruct K.
Qed.

Lemma whites_nil : Whites [].
Proof. exists []. split; [reflexivity|constructor]. Qed.
Lemma whites_cons w s : In w whites -> Whites s -> Whites (w ++ s).
Proof. intros Hw (ws & -> & Hs). exists (w :: ws). split; [reflexivity|constructor; assumption]. Qed.
Lemma whites_snoc w s : In w whites -> Whites s -> Whites (s ++ w).
Proof.
  intros Hw (ws & -> & Hs). exists (ws ++ [w]). split; [rewrite concat_app; cbn; rewrite app_nil_r; reflexivity|].
  apply Forall_app. split; [exact Hs|constructor; auto].
Qed.

Lemma trim_left_spec f : forall s, (List.length s <= f)%nat ->
  exists a, s = a ++ trim_left f s /\ Whites a /\ forall w rest, In w whites -> trim_left f s <> w ++ rest.
Proof.
  assert (Nil : forall w rest, In w whites -> [] <> w ++ rest).
  { intros w rest Hw E. pose proof (white_len w Hw) as L. symmetry in E. apply app_eq_nil in E. destruct E as [-> _]. rewrite slen_nil in L. lia. }
  induction f as [|f IH]; intros s Hf.
  - destruct s; [|cbn in Hf; lia]. exists []. split; [reflexivity|]. split; [apply whites_nil|exact Nil].
  - cbn [trim_left]. destruct s as [|x s]; [exists []; split; [reflexivity|]; split; [apply whites_nil|exact Nil]|].
    destruct (DecodeRune (x :: s)) as [r n] eqn:ED. destruct (IsSpace r) eqn:Er.
    + destruct (white_left (x :: s) r n ltac:(discriminate) ED Er) as (w & Hw & E & En). pose proof (white_len w Hw) as Lw.
      destruct (IH (drop n (x :: s))) as (a & Ea & Wa & Na).
      { apply (f_equal (@List.length byte)) in E. rewrite app_length in E. unfold slen in *. cbn [List.length] in *. lia. }
      exists (w ++ a). split; [rewrite <- app_assoc, <- Ea; exact E|]. split; [apply whites_cons; assumption|exact Na].
    + exists []. split; [reflexivity|]. split; [apply whites_nil|]. intros w rest Hw E.
      destruct (white_left_inv w rest Hw) as (r' & D' & Sp). rewrite <- E, ED in D'. injection D' as -> _. congruence.
Qed.
Lemma trim_right_spec f : forall s, (List.length s <= f)%nat ->
  exists b, s = trim_right f s ++ b /\ Whites b /\ forall w rest, In w whites -> trim_right f s <> rest ++ w.
Proof.
  assert (Nil : forall w rest, In w whites -> [] <> rest ++ w).
  { intros w rest Hw E. pose proof (white_len w Hw) as L. symmetry in E. apply app_eq_nil in E. destruct E as [_ ->]. rewrite slen_nil in L. lia. }
  induction f as [|f IH]; intros s Hf.
  - destruct s; [|cbn in Hf; lia]. exists []. split; [reflexivity|]. split; [apply whites_nil|exact Nil].
  - cbn [trim_right]. destruct s as [|x s]; [exists []; split; [reflexivity|]; split; [apply whites_nil|exact Nil]|].
    set (t := x :: s) in *. destruct (DecodeLastRune t) as [r n] eqn:ED. destruct (IsSpace r) eqn:Er.
    + destruct (white_right t r n ED Er) as (w & Hw & E & En). pose proof (white_len w Hw) as Lw.
      destruct (IH (take (slen t - n) t)) as (b & Eb & Wb & Nb).
      { apply (f_equal (@List.length byte)) in E. rewrite app_length in E. unfold slen in *. lia. }
      exists (b ++ w). split; [rewrite app_assoc, <- Eb; exact E|]. split; [apply whites_snoc; assumption|exact Nb].
    + exists []. split; [rewrite app_nil_r; reflexivity|]. split; [apply whites_nil|]. intros w rest Hw E.
      destruct (white_right_inv w rest Hw) as (r' & D' & Sp). rewrite <- E, ED in D'. injection D' as -> _. congruence.
Qed.
Lemma trim_stripped s : Stripped s (TrimSpace s).
Proof.
  unfold TrimSpace. cbv zeta. destruct (trim_left_spec (List.length s) s (le_n _)) as (a & Ea & Wa & Na).
  set (t := trim_left (List.length s) s) in *. destruct (trim_right_spec (List.length t) t (le_n _)) as (b & Eb & Wb & Nb).
  exists a, b. split; [rewrite <- Eb; exact Ea|]. split; [exact Wa|]. split; [exact Wb|]. split; [|exact Nb].
  intros w rest Hw E. apply (Na w (rest ++ b) Hw). rewrite app_assoc, <- E. exact Eb.
Qed.

(** Only one text is left. *)
Lemma whites_front a c b c' b' a' : Whites a -> Whites a' -> a ++ c ++ b = a' ++ c' ++ b' ->
  (forall w rest, In w whites -> c ++ b <> w ++ rest) -> (forall w rest, In w whites -> c' ++ b' <> w ++ rest) -> c ++ b = c' ++ b'.
Proof.
  intros (ws & -> & Hw) Ha'. revert a' Ha'. induction Hw as [|w ws Hw Hws IH]; intros a' (ws' & -> & Hw') E N N'.
  - destruct Hw' as [|w' ws' Hw' Hws']; [exact E|]. cbn [concat app] in E. exfalso. apply (N w' (List.concat ws' ++ c' ++ b') Hw').
    rewrite E, <- app_assoc. reflexivity.
  - destruct Hw' as [|w' ws' Hw' Hws']; cbn [concat] in E.
    + exfalso. apply (N' w (List.concat ws ++ c ++ b) Hw). cbn [app] in E. rewrite <- E, <- app_assoc. reflexivity.
    + rewrite <- !app_assoc in E. destruct (white_left_inv w (List.concat ws ++ c ++ b) Hw) as (r & D & _).
      destruct (white_left_inv w' (List.concat ws' ++ c' ++ b') Hw') as (r' & D' & _). rewrite E, D' in D. injection D as _ L.
      assert (W : w = w').
      { apply (f_equal (firstn (List.length w))) in E. rewrite firstn_app, firstn_all, Nat.sub_diag in E. cbn [firstn] in E.
        replace (List.length w) with (List.length w') in E by (unfold slen in L; lia).
        rewrite firstn_app, firstn_all, Nat.sub_diag in E. cbn [firstn] in E. rewrite !app_nil_r in E. exact E. }
      subst w'. apply app_inv_head in E. apply (IH (List.concat ws')); auto. exists ws'. auto.
Qed.
Lemma whites_back c b c' b' : Whites b -> Whites b' -> c ++ b = c' ++ b' ->
  (forall w rest, In w whites -> c <> rest ++ w) -> (forall w rest, In w whites -> c' <> rest ++ w) -> c = c'.
Proof.
  intros (ws & -> & Hw) Hb'. revert c c' b' Hb'. induction ws as [|w ws IH] using rev_ind; intros c c' b' (ws' & -> & Hw') E N N'.
  - cbn [List.concat] in E. rewrite app_nil_r in E. destruct ws' as [|w' ws'] using rev_ind; [cbn in E; rewrite app_nil_r in E; exact E|].
    apply Forall_app in Hw'. destruct Hw' as [_ Hw']. inversion Hw' as [|? ? K _]; subst. exfalso.
    apply (N w' (c' ++ List.concat ws') K). rewrite concat_app. cbn. rewrite app_nil_r, app_assoc. reflexivity.
  - apply Forall_app in Hw. destruct Hw as [Hws Hw]. inversion Hw as [|? ? K _]; subst. clear Hw.
    rewrite concat_app in E. cbn [List.concat] in E. rewrite app_nil_r in E.
    destruct ws' as [|w' ws' _] using rev_ind.
    + cbn in E. rewrite app_nil_r in E. exfalso. apply (N' w (c ++ List.concat ws) K). rewrite <- E, app_assoc. reflexivity.
    + apply Forall_app in Hw'. destruct Hw' as [Hws' Hw']. inversion Hw' as [|? ? K' _]; subst. clear Hw'.
      rewrite concat_app in E. cbn [List.concat] in E. rewrite app_nil_r, !app_assoc in E.
      destruct (white_right_inv w (c ++ List.concat ws) K) as (r & D & _). destruct (white_right_inv w' (c' ++ List.concat ws') K') as (r' & D' & _).
      rewrite E, D' in D. injection D as _ L.
      assert (W : c ++ List.concat ws = c' ++ List.concat ws').
      { assert (LL : List.length (c ++ List.concat ws) = List.length (c' ++ List.concat ws')).
        { apply (f_equal (@List.length byte)) in E. rewrite !app_length in E. rewrite !app_length. unfold slen in L. lia. }
        apply (f_equal (firstn (List.length (c ++ List.concat ws)))) in E. rewrite firstn_app, firstn_all, Nat.sub_diag in E.
        rewrite LL in E. rewrite firstn_app, firstn_all, Nat.sub_diag in E. cbn [firstn] in E. rewrite !app_nil_r in E. exact E. }
      apply (IH Hws c c' (List.concat ws')); auto. exists ws'. auto.
Qed.
Lemma whites_noncont b : Whites b -> noncont b.
Proof.
  intros (ws & -> & Hw). destruct Hw as [|w ws Hw _]; [exact I|]. cbn [List.concat]. apply white_encodes in Hw. destruct Hw as (r & _ & He).
  destruct He; cbn; lia.
Qed.
Lemma no_span c b : c <> [] -> Whites b -> (forall w rest, In w whites -> c <> w ++ rest) -> forall w rest, In w whites -> c ++ b <> w ++ rest.
Proof.
  intros Hc Hb N w rest Hw E. destruct (white_left_inv w rest Hw) as (r & D & Sp). rewrite <- E in D.
  rewrite DecodeRune_app in D; [|exact Hc|apply whites_noncont, Hb]. destruct (white_left c r _ Hc D Sp) as (w' & Hw' & E' & _).
  exact (N w' _ Hw' E').
Qed.
Lemma whites_app a b : Whites a -> Whites b -> Whites (a ++ b).
Proof. intros (u & -> & Hu) (v & -> & Hv). exists (u ++ v). split; [rewrite concat_app; reflexivity|apply Forall_app; auto]. Qed.
Lemma nil_front : forall w rest, In w whites -> @nil byte <> w ++ rest.
Proof. intros w rest Hw E. pose proof (white_len w Hw) as L. symmetry in E. apply app_eq_nil in E. destruct E as [-> _]. rewrite slen_nil in L. lia. Qed.
Lemma stripped_nil s c : Stripped s [] -> Stripped s c -> c = [].
Proof.
  intros (a & b & -> & Wa & Wb & _) (a' & b' & E & Wa' & Wb' & N & _). destruct c as [|x c]; [reflexivity|]. exfalso.
  cbn [app] in E. assert (K : [] ++ [] = (x :: c) ++ b'); [|discriminate K].
  apply (whites_front (a ++ b) [] [] (x :: c) b' a'); auto.
  - apply whites_app; assumption.
  - cbn [app]. rewrite app_nil_r. exact E.
  - exact nil_front.
  - apply no_span; auto. discriminate.
Qed.
Lemma stripped_fun s c c' : Stripped s c -> Stripped s c' -> c = c'.
Proof.
  intros H H'. destruct c as [|x c]; [symmetry; exact (stripped_nil s c' H H')|]. destruct c' as [|x' c']; [exact (stripped_nil s _ H' H)|].
  destruct H as (a & b & -> & Wa & Wb & N & M), H' as (a' & b' & E & Wa' & Wb' & N' & M').
  apply (whites_back _ b _ b' Wb Wb'); auto. apply (whites_front a _ b _ b' a' Wa Wa'); auto; apply no_span; auto; discriminate.
Qed.
