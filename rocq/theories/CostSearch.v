(** * CostSearch: searches for escape sequences, and the cache. *)
From Coq Require Import Strings.String.
From Verif Require Import GoBase Utf8 Utf8Proofs Runewidth Regex Width EscapeSpec RegexProofs ScanProofs CacheProofs Cost CostSpec.
From Coq Require Import ZifyBool ZifyNat.
Local Open Scope Z_scope.

(** Searches one after the other, each with a number of bytes that settles it. *)
Inductive Searches : str -> list Z -> Prop :=
| ss_end : Searches [] []
| ss_none s n : s <> [] -> FindStringIndex ansiEscapeRE s = None -> Settled s n -> Searches s [n]
| ss_hit s i j n ns : FindStringIndex ansiEscapeRE s = Some (i, j) -> Settled s n -> Searches (drop j s) ns -> Searches s (n :: ns).

Lemma tail_dec r : {TailChar r} + {~ TailChar r}.
Proof.
  destruct (existsb (Z.eqb r) (map bv (lit digits) ++ map bv (lit punctuation) ++ map bv (lit finals))) eqn:E;
    [left|right]; rewrite TailChar_b; congruence.
Qed.
Lemma tail_span (l : text) : exists tail after, l = tail ++ after /\ Forall (fun x => TailChar (fst x)) tail /\
  (forall x q, after = x :: q -> ~ TailChar (fst x)).
Proof.
  induction l as [|x l (tail & after & -> & F & K)].
  - exists [], []. split; [reflexivity|]. split; [constructor|discriminate].
  - destruct (tail_dec (fst x)) as [T|T].
    + exists (x :: tail), after. split; [reflexivity|]. split; [constructor; auto|exact K].
    + exists [], (x :: tail ++ after). split; [reflexivity|]. split; [constructor|]. intros y q E. injection E as <- <-. exact T.
Qed.

(** Text that ends with an ASCII character is decoded the same whatever follows. *)
Lemma decode_sync p l r n : decode p = l ++ [(r, n)] -> 0 <= r < 128 -> forall z, decode (p ++ z) = decode p ++ decode z.
Proof.
  intros E R z. destruct (decode_split _ _ _ E) as (p0 & q0 & -> & D0 & D1 & _).
  assert (N : q0 <> []) by (intros ->; discriminate).
  destruct q0 as [|c q0]; [congruence|].
  destruct (Z_lt_ge_dec (bv c) 128) as [A|A].
  - rewrite decode_ascii in D1 by lia. injection D1 as D1 D2 D3. apply decode_nil_inv in D3. subst q0.
    rewrite <- app_assoc. cbn [app]. rewrite !decode_app_ascii by lia. rewrite decode_nil, <- app_assoc. reflexivity.
  - exfalso. rewrite decode_cons in D1 by discriminate. pose proof (DecodeRune_class (c :: q0) N) as K.
    pose proof (f_equal (hd (0, 0)) D1) as D2. cbn [hd] in D2. rewrite D2 in K.
    assert (X : fst (DecodeRune (c :: q0)) = r) by (rewrite D2; reflexivity). unfold DecodeRune in X.
    destruct (Z.ltb_spec (bv c) 0x80); [lia|].
    assert (n = 1) by lia. subst n.
    assert (X' : snd (DecodeRune (c :: q0)) = 1) by (rewrite D2; reflexivity). unfold DecodeRune in X'.
    destruct (Z.ltb_spec (bv c) 0x80); [lia|].
    repeat match goal with
    | X : context [if ?b then _ else _] |- _ => destruct b
    | X : context [match ?l with [] => _ | _ :: _ => _ end] |- _ => destruct l
    end; cbn [fst snd] in X, X'; unfold RuneError in *; try lia.
Qed.
Lemma first_high c q : 128 <= bv c -> forall x l, decode (c :: q) = x :: l -> ~ TailChar (fst x).
Proof.
  intros A x l E T. apply TailChar_range in T.
  destruct x as [r n]. cbn [fst] in T. rewrite decode_cons in E by discriminate.
  pose proof (f_equal (hd (0, 0)) E) as D2. cbn [hd] in D2.
  pose proof (DecodeRune_class (c :: q) ltac:(discriminate)) as K. rewrite D2 in K.
  assert (X : fst (DecodeRune (c :: q)) = r) by (rewrite D2; reflexivity).
  assert (X' : snd (DecodeRune (c :: q)) = 1) by (rewrite D2; cbn; lia). unfold DecodeRune in X, X'.
  destruct (Z.ltb_spec (bv c) 0x80); [lia|].
  repeat match goal with
  | X : context [if ?b then _ else _] |- _ => destruct b
  | X : context [match ?l with [] => _ | _ :: _ => _ end] |- _ => destruct l
  end; cbn [fst snd] in X, X'; unfold RuneError in *; try lia.
Qed.
Lemma first_byte c q q' x l x' l' : decode (c :: q) = x :: l -> ~ TailChar (fst x) -> decode (c :: q') = x' :: l' -> ~ TailChar (fst x').
Proof.
  intros D T D'. destruct (Z_lt_ge_dec (bv c) 128) as [A|A]; [|eapply first_high; [|exact D']; lia].
  rewrite decode_ascii in D, D' by lia. injection D as <- _. injection D' as <- _. exact T.
Qed.

Lemma marked_eq p q t : firstn (Datatypes.S (List.length p)) (marked t) = firstn (Datatypes.S (List.length p)) (marked (p ++ q)) ->
  match q with
  | [] => t = p
  | c :: _ => exists q', t = p ++ c :: q'
  end.
Proof.
  revert t. induction p as [|a p IH]; intros t E.
  - cbn [List.length app] in E. unfold marked in E. destruct q as [|c q], t as [|d t]; cbn [map app firstn] in E;
      try discriminate; [reflexivity|]. injection E as ->. exists t. reflexivity.
  - destruct t as [|d t]; [unfold marked in E; cbn [map app List.length firstn] in E; discriminate|].
    cbn [List.length app] in E. change (marked (d :: t)) with (Some d :: marked t) in E.
    change (marked (a :: p ++ q)) with (Some a :: marked (p ++ q)) in E.
    rewrite (firstn_cons (Datatypes.S (List.length p))), (firstn_cons (Datatypes.S (List.length p))) in E. injection E as -> E.
    specialize (IH _ E). destruct q as [|c q]; [congruence|]. destruct IH as (q' & ->). exists q'. reflexivity.
Qed.

(** What follows the first character that cannot belong to the sequence does
    not matter. *)
Lemma first_same pre m tail x after x' after' : FirstEscape pre m (tail ++ x :: after) -> ~ TailChar (fst x') ->
  FirstEscape pre m (tail ++ x' :: after').
Proof.
  intros (A & B & C) T'. split; [exact A|]. split.
  - intros pre' m' rest' E M. rewrite (app_assoc pre), app_assoc in E.
    destruct (no_cross _ _ _ _ _ _ T' M E) as [(r0 & E1 & _)|(p0 & -> & _)].
    + apply (B pre' m' (r0 ++ x :: after)); [|exact M]. rewrite (app_assoc pre), app_assoc, E1, <- !app_assoc. reflexivity.
    + rewrite !app_length. lia.
  - intros m' rest' E M. rewrite app_assoc in E.
    destruct (no_cross _ _ _ [] _ _ T' M E) as [(r0 & E1 & _)|(p0 & E1 & _)].
    + apply (C m' (r0 ++ x :: after)); [|exact M]. cbn [app] in E1. rewrite app_assoc, E1, <- !app_assoc. reflexivity.
    + exfalso. symmetry in E1. apply app_eq_nil in E1. destruct E1 as [E1 _]. apply app_eq_nil in E1. destruct E1 as [-> _].
      apply Escape_nonempty in A. apply A. reflexivity.
Qed.
Lemma find_first s pre m rest : decode s = pre ++ m ++ rest -> FirstEscape pre m rest ->
  FindStringIndex ansiEscapeRE s = Some (nb pre, nb pre + nb m).
Proof.
  intros D F. destruct (FindStringIndex ansiEscapeRE s) as [[i j]|] eqn:E.
  - destruct (FindStringIndex_some _ _ _ E) as (p & m' & r & D' & F' & -> & ->).
    rewrite D in D'. destruct (FirstEscape_unique _ _ _ _ _ _ D' F F') as (-> & -> & ->). reflexivity.
  - exfalso. apply (FindStringIndex_none _ E _ _ _ D). destruct F. assumption.
Qed.

Lemma last_tail m tail : Escape (text_runes m) -> Forall (fun x => TailChar (fst x)) tail ->
  exists l x, m ++ tail = l ++ [x] /\ TailChar (fst x).
Proof.
  intros M F. destruct (Escape_shape _ M) as (i & t & E & _ & T & N). destruct m as [|x0 m]; [discriminate|].
  cbn [text_runes map] in E. injection E as _ E.
  assert (F2 : Forall (fun x => TailChar (fst x)) (m ++ tail)).
  { apply Forall_app. split; [|exact F]. rewrite <- E in T. clear -T. unfold text_runes in T. induction m as [|a m IH]; [constructor|].
    cbn [map] in T. inversion T; subst. constructor; auto. }
  assert (N2 : m ++ tail <> []).
  { intros K. apply app_eq_nil in K. destruct K as [-> _]. apply N. rewrite <- E. reflexivity. }
  destruct (exists_last N2) as (l & x & El). exists (x0 :: l), x. split; [cbn [app]; rewrite El; reflexivity|].
  rewrite El in F2. apply Forall_app in F2. destruct F2 as [_ F2]. inversion F2; subst. assumption.
Qed.

Lemma settled_hit s pre m tail after : decode s = pre ++ m ++ tail ++ after -> FirstEscape pre m (tail ++ after) ->
  Forall (fun x => TailChar (fst x)) tail -> (forall x q, after = x :: q -> ~ TailChar (fst x)) ->
  Settled s (nb pre + nb m + nb tail + 1).
Proof.
  intros D F Ft Fa. rewrite (app_assoc m), app_assoc in D.
  destruct (decode_split _ _ _ D) as (p & q & -> & Dp & Dq & Lp). rewrite !nb_app in Lp.
  destruct (last_tail m tail (proj1 F) Ft) as (l & [r n] & El & Tl).
  assert (Sy : forall z, decode (p ++ z) = decode p ++ decode z).
  { apply (decode_sync p (pre ++ l) r n); [rewrite Dp, El, app_assoc; reflexivity|]. apply TailChar_range in Tl. cbn [fst] in Tl. lia. }
  intros t E. replace (Z.to_nat (nb pre + nb m + nb tail + 1)) with (Datatypes.S (List.length p)) in E by (unfold slen in Lp; lia).
  apply marked_eq in E. destruct q as [|c q]; [rewrite app_nil_r; subst t; reflexivity|].
  destruct E as (q' & ->).
  destruct after as [|x after]; [apply decode_nil_inv in Dq; discriminate|].
  assert (N : exists x' after', decode (c :: q') = x' :: after').
  { rewrite decode_cons by discriminate. eauto. }
  destruct N as (x' & after' & D'). pose proof (first_byte _ _ _ _ _ _ _ Dq (Fa _ _ eq_refl) D') as T'.
  rewrite (find_first (p ++ c :: q) pre m (tail ++ x :: after)); [|rewrite Sy, Dp, Dq, <- !app_assoc; reflexivity|exact F].
  apply (find_first _ pre m (tail ++ x' :: after')); [rewrite Sy, Dp, D', <- !app_assoc; reflexivity|].
  eapply first_same; eauto.
Qed.
Lemma settled_all s : Settled s (slen s + 1).
Proof.
  intros t E. replace (Z.to_nat (slen s + 1)) with (Datatypes.S (List.length s)) in E by (unfold slen; lia).
  rewrite <- (app_nil_r s) in E at 3. apply marked_eq in E. subst t. reflexivity.
Qed.

Lemma nb_nonneg s l : decode s = l -> forall a b, l = a ++ b -> 0 <= nb a.
Proof. intros D a b ->. apply (nb_decode_nonneg a s [] b). exact D. Qed.

Lemma searches_from n : forall s tail after, (List.length s <= n)%nat -> decode s = tail ++ after -> Forall (fun x => TailChar (fst x)) tail ->
  exists ns, Searches s ns /\ zsum ns <= 2 * (slen s + 1) - nb tail.
Proof.
  induction n as [|n IH]; intros s tail after L D F.
  { destruct s; [|cbn in L; lia]. exists []. split; [constructor|].
    rewrite decode_nil in D. symmetry in D. apply app_eq_nil in D. destruct D as [-> _]. vm_compute. discriminate. }
  assert (Lt : nb tail <= slen s).
  { pose proof (decode_bytes s) as K. rewrite D, nb_app in K.
    pose proof (nb_decode_nonneg after s tail []) as K2. rewrite app_nil_r in K2. specialize (K2 D). lia. }
  destruct (list_eq_dec Byte.byte_eq_dec s []) as [->|Ns].
  { exists []. split; [constructor|]. change (slen (@nil byte)) with 0 in *. change (zsum []) with 0. lia. }
  destruct (FindStringIndex ansiEscapeRE s) as [[i j]|] eqn:E.
  - destruct (FindStringIndex_some _ _ _ E) as (pre & m & rest & D' & F1 & Hi & Hj).
    destruct (tail_span rest) as (tail2 & after2 & -> & Ft & Fa).
    pose proof (settled_hit _ _ _ _ _ D' F1 Ft Fa) as St.
    rewrite app_assoc in D'. destruct (decode_split _ _ _ D') as (p & q & -> & Dp & Dq & Lp). rewrite nb_app in Lp.
    assert (Hp : 0 <= nb pre) by (apply (nb_nonneg p _ Dp pre m); reflexivity).
    assert (Hm : 2 <= nb m).
    { pose proof (nb_decode_ge m p pre []) as K. rewrite app_nil_r in K. specialize (K Dp).
      destruct F1 as [M _]. apply Escape_length2 in M. unfold text_runes in M. rewrite map_length in M. lia. }
    assert (Hd : drop j (p ++ q) = q) by (rewrite Hj, <- Lp; apply drop_app_exact).
    destruct (IH q tail2 after2) as (ns & Sq & Bq).
    { rewrite app_length in L. unfold slen in Lp. lia. }
    { exact Dq. }
    { exact Ft. }
    exists (nb pre + nb m + nb tail2 + 1 :: ns). split.
    { eapply ss_hit; [exact E|exact St|]. rewrite Hd. exact Sq. }
    assert (Hc : nb tail <= nb pre).
    { rewrite D, <- app_assoc in D'. destruct (app_split _ _ _ _ D') as [(l & -> & El)|(l & -> & _)].
      - destruct l as [|x l]; [rewrite app_nil_r; lia|]. exfalso. destruct F1 as [M _].
        destruct (Escape_shape _ M) as (i0 & t & Em & Hi0 & _ & _). destruct m as [|y m]; [discriminate|].
        cbn [text_runes map] in Em. injection Em as Em _. cbn [app] in El. injection El as <- _.
        apply Forall_app in F. destruct F as [_ F]. inversion F; subst. apply TailChar_range in H1. lia.
      - rewrite nb_app. pose proof (nb_decode_nonneg l p tail m) as K. rewrite <- app_assoc in Dp. specialize (K Dp). lia. }
    unfold zsum in *. cbn [fold_right]. rewrite slen_app. lia.
  - exists [slen s + 1]. split; [apply ss_none; [exact Ns|exact E|apply settled_all]|].
    unfold zsum. cbn [fold_right]. lia.
Qed.
Lemma searches_linear s : exists ns, Searches s ns /\ zsum ns <= 2 * (slen s + 1).
Proof.
  destruct (searches_from (List.length s) s [] (decode s) (le_n _) eq_refl (Forall_nil _)) as (ns & A & B).
  exists ns. split; [exact A|]. change (nb []) with 0 in B. lia.
Qed.
(** One search for each escape sequence, and at most one more. *)
Lemma searches_count s ns : Searches s ns -> forall ms, Scan (decode s) ms -> (List.length ms <= List.length ns <= Datatypes.S (List.length ms))%nat.
Proof.
  induction 1 as [|s n N E St|s i j n ns E St X IH]; intros ms Sc.
  - rewrite (Scan_unique _ _ Sc _ Scan_nil). cbn. lia.
  - assert (Scan (decode s) []) as S0 by (constructor; apply FindStringIndex_none; exact E).
    rewrite (Scan_unique _ _ Sc _ S0). cbn. lia.
  - destruct (FindStringIndex_some _ _ _ E) as (pre & m & rest & D & F & -> & ->).
    assert (Dd : decode (drop (nb pre + nb m) s) = rest).
    { rewrite app_assoc in D. destruct (decode_split _ _ _ D) as (p & q & -> & _ & Dq & Lp). rewrite nb_app in Lp.
      rewrite <- Lp, drop_app_exact. exact Dq. }
    destruct (Scan_exists_decode (drop (nb pre + nb m) s)) as (ms' & Sc'). specialize (IH _ Sc').
    rewrite Dd in Sc'. rewrite D in Sc. rewrite (Scan_unique _ _ Sc _ (scan_next _ _ _ _ F Sc')). cbn [List.length]. lia.
Qed.

(** The loop searches as in [Searches]. *)
Lemma searched_loop fuel : forall s start total ns, 0 <= start <= slen s -> (List.length (drop start s) < fuel)%nat -> Searches (drop start s) ns ->
  exists total' texts, countMatchesC_loop fuel ansiEscapeRE s start total = Some (total', texts) /\ Forall2 Settled texts ns.
Proof.
  induction fuel as [|f IH]; intros s start total ns B L X; [lia|]. cbn [countMatchesC_loop].
  destruct (Z.ltb_spec start (slen s)) as [Lt|Ge].
  - inversion X as [E|u n N E St|u i j n ns' E St X']; subst.
    + exfalso. pose proof (slen_drop start s ltac:(lia)) as K. rewrite <- E in K. cbn in K. lia.
    + rewrite E. exists total, [drop start s]. split; [reflexivity|]. constructor; [exact St|constructor].
    + rewrite E. destruct (FindStringIndex_some _ _ _ E) as (pre & m & rest & D & F & -> & ->).
      rewrite app_assoc in D. destruct (decode_split _ _ _ D) as (p & q & Es & Dp & Dq & Lp). rewrite nb_app in Lp.
      assert (Hp : 0 <= nb pre) by (apply (nb_nonneg p _ Dp pre m); reflexivity).
      assert (Hm : 1 <= nb m).
      { pose proof (nb_decode_ge m p pre []) as K. rewrite app_nil_r in K. specialize (K Dp).
        destruct F as [M _]. apply Escape_length2 in M. unfold text_runes in M. rewrite map_length in M. lia. }
      pose proof (slen_drop start s ltac:(lia)) as Ld.
      assert (Lq : slen (drop start s) = slen p + slen q) by (rewrite Es, slen_app; reflexivity). pose proof (slen_nonneg q).
      rewrite drop_drop in X' by lia.
      destruct (IH s (start + (nb pre + nb m)) (total + (nb pre + nb m - nb pre - 1)) ns') as (t' & texts & R & Fs).
      * lia.
      * pose proof (slen_drop (start + (nb pre + nb m)) s ltac:(lia)). unfold slen in *. lia.
      * exact X'.
      * rewrite R. exists t', (drop start s :: texts). split; [reflexivity|]. constructor; [exact St|exact Fs].
  - assert (E0 : drop start s = []) by (apply slen_0; rewrite slen_drop by lia; lia). rewrite E0 in X.
    exists total, []. split; [reflexivity|]. inversion X as [|u n N|u i j n ns' E]; subst; [constructor|congruence|].
    exfalso. revert E. vm_compute. discriminate.
Qed.
Lemma countC_fst r s fuel : forall start total, option_map fst (countMatchesC_loop fuel r s start total) = countMatches_loop fuel r s start total.
Proof.
  induction fuel as [|f IH]; intros start total; [reflexivity|]. cbn [countMatchesC_loop countMatches_loop].
  destruct (start <? slen s); [|reflexivity]. destruct (FindStringIndex r (drop start s)) as [[i j]|]; [|reflexivity].
  rewrite <- IH. destruct (countMatchesC_loop f r s (start + j) (total + (j - i - 1))) as [[t l]|]; reflexivity.
Qed.
Lemma count_cost s : exists texts ns ms, countMatchesC ansiEscapeRE s = Some (countMatchesLength ansiEscapeRE s, texts) /\
  Forall2 Settled texts ns /\ zsum ns <= 2 * (slen s + 1) /\
  Scan (decode s) ms /\ (List.length ms <= List.length texts <= Datatypes.S (List.length ms))%nat.
Proof.
  destruct (searches_linear s) as (ns & X & B). destruct (Scan_exists_decode s) as (ms & Sc).
  pose proof (searches_count _ _ X _ Sc) as C.
  destruct (searched_loop (Datatypes.S (List.length s)) s 0 0 ns) as (t & texts & R & Fs).
  { pose proof (slen_nonneg s). lia. } { rewrite drop_0. lia. } { rewrite drop_0. exact X. }
  exists texts, ns, ms. split.
  - unfold countMatchesC, countMatchesLength, countMatchesLength_go. rewrite <- countC_fst, R. reflexivity.
  - split; [exact Fs|]. split; [exact B|]. split; [exact Sc|]. rewrite (Forall2_len _ _ _ Fs). exact C.
Qed.

(** ** The cache *)
Lemma get_set m k v k' : cache_get (cache_set m k v) k' = if str_eqb k' k then Some v else cache_get m k'.
Proof.
  unfold cache_set. cbn [cache_get]. destruct (str_eqb_spec k' k) as [->|Ne]; [reflexivity|].
  induction m as [|[a b] m IH]; [reflexivity|]. cbn [filter fst]. destruct (str_eqb_spec k a) as [->|N2]; cbn [negb].
  - cbn [cache_get]. destruct (str_eqb_spec k' a); [congruence|exact IH].
  - cbn [cache_get]. destruct (str_eqb k' a); [reflexivity|exact IH].
Qed.
Lemma get_evict keep m k : (forall x, keep x = true) -> cache_get (cache_evict keep m) k = cache_get m k.
Proof.
  intros K. unfold cache_evict. induction m as [|[a b] m IH]; [reflexivity|]. cbn [filter fst cache_get]. rewrite K. cbn [cache_get].
  rewrite IH. reflexivity.
Qed.
Lemma computing_at c pre : forall m keep s post, exists m' b,
  nth_error (computing c m (pre ++ (keep, s) :: post)) (List.length pre) = Some b /\
  b = negb ((match cache_get m' s with Some v => v | None => 0 end) >? 0) /\
  m' = fold_left (fun m e => snd (visualWidth c (fst e) m (snd e))) pre m.
Proof.
  induction pre as [|[k t] pre IH]; intros m keep s post.
  - exists m. eexists. split; [reflexivity|]. split; reflexivity.
  - cbn [app computing List.length nth_error]. destruct (IH (snd (visualWidth c k m t)) keep s post) as (m' & b & A & B & C).
    exists m', b. split; [exact A|]. split; [exact B|exact C].
Qed.
Lemma after_entries c pre : forall m, all_entries (fun s w => w = vwidth c s) m ->
  all_entries (fun s w => w = vwidth c s) (fold_left (fun m e => snd (visualWidth c (fst e) m (snd e))) pre m).
Proof.
  induction pre as [|[k t] pre IH]; intros m E; [exact E|]. cbn [fold_left]. apply IH.
  apply (visualWidth_ok (fun s w => w = vwidth c s) c k m t); auto.
Qed.
Lemma evict_in keep m k v : In (k, v) (cache_evict keep m) -> In (k, v) m.
Proof. unfold cache_evict. intros I. apply filter_In in I. tauto. Qed.
Lemma get_in m k v : cache_get m k = Some v -> In (k, v) m.
Proof.
  induction m as [|[a b] m IH]; [discriminate|]. cbn [cache_get]. destruct (str_eqb_spec k a) as [->|Ne].
  - intros E. injection E as ->. left. reflexivity.
  - intros E. right. apply IH. exact E.
Qed.
Lemma keys_after c pre : forall m s w, In (s, w) (fold_left (fun m e => snd (visualWidth c (fst e) m (snd e))) pre m) ->
  In s (map snd pre) \/ In s (map fst m).
Proof.
  induction pre as [|[k t] pre IH]; intros m s w I; [right; apply (in_map fst) in I; exact I|]. cbn [fold_left fst snd] in I.
  destruct (IH _ _ _ I) as [J|J]; [left; right; exact J|]. apply in_map_iff in J. destruct J as ([a v] & <- & J). cbn [fst].
  unfold visualWidth in J. destruct (_ >? 0); cbn [snd] in J; [right; apply (in_map fst) in J; exact J|].
  apply evict_in in J. unfold cache_set in J. destruct J as [J|J]; [injection J as <- <-; left; left; reflexivity|].
  apply filter_In in J. destruct J as [J _]. right. apply (in_map fst) in J. exact J.
Qed.
Lemma kept_after c pre : (forall k t, In (k, t) pre -> forall x, k x = true) -> forall m s,
  (In s (map snd pre) \/ cache_get m s = Some (vwidth c s)) -> all_entries (fun s w => w = vwidth c s) m ->
  cache_get (fold_left (fun m e => snd (visualWidth c (fst e) m (snd e))) pre m) s = Some (vwidth c s).
Proof.
  induction pre as [|[k t] pre IH]; intros K m s I E.
  - destruct I as [[]|I]. exact I.
  - cbn [fold_left fst snd]. apply IH; [intros k' t' J; apply (K k' t'); right; exact J| |].
    + destruct I as [[I|I]|I]; [|left; exact I|].
      * cbn [snd] in I. subst t. right. unfold visualWidth.
        destruct (cache_get m s) as [v|] eqn:G.
        -- destruct (v >? 0); cbn [snd]; [rewrite G; f_equal; apply (entries_get _ _ _ _ E G)|].
           rewrite get_evict by (apply (K k s); left; reflexivity). rewrite get_set, str_eqb_refl. reflexivity.
        -- cbn [Z.gtb Z.compare snd]. rewrite get_evict by (apply (K k s); left; reflexivity). rewrite get_set, str_eqb_refl. reflexivity.
      * right. unfold visualWidth. destruct (_ >? 0); cbn [snd]; [exact I|].
        rewrite get_evict by (apply (K k t); left; reflexivity). rewrite get_set.
        destruct (str_eqb_spec s t) as [->|]; [reflexivity|exact I].
    + apply (visualWidth_ok (fun s w => w = vwidth c s) c k m t); auto.
Qed.
Lemma computed_again c pre keep s post : exists b, nth_error (computing c [] (pre ++ (keep, s) :: post)) (List.length pre) = Some b /\
  (vwidth c s = 0 \/ ~ In s (map snd pre) -> b = true) /\
  ((forall k t, In (k, t) pre -> forall x, k x = true) -> b = true -> vwidth c s = 0 \/ ~ In s (map snd pre)).
Proof.
  destruct (computing_at c pre [] keep s post) as (m' & b & A & B & C). exists b. split; [exact A|].
  assert (E : all_entries (fun s w => w = vwidth c s) m') by (rewrite C; apply after_entries; constructor).
  split.
  - intros K. rewrite B. destruct (cache_get m' s) as [v|] eqn:G; [|reflexivity].
    destruct K as [K|K].
    + assert (v = 0) as -> by (rewrite <- K; apply (entries_get _ _ _ _ E G)). reflexivity.
    + exfalso. apply K. apply get_in in G. rewrite C in G. destruct (keys_after _ _ _ _ _ G) as [J|[]]. exact J.
  - intros K Bt. destruct (in_dec str_eq_dec s (map snd pre)) as [I|I]; [|right; exact I]. left.
    pose proof (kept_after c pre K [] s (or_introl I) (Forall_nil _)) as G. rewrite <- C in G. rewrite G in B.
    assert (0 <= vwidth c s) by (unfold vwidth, u16; pose proof (Z.mod_pos_bound (rawWidth c s) 65536 ltac:(lia)); lia).
    rewrite Bt in B. lia.
Qed.

(** ** Examples *)
Definition colours : str := x1b :: lit "[31mred"%string ++ x1b :: lit "[0m 12"%string.
Lemma colours_unsettled : FindStringIndex ansiEscapeRE colours = Some (0, 5) /\ ~ Settled colours 4.
Proof.
  split; [vm_compute; reflexivity|]. intros K. specialize (K (x1b :: lit "[319m"%string) eq_refl). revert K. vm_compute. discriminate.
Qed.
