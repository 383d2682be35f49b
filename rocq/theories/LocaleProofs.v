(** * LocaleProofs: runewidth_posix.go. *)
From Coq Require Import Strings.String.
From Verif Require Import GoBase Utf8 Utf8Proofs Regex RegexProofs Locale LocaleSpec CacheProofs.
From Coq Require Import ZifyBool ZifyNat.
Local Open Scope Z_scope.

(** ** Encoding *)
Lemma bv_zb x : 0 <= x < 256 -> bv (zb x) = x.
Proof.
  intros H. unfold zb. assert (A : forallb (fun x => match Byte.of_N (Z.to_N x) with
      Some b => bv b =? x | None => false end) (zrange 256) = true) by (vm_compute; reflexivity).
  rewrite forallb_forall in A. specialize (A x).
  assert (In x (zrange 256)) as Hin.
  { unfold zrange. apply in_map_iff. exists (Z.to_nat x). split; [lia|]. apply in_seq. lia. }
  specialize (A Hin). destruct (Byte.of_N (Z.to_N x)); [lia|discriminate].
Qed.

Lemma encode_ascii r : 0 <= r < 0x80 -> EncodeRune r = [zb r].
Proof.
  intros H. unfold EncodeRune, encode_valid, inb.
  destruct (Z.ltb_spec r 0); [lia|]. destruct (Z.gtb_spec r 0x10FFFF); [lia|].
  destruct (Z.leb_spec 0xD800 r); [lia|]. cbn [orb andb]. destruct (Z.ltb_spec r 0x80); [reflexivity|lia].
Qed.

Lemma encode_high r : ~ 0 <= r < 0x80 -> EncodeRune r <> [] /\ Forall (fun b => 0x80 <= bv b) (EncodeRune r).
Proof.
  intros H. unfold EncodeRune.
  destruct ((r <? 0) || (r >? 0x10FFFF) || inb 0xD800 0xDFFF r) eqn:E.
  - split; [discriminate|]. repeat constructor; vm_compute; discriminate.
  - unfold encode_valid. destruct (Z.ltb_spec r 0x80); [lia|].
    assert (0x80 <= r <= 0x10FFFF) by lia.
    pose proof (Z.mod_pos_bound r 64 ltac:(lia)). pose proof (Z.mod_pos_bound (r / 64) 64 ltac:(lia)).
    pose proof (Z.mod_pos_bound (r / 4096) 64 ltac:(lia)).
    assert (Hd : forall k, 0 < k -> 0 <= r / k) by (intros; apply Z.div_pos; lia).
    pose proof (Hd 64 ltac:(lia)). pose proof (Hd 4096 ltac:(lia)). pose proof (Hd 262144 ltac:(lia)).
    destruct (Z.ltb_spec r 0x800); [|destruct (Z.ltb_spec r 0x10000)].
    + assert (r / 64 < 32) by (apply Z.div_lt_upper_bound; lia).
      split; [discriminate|]. repeat constructor; rewrite bv_zb; lia.
    + assert (r / 4096 < 16) by (apply Z.div_lt_upper_bound; lia).
      split; [discriminate|]. repeat constructor; rewrite bv_zb; lia.
    + assert (r / 262144 < 5) by (apply Z.div_lt_upper_bound; lia).
      split; [discriminate|]. repeat constructor; rewrite bv_zb; lia.
Qed.

Definition enc (l : list Z) : str := concat (map EncodeRune l).

Lemma enc_cons r l : enc (r :: l) = EncodeRune r ++ enc l.
Proof. reflexivity. Qed.
Lemma enc_app a b : enc (a ++ b) = enc a ++ enc b.
Proof. unfold enc. rewrite map_app, concat_app. reflexivity. Qed.

Definition asc (s : str) : Prop := Forall (fun b => bv b < 0x80) s.

Lemma bv_inj a b : bv a = bv b -> a = b.
Proof.
  unfold bv. intros H. apply N2Z.inj in H.
  pose proof (Byte.of_to_N a) as Ha. pose proof (Byte.of_to_N b) as Hb. congruence.
Qed.

Lemma enc_ascii s : asc s -> enc (map bv s) = s.
Proof.
  induction 1 as [|b s Hb Hs IH]; [reflexivity|]. cbn [map]. rewrite enc_cons, IH.
  pose proof (bv_range b). rewrite encode_ascii by lia. cbn [app]. f_equal. apply bv_inj. apply bv_zb. lia.
Qed.

Lemma encode_cases r : (0 <= r < 0x80 /\ EncodeRune r = [zb r] /\ bv (zb r) = r)
  \/ (~ 0 <= r < 0x80 /\ EncodeRune r <> [] /\ Forall (fun b => 0x80 <= bv b) (EncodeRune r)).
Proof.
  destruct (Z_le_dec 0 r); [destruct (Z_lt_dec r 0x80)|].
  - left. split; [lia|]. split; [apply encode_ascii; lia|apply bv_zb; lia].
  - right. split; [lia|]. apply encode_high. lia.
  - right. split; [lia|]. apply encode_high. lia.
Qed.

(** Suffixes. *)
Lemma enc_suffix s : asc s -> forall l pre, enc l = pre ++ s -> exists l', l = l' ++ map bv s.
Proof.
  induction s as [|b s IH] using rev_ind; intros Ha l pre E.
  - exists l. rewrite app_nil_r. reflexivity.
  - apply Forall_app in Ha. destruct Ha as [Ha Hb]. inversion Hb as [|? ? Hb0 _]; subst.
    destruct l as [|r l _] using rev_ind.
    + cbn in E. symmetry in E. apply app_eq_nil in E. destruct E as [_ E]. apply app_eq_nil in E. destruct E; discriminate.
    + rewrite enc_app in E. unfold enc at 2 in E. cbn [map concat] in E. rewrite app_nil_r, app_assoc in E.
      destruct (encode_cases r) as [(Hr & Er & Eb)|(Hr & Hne & Hh)].
      * rewrite Er in E. apply app_inj_tail in E. destruct E as [E <-].
        destruct (IH Ha l pre E) as (l' & ->). exists l'. rewrite map_app, app_assoc. cbn [map]. rewrite Eb. reflexivity.
      * exfalso. destruct (EncodeRune r) as [|x e _] using rev_ind; [congruence|].
        rewrite app_assoc in E. apply app_inj_tail in E. destruct E as [_ ->].
        apply Forall_app in Hh. destruct Hh as [_ Hh]. inversion Hh; subst. lia.
Qed.

Lemma enc_eq s l : asc s -> (enc l = s <-> l = map bv s).
Proof.
  intros Ha. split.
  - intros E. destruct (enc_suffix s Ha l [] E) as (l' & ->). rewrite enc_app, enc_ascii in E by auto.
    destruct l' as [|r l']; [reflexivity|]. exfalso.
    rewrite enc_cons in E. pose proof (f_equal (@List.length byte) E) as L. rewrite !app_length in L.
    destruct (encode_cases r) as [(_ & Er & _)|(_ & Hne & _)].
    + rewrite Er in L. cbn [List.length] in L. lia.
    + destruct (EncodeRune r); [congruence|]. cbn [List.length] in L. lia.
  - intros ->. apply enc_ascii; auto.
Qed.

Lemma HasSuffix_spec s p : HasSuffix s p = true <-> exists pre, s = pre ++ p.
Proof.
  unfold HasSuffix. split.
  - intros H. apply andb_true_iff in H. destruct H as [H1 H2].
    destruct (str_eqb_spec (skipn (List.length s - List.length p) s) p) as [E|]; [|discriminate].
    exists (firstn (List.length s - List.length p) s). transitivity (firstn (List.length s - List.length p) s ++ skipn (List.length s - List.length p) s); [symmetry; apply firstn_skipn|]. rewrite E. reflexivity.
  - intros (pre & ->). rewrite app_length. apply andb_true_iff. split; [apply Nat.leb_le; lia|].
    replace (List.length pre + List.length p - List.length p)%nat with (List.length pre) by lia.
    rewrite skipn_app, skipn_all, Nat.sub_diag. cbn. apply str_eqb_refl.
Qed.

Lemma HasPrefix_spec s p : HasPrefix s p = true <-> exists rest, s = p ++ rest.
Proof.
  unfold HasPrefix. split.
  - intros H. destruct (str_eqb_spec (firstn (List.length p) s) p) as [E|]; [|discriminate].
    exists (skipn (List.length p) s). transitivity (firstn (List.length p) s ++ skipn (List.length p) s); [symmetry; apply firstn_skipn|]. rewrite E. reflexivity.
  - intros (rest & ->). rewrite firstn_app, firstn_all, Nat.sub_diag. cbn. rewrite app_nil_r. apply str_eqb_refl.
Qed.

(** Cutting at the at sign. *)
Fixpoint cut_runes (l : list Z) : list Z :=
  match l with [] => [] | r :: l => if r =? 64 then [] else r :: cut_runes l end.

Lemma cut_at_app_high a s : Forall (fun b => 0x80 <= bv b) a -> cut_at (a ++ s) = a ++ cut_at s.
Proof.
  induction 1 as [|b a Hb Ha IH]; [reflexivity|]. cbn [app cut_at]. rewrite IH.
  destruct (Z.eqb_spec (bv b) 64); [lia|reflexivity].
Qed.

Lemma cut_enc l : cut_at (enc l) = enc (cut_runes l).
Proof.
  induction l as [|r l IH]; [reflexivity|]. rewrite enc_cons. cbn [cut_runes].
  destruct (encode_cases r) as [(Hr & Er & Eb)|(Hr & Hne & Hh)].
  - rewrite Er. cbn [app cut_at]. rewrite Eb. destruct (Z.eqb_spec r 64); [reflexivity|].
    rewrite IH, enc_cons, Er. reflexivity.
  - rewrite cut_at_app_high by auto. destruct (Z.eqb_spec r 64); [lia|]. rewrite IH. reflexivity.
Qed.

Lemma cut_runes_spec l : exists m, l = cut_runes l ++ m /\ ~ In 64 (cut_runes l)
  /\ (m = [] \/ exists m', m = 64 :: m').
Proof.
  induction l as [|r l (m & E & Hn & Hm)]; [exists []; auto|]. cbn [cut_runes].
  destruct (Z.eqb_spec r 64) as [->|Hr].
  - exists (64 :: l). split; [reflexivity|]. split; [auto|]. right. eauto.
  - exists m. split; [cbn [app]; congruence|]. split; [|auto]. intros [K|K]; auto.
Qed.

Lemma cut_runes_unique l b m : l = b ++ m -> ~ In 64 b -> (m = [] \/ exists m', m = 64 :: m') -> cut_runes l = b.
Proof.
  intros -> Hb Hm. induction b as [|x b IH].
  - destruct Hm as [->|(m' & ->)]; reflexivity.
  - cbn [app cut_runes]. destruct (Z.eqb_spec x 64) as [->|]; [exfalso; apply Hb; left; auto|].
    f_equal. apply IH. intros K. apply Hb. right. auto.
Qed.

(** ** Lower-casing *)
Section Lower.
Variable lowerOther : Z -> Z.
Hypothesis lowerOther_high : forall r, 0x80 <= r -> 0x80 <= lowerOther r.

Lemma lower_fold r a : 0 <= r -> 0 <= a < 0x80 -> (ToLowerRune lowerOther r = a <-> fold_rune r = a).
Proof.
  intros Hr Ha. unfold ToLowerRune, fold_rune, inb.
  pose proof (lowerOther_high r).
  destruct (Z.ltb_spec r 0x80).
  - destruct ((65 <=? r) && (r <=? 90)); [tauto|].
    destruct (Z.eqb_spec r 0x130); [lia|]. destruct (Z.eqb_spec r 0x212A); [lia|]. tauto.
  - destruct (Z.leb_spec r 90); [lia|]. rewrite andb_false_r.
    destruct (Z.eqb_spec r 0x130); [tauto|]. destruct (Z.eqb_spec r 0x212A); [tauto|]. lia.
Qed.

Lemma lower_list l : Forall (fun r => 0 <= r) l -> forall s, asc s ->
  (map (ToLowerRune lowerOther) l = map bv s <-> folded l = map bv s).
Proof.
  induction 1 as [|r l Hr Hl IH]; intros s Hs.
  - unfold folded. cbn [map]. tauto.
  - unfold folded in *. cbn [map]. destruct Hs as [|b s Hb Hs]; cbn [map]; [split; discriminate|].
    pose proof (bv_range b). specialize (IH s Hs). pose proof (lower_fold r (bv b) Hr ltac:(lia)) as K.
    split; intros E; injection E as E1 E2; f_equal; tauto.
Qed.

Lemma map_app_split {A B} (f : A -> B) l u v : map f l = u ++ v -> exists a b, l = a ++ b /\ map f a = u /\ map f b = v.
Proof.
  revert l. induction u as [|x u IH]; intros l E.
  - exists [], l. auto.
  - destruct l as [|y l]; [discriminate|]. cbn [map app] in E. injection E as <- E.
    destruct (IH l E) as (a & b & -> & <- & <-). exists (y :: a), b. auto.
Qed.

Lemma lower_suffix l s : Forall (fun r => 0 <= r) l -> asc s ->
  ((exists p, map (ToLowerRune lowerOther) l = p ++ map bv s) <-> (exists p, folded l = p ++ map bv s)).
Proof.
  intros Hl Hs. split; intros (p & E); apply map_app_split in E; destruct E as (a & b & -> & _ & E);
    apply Forall_app in Hl; destruct Hl as [_ Hb].
  - exists (folded a). unfold folded. rewrite map_app. f_equal. apply lower_list; auto.
  - exists (map (ToLowerRune lowerOther) a). rewrite map_app. f_equal. apply lower_list; auto.
Qed.

(** Cutting commutes. *)
Lemma lower_cut l s : Forall (fun r => 0 <= r) l -> asc s -> ~ In 64 (map bv s) ->
  (cut_runes (map (ToLowerRune lowerOther) l) = map bv s <->
   exists m, folded l = map bv s ++ m /\ (m = [] \/ exists m', m = 64 :: m')).
Proof.
  intros Hl Hs H64.
  assert (At : forall r, 0 <= r -> (ToLowerRune lowerOther r = 64 <-> fold_rune r = 64)) by
    (intros r Hr; apply lower_fold; lia).
  split.
  - intros E. destruct (cut_runes_spec (map (ToLowerRune lowerOther) l)) as (m & E1 & _ & Hm). rewrite E in E1.
    apply map_app_split in E1. destruct E1 as (a & b & -> & Ea & Eb).
    apply Forall_app in Hl. destruct Hl as [Ha Hb]. exists (folded b).
    apply (lower_list a Ha s Hs) in Ea. split; [unfold folded in *; rewrite map_app, Ea; reflexivity|].
    destruct b as [|x b]; [left; reflexivity|right]. cbn [map] in Eb. destruct Hm as [->|(m' & ->)]; [discriminate|].
    injection Eb as Eb _. inversion Hb; subst. apply At in Eb; auto. exists (folded b). unfold folded. cbn [map]. congruence.
  - intros (m & E & Hm). unfold folded in E. apply map_app_split in E. destruct E as (a & b & -> & Ea & Eb).
    apply Forall_app in Hl. destruct Hl as [Ha Hb].
    apply (lower_list a Ha s Hs) in Ea. rewrite map_app, Ea.
    apply (cut_runes_unique _ _ (map (ToLowerRune lowerOther) b)); auto.
    destruct b as [|x b]; [left; reflexivity|right]. destruct Hm as [->|(m' & ->)]; [discriminate|].
    cbn [map] in Eb. injection Eb as Eb _. inversion Hb; subst. apply At in Eb; auto. cbn [map]. rewrite Eb. eauto.
Qed.

Lemma ToLower_enc s : ToLower lowerOther s = enc (map (ToLowerRune lowerOther) (runes s)).
Proof. unfold ToLower, enc. rewrite map_map. reflexivity. Qed.

Lemma runes_nonneg s : Forall (fun r => 0 <= r) (runes s).
Proof.
  unfold runes. rewrite Forall_map. eapply Forall_impl; [|apply decode_range]. intros x [H _]. lia.
Qed.

(** ** The pattern *)
Lemma Lang_group w : Lang reLoc_group w <-> w <> [] /\ ~ In 10 w.
Proof.
  unfold reLoc_group. split.
  - intros H. apply Lang_seq in H. destruct H as (u & v & -> & Hu & Hv).
    apply Lang_cls in Hu. destruct Hu as (c & -> & Hc). apply Lang_star_cls in Hv. split; [discriminate|].
    intros [K|K]; [subst; discriminate|]. rewrite Forall_forall in Hv. apply Hv in K. discriminate.
  - intros [Hne Hn]. destruct w as [|c w]; [congruence|]. apply (L_seq _ _ [c] w).
    + constructor. destruct (Z.eqb_spec c 10) as [->|]; [exfalso; apply Hn; left; auto|reflexivity].
    + apply Lang_star_cls. apply Forall_forall. intros x Hx.
      destruct (Z.eqb_spec x 10) as [->|]; [exfalso; apply Hn; right; auto|reflexivity].
Qed.

Lemma Lang_prefix w : Lang reLoc_prefix w <-> exists lang terr, w = lang ++ terr ++ [46]
  /\ Forall (fun r => 97 <= r <= 122) lang /\ (List.length lang = 2 \/ List.length lang = 3)%nat
  /\ (terr = [] \/ exists a b, terr = [95; a; b] /\ 65 <= a <= 90 /\ 65 <= b <= 90).
Proof.
  unfold reLoc_prefix. split.
  - intros H.
    repeat match goal with
    | H : Lang (Seq _ _) _ |- _ => apply Lang_seq in H; destruct H as (? & ? & -> & ? & ?)
    | H : Lang (Opt _) _ |- _ => apply Lang_opt in H; destruct H as [->|H]
    | H : Lang (Cls _) _ |- _ => apply Lang_cls in H; destruct H as (? & -> & ?)
    end;
    repeat match goal with
    | H : is_az _ = true |- _ => unfold is_az, inb in H
    | H : is_AZ _ = true |- _ => unfold is_AZ, inb in H
    | H : (95 =? ?x) = true |- _ => apply Z.eqb_eq in H; subst x
    | H : (46 =? ?x) = true |- _ => apply Z.eqb_eq in H; subst x
    end.
    all: cbn [app];
      match goal with
      | |- exists _ _, [?a; ?b; _] = _ /\ _ => exists [a; b], []
      | |- exists _ _, [?a; ?b; ?c; 46] = _ /\ _ => exists [a; b; c], []
      | |- exists _ _, [?a; ?b; 95; ?d; ?e; _] = _ /\ _ => exists [a; b], [95; d; e]
      | |- exists _ _, [?a; ?b; ?c; 95; ?d; ?e; _] = _ /\ _ => exists [a; b; c], [95; d; e]
      end;
      (split; [reflexivity|]); (split; [repeat constructor; lia|]); (split; [cbn; lia|]);
      first [left; reflexivity|right; eexists; eexists; split; [reflexivity|lia]].
  - intros (lang & terr & -> & Hl & HL & Ht).
    destruct lang as [|a [|b rest]]; cbn [List.length] in HL; try lia.
    inversion Hl as [|? ? Ha Hl1]; subst. inversion Hl1 as [|? ? Hb Hl2]; subst.
    apply (L_seq _ _ [a] (b :: rest ++ terr ++ [46])); [constructor; unfold is_az, inb; lia|].
    apply (L_seq _ _ [b] (rest ++ terr ++ [46])); [constructor; unfold is_az, inb; lia|].
    apply L_seq.
    + destruct rest as [|c [|d rest]]; cbn [List.length] in HL; try lia; [constructor|].
      inversion Hl2; subst. apply L_opt1. constructor. unfold is_az, inb. lia.
    + apply L_seq; [|constructor; reflexivity].
      destruct Ht as [->|(x & y & -> & Hx & Hy)]; [constructor|]. apply L_opt1.
      apply (L_seq _ _ [95] [x; y]); [constructor; reflexivity|].
      apply (L_seq _ _ [x] [y]); constructor; unfold is_AZ, inb; lia.
Qed.

Lemma flat_map_head {A B} (f : A -> list B) l x tl : flat_map f l = x :: tl ->
  exists a tl', In a l /\ f a = x :: tl'.
Proof.
  induction l as [|a l IH]; cbn [flat_map]; [discriminate|]. destruct (f a) as [|y fa] eqn:E.
  - intros H. destruct (IH H) as (b & tl' & Hb & Eb). exists b, tl'. split; [right; auto|auto].
  - intros H. injection H as <- _. exists a, fa. split; [left; auto|auto].
Qed.

(** Greedy: a starred class takes all it can. *)
Lemma star_cls_head p f : forall l, (List.length l <= f)%nat ->
  exists m rem others, star_rests (rests (Cls p)) f l = rem :: others /\ l = m ++ rem
  /\ (rem = [] \/ exists x rem', rem = x :: rem' /\ p (fst x) = false).
Proof.
  induction f as [|f IH]; intros l Hf.
  - exists [], l, []. destruct l; [auto|cbn in Hf; lia].
  - cbn [star_rests]. destruct l as [|(c, n) l].
    + exists [], [], []. auto.
    + change (rests (Cls p) ((c, n) :: l)) with (if p c then [l] else []).
      destruct (p c) eqn:E.
      * cbn [flat_map]. rewrite app_nil_r. cbn [List.length] in Hf.
        destruct (Nat.ltb_spec (List.length l) (List.length ((c, n) :: l))) as [L|L]; [|cbn [List.length] in L; lia].
        destruct (IH l ltac:(lia)) as (m & rem & others & -> & -> & Hr).
        exists ((c, n) :: m), rem, (others ++ [(c, n) :: m ++ rem]). auto.
      * exists [], ((c, n) :: l), []. split; [reflexivity|]. split; [reflexivity|]. right. exists (c, n), l. auto.
Qed.

Lemma group_head l l2 tl : rests reLoc_group l = l2 :: tl ->
  exists m, l = m ++ l2 /\ Lang reLoc_group (map fst m) /\ (l2 = [] \/ exists x rem', l2 = x :: rem' /\ fst x = 10).
Proof.
  intros H. assert (HI : In l2 (rests reLoc_group l)) by (rewrite H; left; auto).
  apply rests_sound in HI. destruct HI as (m & Em & HL). exists m. split; auto. split; auto.
  unfold reLoc_group in H. set (p := fun r => negb (r =? 10)) in *.
  change (rests (Seq (Cls p) (Star (Cls p))) l) with (flat_map (fun l => star_rests (rests (Cls p)) (List.length l) l) (rests (Cls p) l)) in H.
  destruct l as [|(c, n) l]; [discriminate|].
  change (rests (Cls p) ((c, n) :: l)) with (if p c then [l] else []) in H.
  destruct (p c); [|discriminate]. cbn [flat_map] in H. rewrite app_nil_r in H.
  destruct (star_cls_head p (List.length l) l ltac:(lia)) as (m' & rem & others & E & _ & Hr).
  rewrite E in H. injection H as <- _. destruct Hr as [->|(x & rem' & -> & Hx)]; [auto|right].
  exists x, rem'. split; auto. unfold p in Hx. lia.
Qed.

Lemma submatch_some locale g : reLoc_submatch locale = Some g -> Named (runes locale) (runes g).
Proof.
  unfold reLoc_submatch.
  destruct (flat_map _ _) as [|[l1 l2] tl] eqn:E; [discriminate|].
  intros H. injection H as H. apply flat_map_head in E. destruct E as (l1' & tl' & HI & E).
  destruct (rests reLoc_group l1') as [|l2' tl''] eqn:Eg; [discriminate|]. cbn [map] in E.
  injection E as -> -> _. apply rests_sound in HI. destruct HI as (pre & Epre & HLp).
  destruct (group_head l1 l2 tl'' Eg) as (m & Em & HLg & Hend).
  subst l1. destruct (decode_split pre locale (m ++ l2) Epre) as (p & q & -> & Hp & Hq & Lp).
  destruct (decode_split m q l2 Hq) as (p' & q' & -> & Hp' & Hq' & Lp').
  assert (E1 : nbytes (decode (p ++ p' ++ q')) - nbytes (m ++ l2) = slen p).
  { rewrite Epre. change (nb (pre ++ m ++ l2) - nb (m ++ l2) = slen p). rewrite nb_app. lia. }
  assert (E2 : nbytes (m ++ l2) - nbytes l2 = slen p').
  { change (nb (m ++ l2) - nb l2 = slen p'). rewrite nb_app. lia. }
  rewrite E1, E2 in H. rewrite drop_app_exact, take_app_exact in H. subst g.
  unfold runes. rewrite Hp', Epre, !map_app.
  apply Lang_prefix in HLp. destruct HLp as (lang & terr & -> & H1 & H2 & H3).
  apply Lang_group in HLg. destruct HLg as [H4 H5].
  replace ((lang ++ terr ++ [46]) ++ map fst m ++ map fst l2) with (lang ++ terr ++ 46 :: map fst m ++ map fst l2)
    by (rewrite <- !app_assoc; reflexivity).
  constructor; auto. destruct Hend as [->|(x & rem' & -> & Hx)]; [auto|right]. exists (map fst rem').
  cbn [map]. rewrite Hx. reflexivity.
Qed.

Lemma submatch_none locale : reLoc_submatch locale = None -> forall g, ~ Named (runes locale) g.
Proof.
  unfold reLoc_submatch. destruct (flat_map _ _) as [|[l1 l2] tl] eqn:E; [|discriminate]. intros _ g HN.
  inversion HN as [lang terr g' rest H1 H2 H3 H4 H5 H6 Heq]. subst g'.
  assert (Er : map fst (decode locale) = (lang ++ terr ++ [46]) ++ g ++ rest).
  { change (map fst (decode locale)) with (runes locale). rewrite <- Heq, <- !app_assoc. reflexivity. }
  apply map_app_split in Er. destruct Er as (pre & l1 & Ed & Epre & E1).
  apply map_app_split in E1. destruct E1 as (m & l2 & -> & Em & _).
  assert (HI1 : In (m ++ l2) (rests reLoc_prefix (decode locale))).
  { rewrite Ed. apply rests_complete. rewrite Epre. apply Lang_prefix. eauto 8. }
  assert (HI2 : In l2 (rests reLoc_group (m ++ l2))).
  { apply rests_complete. rewrite Em. apply Lang_group. auto. }
  assert (K : In (m ++ l2, l2) (flat_map (fun l1 => map (fun l2 => (l1, l2)) (rests reLoc_group l1)) (rests reLoc_prefix (decode locale)))).
  { apply in_flat_map. exists (m ++ l2). split; auto. apply in_map_iff. eauto. }
  rewrite E in K. contradiction.
Qed.

Lemma Named_unique l g g' : Named l g -> Named l g' -> g = g'.
Proof.
  intros H H'. destruct H as [lang terr g rest H1 H2 H3 H4 H5 H6].
  inversion H' as [lang' terr' g0 rest' H1' H2' H3' H4' H5' H6' Heq]. subst g0.
  (* the first rune that is not a lower-case letter ends the language *)
  assert (Hl : lang' = lang /\ terr' ++ 46 :: g' ++ rest' = terr ++ 46 :: g ++ rest).
  { clear -Heq H1 H3 H1' H3'. revert lang' H1' Heq. induction H1 as [|x lang Hx Hl IH]; intros lang' H1' Heq.
    - destruct lang' as [|y lang']; [auto|]. exfalso. inversion H1'; subst. cbn [app] in Heq.
      destruct H3 as [->|(a & b & -> & _)]; cbn [app] in Heq; injection Heq as Heq _; lia.
    - destruct lang' as [|y lang'].
      + exfalso. cbn [app] in Heq. destruct H3' as [->|(a & b & -> & _)]; cbn [app] in Heq; injection Heq as Heq _; lia.
      + inversion H1'; subst. cbn [app] in Heq. injection Heq as -> Heq.
        destruct (IH lang' ltac:(auto) Heq) as [-> E]. auto. }
  destruct Hl as [-> Heq2].
  assert (Hg : g' ++ rest' = g ++ rest).
  { destruct H3 as [->|(a & b & -> & _)], H3' as [->|(a' & b' & -> & _)]; cbn [app] in Heq2; injection Heq2; intros; try congruence; try lia. }
  clear -Hg H5 H6 H5' H6'. revert g' H5' Hg. induction g as [|x g IH]; intros g' H5' Hg.
  - destruct g' as [|y g']; [auto|]. exfalso. cbn [app] in Hg. destruct H6 as [->|(r & ->)]; [discriminate|].
    injection Hg as Hg _; subst. apply H5'. left. auto.
  - destruct g' as [|y g'].
    + exfalso. cbn [app] in Hg. destruct H6' as [->|(r & ->)]; [discriminate|]. injection Hg as Hg _; subst. apply H5. left. auto.
    + cbn [app] in Hg. injection Hg as -> Hg. f_equal. apply IH; auto.
      * intros K. apply H5. right. auto.
      * intros K. apply H5'. right. auto.
Qed.

(** The charset that [isEastAsian] looks at. *)
Lemma charset_spec locale : exists g, Charset locale (runes g) /\
  (match reLoc_submatch locale with Some g => ToLower lowerOther g | None => ToLower lowerOther locale end) = ToLower lowerOther g.
Proof.
  destruct (reLoc_submatch locale) as [g|] eqn:E.
  - exists g. split; auto. left. apply submatch_some; auto.
  - exists locale. split; auto. right. split; auto. apply submatch_none. exact E.
Qed.

Lemma Charset_unique locale c c' : Charset locale c -> Charset locale c' -> c = c'.
Proof.
  intros [H|[H E]] [H'|[H' E']].
  - eapply Named_unique; eauto.
  - exfalso. eapply H'; eauto.
  - exfalso. eapply H; eauto.
  - congruence.
Qed.

Lemma asc_lit s : forallb (fun b => bv b <? 0x80) (lit s) = true -> asc (lit s).
Proof. intros H. apply Forall_forall. intros b Hb. rewrite forallb_forall in H. apply H in Hb. lia. Qed.

Lemma narrow_spec g : HasSuffix (ToLower lowerOther g) (lit "@cjk_narrow") = true <-> Narrow (runes g).
Proof.
  rewrite HasSuffix_spec, ToLower_enc.
  assert (Ha : asc (lit "@cjk_narrow")) by (apply asc_lit; reflexivity).
  unfold Narrow, ascii. rewrite <- (lower_suffix (runes g) _ (runes_nonneg g) Ha). split.
  - intros (pre & E). apply enc_suffix in E; auto.
  - intros (p & ->). rewrite enc_app, enc_ascii by auto. eauto.
Qed.

Lemma base_spec g name : asc (lit name) -> ~ In 64 (map bv (lit name)) ->
  (cut_at (ToLower lowerOther g) = lit name <-> Base (runes g) name).
Proof.
  intros Ha H64. rewrite ToLower_enc, cut_enc, enc_eq by auto.
  rewrite lower_cut by (auto; apply runes_nonneg). unfold Base, ascii. split.
  - intros (m & E & Hm). exists m. auto.
  - intros (m & E & _ & Hm). exists m. auto.
Qed.

Lemma mblen_spec k : (exists m, mblen mblenTable k = Some m) <->
  exists name, In name (unicode_charsets ++ legacy_charsets) /\ k = lit name.
Proof.
  assert (E : forall (tbl : list (str * Z)), (exists m, mblen tbl k = Some m) <-> In k (map fst tbl)).
  { induction tbl as [|[k' v] tbl IH]; cbn [mblen map In fst].
    - split; [intros (m & H); discriminate|intros []].
    - destruct (str_eqb_spec k k') as [->|Hk]; [split; eauto|].
      rewrite IH. split; auto. intros [H|H]; [congruence|auto]. }
  rewrite E. change (map fst mblenTable) with (map lit (unicode_charsets ++ legacy_charsets)).
  rewrite in_map_iff. split; intros (n & H1 & H2); exists n; auto.
Qed.

Lemma mblen_big k m : mblen mblenTable k = Some m -> m > 1.
Proof.
  assert (E : forall tbl : list (str * Z), Forall (fun e => snd e > 1) tbl -> mblen tbl k = Some m -> m > 1).
  { induction 1 as [|[k' v] tbl Hv Ht IH]; cbn [mblen]; [discriminate|].
    destruct (str_eqb k k'); [intros H; injection H as <-; exact Hv|auto]. }
  apply E. repeat constructor.
Qed.

Lemma names_ok : forall name, In name (unicode_charsets ++ legacy_charsets) ->
  asc (lit name) /\ ~ In 64 (map bv (lit name)).
Proof.
  intros name H. split.
  - apply asc_lit. revert name H. apply Forall_forall. repeat constructor.
  - assert (A : forallb (fun b => negb (bv b =? 64)) (lit name) = true).
    { revert name H. apply Forall_forall. repeat constructor. }
    intros K. apply in_map_iff in K. destruct K as (b & E & Hb). rewrite forallb_forall in A.
    apply A in Hb. rewrite E in Hb. discriminate.
Qed.

Lemma unicode_first name : In name unicode_charsets ->
  match lit name with b :: _ => bv b =? 117 | [] => false end = true.
Proof. revert name. apply Forall_forall. repeat constructor. Qed.
Lemma legacy_first name : In name legacy_charsets ->
  match lit name with b :: _ => bv b =? 117 | [] => false end = false.
Proof. revert name. apply Forall_forall. repeat constructor. Qed.

Lemma isEastAsian_spec locale : isEastAsian lowerOther locale = true <-> EastAsianLocale locale.
Proof.
  destruct (charset_spec locale) as (g & HC & E). unfold isEastAsian. rewrite E. clear E.
  assert (Hiff : EastAsianLocale locale <-> (~ Narrow (runes g) /\
     ((exists name, In name legacy_charsets /\ Base (runes g) name)
        \/ ((exists name, In name unicode_charsets /\ Base (runes g) name)
            /\ (StartsWith locale "ja" \/ StartsWith locale "ko" \/ StartsWith locale "zh"))))).
  { unfold EastAsianLocale. split.
    - intros (cs & H1 & H2). rewrite (Charset_unique _ _ _ HC H1). exact H2.
    - intros H. exists (runes g). auto. }
  rewrite Hiff. clear Hiff HC.
  destruct (HasSuffix (ToLower lowerOther g) (lit "@cjk_narrow")) eqn:En.
  { apply narrow_spec in En. split; [discriminate|tauto]. }
  assert (Hn : ~ Narrow (runes g)) by (intros K; apply narrow_spec in K; congruence).
  set (k := cut_at (ToLower lowerOther g)).
  assert (HB : forall name, In name (unicode_charsets ++ legacy_charsets) -> (k = lit name <-> Base (runes g) name)).
  { intros name H. apply base_spec; apply names_ok; auto. }
  assert (HP : (HasPrefix locale (lit "ja") || HasPrefix locale (lit "ko") || HasPrefix locale (lit "zh") = true)
    <-> (StartsWith locale "ja" \/ StartsWith locale "ko" \/ StartsWith locale "zh")).
  { rewrite !orb_true_iff, !HasPrefix_spec. unfold StartsWith. tauto. }
  destruct (mblen mblenTable k) as [m|] eqn:Em.
  - pose proof (mblen_big k m Em) as Hm. destruct (proj1 (mblen_spec k) (ex_intro _ m Em)) as (name & Hname & Ek).
    destruct (Z.gtb_spec m 1); [|lia]. cbn [andb].
    rewrite <- !orb_assoc. rewrite Ek at 1.
    apply in_app_or in Hname. destruct Hname as [Hu|Hl].
    + rewrite (unicode_first name Hu). cbn [negb orb]. rewrite !orb_assoc.
      split.
      * intros H0. split; auto. right. split.
        -- exists name. split; auto. apply HB; auto. apply in_or_app; auto.
        -- apply HP. destruct (HasPrefix locale (lit "ja") || HasPrefix locale (lit "ko") || HasPrefix locale (lit "zh")); [auto|discriminate].
      * intros [_ [(name' & Hl' & Hb')|[_ HS]]].
        -- exfalso. apply HB in Hb'; [|apply in_or_app; auto]. rewrite Hb' in Ek.
           pose proof (unicode_first name Hu) as F1. pose proof (legacy_first name' Hl') as F2. rewrite Ek in F2. rewrite F1 in F2. discriminate.
        -- apply HP in HS. rewrite HS. reflexivity.
    + rewrite (legacy_first name Hl). cbn [negb orb]. split; auto. intros _. split; auto. left. exists name. split; auto.
      apply HB; auto. apply in_or_app; auto.
  - split; [discriminate|]. intros [_ K]. exfalso.
    assert (exists name, In name (unicode_charsets ++ legacy_charsets) /\ k = lit name) as (name & H1 & H2).
    { destruct K as [(name & H1 & H2)|[(name & H1 & H2) _]]; exists name.
      - split; [apply in_or_app; auto|]. apply HB; auto. apply in_or_app; auto.
      - split; [apply in_or_app; auto|]. apply HB; auto. apply in_or_app; auto. }
    destruct (proj2 (mblen_spec k) (ex_intro _ name (conj H1 H2))) as (m & Hm). congruence.
Qed.

Lemma IsEastAsian_spec lc_all lc_ctype lang locale : Effective lc_all lc_ctype lang locale ->
  (IsEastAsian lowerOther lc_all lc_ctype lang = true <-> ~ CLocale locale /\ EastAsianLocale locale).
Proof.
  intros HE. unfold IsEastAsian.
  assert (El : match match lc_all with [] => lc_ctype | _ => lc_all end with [] => lang
               | _ => match lc_all with [] => lc_ctype | _ => lc_all end end = locale).
  { destruct HE as [[H ->]|[(-> & H & ->)|(-> & -> & ->)]].
    - destruct lc_all; [congruence|reflexivity].
    - destruct lc_ctype; [congruence|reflexivity].
    - reflexivity. }
  rewrite El. clear El HE. rewrite <- isEastAsian_spec.
  assert (HS : forall s p, StartsWith s p <-> HasPrefix s (lit p) = true) by
    (intros; rewrite HasPrefix_spec; reflexivity).
  unfold CLocale. rewrite !HS.
  destruct (str_eqb_spec locale (lit "POSIX")) as [->|H1]; [split; [discriminate|intros [H _]; exfalso; apply H; auto]|].
  destruct (str_eqb_spec locale (lit "C")) as [->|H2]; [split; [discriminate|intros [H _]; exfalso; apply H; auto]|].
  cbn [orb].
  assert (HP : HasPrefix locale (lit "C.") || HasPrefix locale (lit "C-") =
     match locale with c0 :: c1 :: _ => (bv c0 =? 67) && ((bv c1 =? 46) || (bv c1 =? 45)) | _ => false end).
  { clear. unfold HasPrefix. destruct locale as [|c0 [|c1 rest]]; try reflexivity.
    - destruct (str_eqb_spec (firstn (List.length (lit "C.")) [c0]) (lit "C.")) as [E|_]; [discriminate|].
      destruct (str_eqb_spec (firstn (List.length (lit "C-")) [c0]) (lit "C-")) as [E|_]; [discriminate|]. reflexivity.
    - change (firstn (List.length (lit "C.")) (c0 :: c1 :: rest)) with [c0; c1].
      change (firstn (List.length (lit "C-")) (c0 :: c1 :: rest)) with [c0; c1].
      destruct (str_eqb_spec [c0; c1] (lit "C.")) as [E|H1].
      { injection E as -> ->. reflexivity. }
      destruct (str_eqb_spec [c0; c1] (lit "C-")) as [E|H2].
      { injection E as -> ->. reflexivity. }
      symmetry. apply not_true_iff_false. intros K. apply andb_true_iff in K. destruct K as [K0 K1].
      apply Z.eqb_eq in K0. change 67 with (bv x43) in K0. apply bv_inj in K0. subst c0.
      apply orb_true_iff in K1. destruct K1 as [K1|K1]; apply Z.eqb_eq in K1.
      + change 46 with (bv x2e) in K1. apply bv_inj in K1. subst c1. apply H1. reflexivity.
      + change 45 with (bv x2d) in K1. apply bv_inj in K1. subst c1. apply H2. reflexivity. }
  destruct locale as [|c0 [|c1 rest]].
  - rewrite orb_false_iff in HP. destruct HP as [-> ->]. split; [intros K; split; [intros [K1|[K1|[K1|K1]]]; auto; discriminate|exact K]|tauto].
  - rewrite orb_false_iff in HP. destruct HP as [-> ->]. split; [intros K; split; [intros [K1|[K1|[K1|K1]]]; auto; discriminate|exact K]|tauto].
  - destruct ((bv c0 =? 67) && ((bv c1 =? 46) || (bv c1 =? 45))).
    + rewrite orb_true_iff in HP. split; [discriminate|]. intros [H _]. exfalso. apply H. tauto.
    + rewrite orb_false_iff in HP. destruct HP as [-> ->]. split; [intros K; split; [intros [K1|[K1|[K1|K1]]]; auto; discriminate|exact K]|tauto].
Qed.
End Lower.
