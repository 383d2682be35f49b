(** * GenPattern: lines of property files. *)
From Coq Require Import Strings.String.
From Verif Require Import GoBase Utf8 Utf8Proofs Utf8Spec Utf8Theory Regex Locale GenText GenTextSpec.
From Coq Require Import ZifyBool ZifyNat.
Local Open Scope Z_scope.

(** ** Matching *)
Definition adv (st : mstate) (l1 l2 : input) : mstate := {| mPos := mPos st + nbytes l1; mIn := l2; mCaps := mCaps st |}.
Lemma nbytes_app a b : nbytes (a ++ b) = nbytes a + nbytes b.
Proof. unfold nbytes. rewrite map_app. generalize (map snd b). intros m. induction (map snd a) as [|x l IH]; unfold zsum in *; cbn in *; lia. Qed.
Lemma nbytes_cons x l : nbytes (x :: l) = snd x + nbytes l.
Proof. reflexivity. Qed.
Lemma adv_adv st l1 l2 l3 l4 : adv (adv st l1 l2) l3 l4 = adv st (l1 ++ l3) l4.
Proof. unfold adv. cbn [mPos mIn mCaps]. rewrite nbytes_app. f_equal. lia. Qed.

Lemma cls_in p st st' : In st' (cmatch (CCls p) st) <-> exists x l, mIn st = x :: l /\ p (fst x) = true /\ st' = adv st [x] l.
Proof.
  cbn [cmatch]. destruct (mIn st) as [|[c n] l] eqn:E.
  - split; [intros []|intros (x & l & [=] & _)].
  - split.
    + destruct (p c) eqn:Ep; [|intros []]. intros [<-|[]]. exists (c, n), l. repeat split; auto. unfold adv. rewrite nbytes_cons. cbn [snd nbytes map zsum fold_right]. f_equal. unfold nbytes. cbn. lia.
    + intros (x & l' & [= <- <-] & Hp & ->). cbn [fst] in Hp. rewrite Hp. left. unfold adv. f_equal. unfold nbytes. cbn. lia.
Qed.
Lemma seq_in a b st st' : In st' (cmatch (CSeq a b) st) <-> exists st1, In st1 (cmatch a st) /\ In st' (cmatch b st1).
Proof. cbn [cmatch]. rewrite in_flat_map. reflexivity. Qed.
Lemma opt_in a st st' : In st' (cmatch (COpt a) st) <-> In st' (cmatch a st) \/ st' = st.
Proof. cbn [cmatch]. rewrite in_app_iff. cbn. intuition. Qed.
Lemma group_in n a st st' : In st' (cmatch (CGroup n a) st) <->
  exists st1, In st1 (cmatch a st) /\ st' = {| mPos := mPos st1; mIn := mIn st1; mCaps := (n, (mPos st, mPos st1)) :: mCaps st1 |}.
Proof. cbn [cmatch]. rewrite in_map_iff. split; intros (s & A & B); exists s; auto. Qed.
Lemma end_in st st' : In st' (cmatch CEnd st) <-> mIn st = [] /\ st' = st.
Proof. cbn [cmatch]. destruct (mIn st); cbn; intuition congruence. Qed.

Lemma adv_nil st : adv st [] (mIn st) = st.
Proof. destruct st. unfold adv, nbytes. cbn. f_equal. lia. Qed.
Lemma star_in p st st' : In st' (cmatch (CStar (CCls p)) st) <->
  exists l1 l2, mIn st = l1 ++ l2 /\ Forall (fun x => p (fst x) = true) l1 /\ st' = adv st l1 l2.
Proof.
  change (cmatch (CStar (CCls p)) st) with (cstar (cmatch (CCls p)) (List.length (mIn st)) st).
  remember (List.length (mIn st)) as f eqn:Ef. assert (Hf : (List.length (mIn st) <= f)%nat) by lia. clear Ef. revert st Hf.
  induction f as [|f IH]; intros st Hf.
  - assert (E : mIn st = []) by (destruct (mIn st); [reflexivity|cbn in Hf; lia]). cbn [cstar]. rewrite E. split.
    + intros [<-|[]]. exists [], []. repeat split; auto. pose proof (adv_nil st) as A. rewrite E in A. symmetry. exact A.
    + intros (l1 & l2 & K & _ & ->). symmetry in K. apply app_eq_nil in K. destruct K as [-> ->]. left. pose proof (adv_nil st) as A. rewrite E in A. symmetry. exact A.
  - cbn [cstar]. rewrite in_app_iff, in_flat_map. split.
    + intros [(st1 & H1 & H2)|[<-|[]]].
      * apply cls_in in H1. destruct H1 as (x & l & E & Hp & ->). cbn [adv mIn] in H2. rewrite E in H2. cbn [List.length] in H2.
        destruct (Nat.ltb_spec (List.length l) (S (List.length l))); [|lia]. apply IH in H2; [|cbn [adv mIn]; rewrite E in Hf; cbn in Hf; lia].
        destruct H2 as (l1 & l2 & E2 & HF & ->). cbn [adv mIn] in E2. exists (x :: l1), l2. split; [rewrite E, E2; reflexivity|].
        split; [constructor; assumption|]. rewrite adv_adv. reflexivity.
      * exists [], (mIn st). split; [reflexivity|]. split; [constructor|]. symmetry. apply adv_nil.
    + intros (l1 & l2 & E & HF & ->). destruct HF as [|x l1 Hx HF].
      * right. left. cbn [app] in E. rewrite <- E. symmetry. apply adv_nil.
      * left. exists (adv st [x] (l1 ++ l2)). split; [apply cls_in; exists x, (l1 ++ l2); auto|]. cbn [adv mIn]. rewrite E. cbn [app List.length].
        destruct (Nat.ltb_spec (List.length (l1 ++ l2)) (S (List.length (l1 ++ l2)))); [|lia]. apply IH.
        -- cbn [adv mIn]. rewrite E in Hf. cbn in Hf. lia.
        -- exists l1, l2. cbn [adv mIn]. split; [reflexivity|]. split; [exact HF|]. rewrite adv_adv. reflexivity.
Qed.
Lemma plus_in p st st' : In st' (cmatch (cplus (CCls p)) st) <->
  exists l1 l2, mIn st = l1 ++ l2 /\ l1 <> [] /\ Forall (fun x => p (fst x) = true) l1 /\ st' = adv st l1 l2.
Proof.
  unfold cplus. rewrite seq_in. split.
  - intros (st1 & H1 & H2). apply cls_in in H1. destruct H1 as (x & l & E & Hp & ->). apply star_in in H2. destruct H2 as (l1 & l2 & E2 & HF & ->).
    cbn [adv mIn] in E2. exists (x :: l1), l2. split; [rewrite E, E2; reflexivity|]. split; [discriminate|]. split; [constructor; assumption|].
    rewrite adv_adv. reflexivity.
  - intros (l1 & l2 & E & N & HF & ->). destruct HF as [|x l1 Hx HF]; [congruence|]. exists (adv st [x] (l1 ++ l2)).
    split; [apply cls_in; exists x, (l1 ++ l2); auto|]. apply star_in. exists l1, l2. cbn [adv mIn]. split; [reflexivity|]. split; [exact HF|].
    rewrite adv_adv. reflexivity.
Qed.
Lemma hex46_in st st' : In st' (cmatch hex46 st) <->
  exists l1 l2, mIn st = l1 ++ l2 /\ (4 <= List.length l1 <= 6)%nat /\ Forall (fun x => is_upper_hex (fst x) = true) l1 /\ st' = adv st l1 l2.
Proof.
  unfold hex46. cbv zeta. split.
  - intros H. apply seq_in in H. destruct H as (s1 & H1 & H). apply cls_in in H1. destruct H1 as (x1 & l1 & E1 & P1 & ->).
    apply seq_in in H. destruct H as (s2 & H2 & H). apply cls_in in H2. destruct H2 as (x2 & l2 & E2 & P2 & ->). cbn [adv mIn] in E2. subst l1.
    apply seq_in in H. destruct H as (s3 & H3 & H). apply cls_in in H3. destruct H3 as (x3 & l3 & E3 & P3 & ->). cbn [adv mIn] in E3. subst l2.
    apply seq_in in H. destruct H as (s4 & H4 & H). apply cls_in in H4. destruct H4 as (x4 & l4 & E4 & P4 & ->). cbn [adv mIn] in E4. subst l3.
    rewrite !adv_adv in H. cbn [app] in H. apply opt_in in H. destruct H as [H| ->].
    + apply seq_in in H. destruct H as (s5 & H5 & H). apply cls_in in H5. destruct H5 as (x5 & l5 & E5 & P5 & ->). cbn [adv mIn] in E5. subst l4.
      rewrite !adv_adv in H. cbn [app] in H. apply opt_in in H. destruct H as [H| ->].
      * apply cls_in in H. destruct H as (x6 & l6 & E6 & P6 & ->). cbn [adv mIn] in E6. subst l5. rewrite adv_adv.
        exists [x1; x2; x3; x4; x5; x6], l6. split; [exact E1|]. split; [cbn; lia|]. split; [repeat (apply Forall_cons; [assumption|]); apply Forall_nil|reflexivity].
      * exists [x1; x2; x3; x4; x5], l5. split; [exact E1|]. split; [cbn; lia|]. split; [repeat (apply Forall_cons; [assumption|]); apply Forall_nil|reflexivity].
    + exists [x1; x2; x3; x4], l4. split; [exact E1|]. split; [cbn; lia|]. split; [repeat (apply Forall_cons; [assumption|]); apply Forall_nil|reflexivity].
  - intros (l & r & E & HL & HF & ->).
    destruct HF as [|x1 l P1 HF]; [cbn in HL; lia|]. destruct HF as [|x2 l P2 HF]; [cbn in HL; lia|].
    destruct HF as [|x3 l P3 HF]; [cbn in HL; lia|]. destruct HF as [|x4 l P4 HF]; [cbn in HL; lia|].
    apply seq_in. exists (adv st [x1] (x2 :: x3 :: x4 :: l ++ r)). split; [apply cls_in; eexists; eexists; split; [exact E|]; auto|].
    apply seq_in. exists (adv st [x1; x2] (x3 :: x4 :: l ++ r)). split; [apply cls_in; exists x2, (x3 :: x4 :: l ++ r); rewrite adv_adv; auto|].
    apply seq_in. exists (adv st [x1; x2; x3] (x4 :: l ++ r)). split; [apply cls_in; exists x3, (x4 :: l ++ r); rewrite adv_adv; auto|].
    apply seq_in. exists (adv st [x1; x2; x3; x4] (l ++ r)). split; [apply cls_in; exists x4, (l ++ r); rewrite adv_adv; auto|].
    apply opt_in. destruct HF as [|x5 l P5 HF]; [right; reflexivity|]. left.
    apply seq_in. exists (adv st [x1; x2; x3; x4; x5] (l ++ r)). split; [apply cls_in; exists x5, (l ++ r); rewrite adv_adv; auto|].
    apply opt_in. destruct HF as [|x6 l P6 HF]; [right; reflexivity|]. left. destruct HF as [|x7 l P7 HF]; [|cbn in HL; lia].
    apply cls_in. exists x6, r. rewrite adv_adv. auto.
Qed.

(** ** Bytes *)
Lemma decode_head s x l : decode s = x :: l -> fst x < 0x80 -> exists b s', s = b :: s' /\ bv b < 0x80 /\ x = (bv b, 1) /\ decode s' = l.
Proof.
  intros E Hx. destruct s as [|b s]; [discriminate E|]. destruct (Z.ltb_spec (bv b) 0x80) as [Hb|Hb].
  - rewrite decode_ascii in E by exact Hb. injection E as <- <-. exists b, s. auto.
  - exfalso. rewrite decode_cons in E by discriminate. pose proof (f_equal (hd x) E) as Ex. cbn [hd] in Ex. clear E. subst x.
    destruct (DecodeRune (b :: s)) as [r n] eqn:ED. cbn [fst] in Hx. apply decode_spec in ED; [|discriminate].
    destruct ED as [(e & rest & E & He & _)|(-> & _)]; [|unfold RuneError in Hx; lia].
    destruct He; cbn [app] in E; try lia; injection E as <- _; lia.
Qed.

Definition at_ (pre suf : str) caps : mstate := {| mPos := slen pre; mIn := decode suf; mCaps := caps |}.
Lemma ascii_prefix l1 : forall s l2, decode s = l1 ++ l2 -> Forall (fun x => fst x < 0x80) l1 ->
  exists s1 s2, s = s1 ++ s2 /\ l1 = map (fun b => (bv b, 1)) s1 /\ ascii_str s1 /\ decode s2 = l2.
Proof.
  induction l1 as [|x l1 IH]; intros s l2 E HF; [exists [], s; repeat split; auto; constructor|].
  inversion HF as [|? ? Hx HF']; subst. destruct (decode_head s x (l1 ++ l2) E Hx) as (b & s' & -> & Hb & -> & E').
  destruct (IH s' l2 E' HF') as (s1 & s2 & -> & -> & Ha & Ed). exists (b :: s1), s2. repeat split; auto. constructor; assumption.
Qed.
Lemma nbytes_ascii s : nbytes (map (fun b => (bv b, 1)) s) = slen s.
Proof. unfold nbytes. rewrite map_map. cbn [snd]. induction s as [|b s IH]; [reflexivity|]. rewrite slen_cons, <- IH. reflexivity. Qed.
Lemma adv_at pre s1 s2 caps : ascii_str s1 -> adv (at_ pre (s1 ++ s2) caps) (map (fun b => (bv b, 1)) s1) (decode s2) = at_ (pre ++ s1) s2 caps.
Proof. intros _. unfold adv, at_. cbn [mPos mIn mCaps]. rewrite nbytes_ascii, slen_app. reflexivity. Qed.

(** A stretch of ASCII characters. *)
Lemma stretch (P : list (Z * Z) -> Prop) pre suf caps st' : (forall l, P l -> Forall (fun x => fst x < 0x80) l) ->
  (exists l1 l2, decode suf = l1 ++ l2 /\ P l1 /\ st' = adv (at_ pre suf caps) l1 l2)
  <-> exists s1 s2, suf = s1 ++ s2 /\ ascii_str s1 /\ P (map (fun b => (bv b, 1)) s1) /\ st' = at_ (pre ++ s1) s2 caps.
Proof.
  intros HP. split.
  - intros (l1 & l2 & E & H1 & ->). destruct (ascii_prefix l1 suf l2 E (HP l1 H1)) as (s1 & s2 & -> & -> & Ha & <-).
    exists s1, s2. split; [reflexivity|]. split; [exact Ha|]. split; [exact H1|apply adv_at, Ha].
  - intros (s1 & s2 & -> & Ha & H1 & ->). exists (map (fun b => (bv b, 1)) s1), (decode s2).
    split; [rewrite decode_ascii_app, decode_ascii_str by exact Ha; reflexivity|]. split; [exact H1|]. symmetry. apply adv_at, Ha.
Qed.
Definition AsciiClass (p : Z -> bool) : Prop := forall r, p r = true -> r < 0x80.
Lemma ascii_all p (s : str) : AsciiClass p -> Forall (fun b => p (bv b) = true) s -> ascii_str s.
Proof. intros Hp. apply Forall_impl. intros b. apply Hp. Qed.
Lemma forall_bytes p s : Forall (fun x : Z * Z => p (fst x) = true) (map (fun b => (bv b, 1)) s) <-> Forall (fun b => p (bv b) = true) s.
Proof. rewrite Forall_map. reflexivity. Qed.
Lemma forall_ascii p l : AsciiClass p -> Forall (fun x : Z * Z => p (fst x) = true) l -> Forall (fun x : Z * Z => fst x < 0x80) l.
Proof. intros Hp. apply Forall_impl. intros [r n]. apply Hp. Qed.

Lemma bcls p pre suf caps st' : AsciiClass p -> In st' (cmatch (CCls p) (at_ pre suf caps)) <->
  exists b s2, suf = b :: s2 /\ p (bv b) = true /\ st' = at_ (pre ++ [b]) s2 caps.
Proof.
  intros Hp. rewrite cls_in. cbn [at_ mIn]. split.
  - intros (x & l & E & Hx & ->). destruct (decode_head suf x l E (Hp _ Hx)) as (b & s' & -> & Hb & -> & <-). exists b, s'.
    split; [reflexivity|]. split; [exact Hx|]. change [(bv b, 1)] with (map (fun b => (bv b, 1)) [b]). apply (adv_at pre [b] s' caps). constructor; auto.
  - intros (b & s2 & -> & Hb & ->). exists (bv b, 1), (decode s2). split; [apply decode_ascii, Hp, Hb|]. split; [exact Hb|]. symmetry.
    apply (adv_at pre [b] s2 caps). constructor; auto.
Qed.
Lemma bstar p pre suf caps st' : AsciiClass p -> In st' (cmatch (CStar (CCls p)) (at_ pre suf caps)) <->
  exists s1 s2, suf = s1 ++ s2 /\ Forall (fun b => p (bv b) = true) s1 /\ st' = at_ (pre ++ s1) s2 caps.
Proof.
  intros Hp. rewrite star_in. cbn [at_ mIn]. rewrite (stretch (Forall (fun x => p (fst x) = true)) pre suf caps st') by (intros l; apply forall_ascii, Hp).
  split; intros (s1 & s2 & A & B); exists s1, s2.
  - destruct B as (_ & B & C). apply forall_bytes in B. auto.
  - destruct B as (B & C). split; [exact A|]. split; [exact (ascii_all p s1 Hp B)|]. split; [apply forall_bytes, B|exact C].
Qed.
Lemma bplus p pre suf caps st' : AsciiClass p -> In st' (cmatch (cplus (CCls p)) (at_ pre suf caps)) <->
  exists s1 s2, suf = s1 ++ s2 /\ s1 <> [] /\ Forall (fun b => p (bv b) = true) s1 /\ st' = at_ (pre ++ s1) s2 caps.
Proof.
  intros Hp. rewrite plus_in. cbn [at_ mIn].
  pose proof (stretch (fun l => l <> [] /\ Forall (fun x => p (fst x) = true) l) pre suf caps st') as K.
  assert (HA : forall l : list (Z * Z), l <> [] /\ Forall (fun x => p (fst x) = true) l -> Forall (fun x => fst x < 0x80) l) by (intros l [_ HF]; revert HF; apply forall_ascii, Hp).
  specialize (K HA). split.
  - intros (l1 & l2 & A & N & F & C). destruct (proj1 K) as (s1 & s2 & A' & _ & [N' F'] & C'); [exists l1, l2; auto|]. exists s1, s2.
    split; [exact A'|]. split; [intros ->; apply N'; reflexivity|]. split; [apply forall_bytes, F'|exact C'].
  - intros (s1 & s2 & A & N & F & C). destruct (proj2 K) as (l1 & l2 & A' & [N' F'] & C').
    + exists s1, s2. split; [exact A|]. split; [exact (ascii_all p s1 Hp F)|]. split; [split; [destruct s1; [congruence|discriminate]|apply forall_bytes, F]|exact C].
    + exists l1, l2. auto.
Qed.
Lemma upper_hex_ascii : AsciiClass is_upper_hex.
Proof. intros r. unfold is_upper_hex, inb. lia. Qed.
Lemma bhex46 pre suf caps st' : In st' (cmatch hex46 (at_ pre suf caps)) <->
  exists s1 s2, suf = s1 ++ s2 /\ (4 <= List.length s1 <= 6)%nat /\ Forall (fun b => is_upper_hex (bv b) = true) s1 /\ st' = at_ (pre ++ s1) s2 caps.
Proof.
  rewrite hex46_in. cbn [at_ mIn].
  pose proof (stretch (fun l => (4 <= List.length l <= 6)%nat /\ Forall (fun x => is_upper_hex (fst x) = true) l) pre suf caps st') as K.
  assert (HA : forall l : list (Z * Z), (4 <= List.length l <= 6)%nat /\ Forall (fun x => is_upper_hex (fst x) = true) l -> Forall (fun x => fst x < 0x80) l) by (intros l [_ HF]; revert HF; apply forall_ascii, upper_hex_ascii).
  specialize (K HA). split.
  - intros (l1 & l2 & A & N & F & C). destruct (proj1 K) as (s1 & s2 & A' & _ & [N' F'] & C'); [exists l1, l2; auto|]. exists s1, s2.
    rewrite map_length in N'. split; [exact A'|]. split; [exact N'|]. split; [apply forall_bytes, F'|exact C'].
  - intros (s1 & s2 & A & N & F & C). destruct (proj2 K) as (l1 & l2 & A' & [N' F'] & C').
    + exists s1, s2. split; [exact A|]. split; [exact (ascii_all _ s1 upper_hex_ascii F)|]. split; [split; [rewrite map_length; exact N|apply forall_bytes, F]|exact C].
    + exists l1, l2. auto.
Qed.

(** The rest of the line. *)
Lemma newline_rune s : Forall (fun x => is_dot (fst x) = true) (decode s) <-> ~ In x0a s.
Proof.
  split.
  - intros HF K. apply in_split in K. destruct K as (a & b & ->). rewrite decode_app_ascii in HF by reflexivity. apply Forall_app in HF.
    destruct HF as [_ HF]. inversion HF as [|? ? K _]; subst. discriminate K.
  - intros K. apply Forall_forall. intros x Hx. apply in_split in Hx. destruct Hx as (l1 & l2 & E).
    destruct (decode_split l1 s _ E) as (p & q & -> & _ & Eq & _). unfold is_dot. destruct (Z.eqb_spec (fst x) 10) as [Ex|]; [|reflexivity].
    exfalso. destruct (decode_head q x l2 Eq) as (b & s' & -> & _ & -> & _); [rewrite Ex; reflexivity|]. cbn [fst] in Ex.
    apply K. apply in_or_app. right. left. apply bv_inj. exact Ex.
Qed.
Lemma brest pre suf caps st' : In st' (cmatch (CSeq (CGroup 5 (cplus (CCls is_dot))) CEnd) (at_ pre suf caps)) <->
  suf <> [] /\ ~ In x0a suf /\ st' = at_ (pre ++ suf) [] ((5%nat, (slen pre, slen (pre ++ suf))) :: caps).
Proof.
  rewrite seq_in. split.
  - intros (s1 & H1 & H2). apply group_in in H1. destruct H1 as (s0 & H1 & ->). apply plus_in in H1. cbn [at_ mIn] in H1.
    destruct H1 as (l1 & l2 & E & N & HF & ->). apply end_in in H2. cbn [adv mIn mPos mCaps at_] in H2. destruct H2 as [-> ->]. rewrite app_nil_r in E. subst l1.
    split; [intros ->; apply N; reflexivity|]. split; [apply newline_rune, HF|]. change (nbytes (decode suf)) with (nb (decode suf)).
    rewrite decode_bytes. unfold at_. rewrite slen_app, decode_nil. reflexivity.
  - intros (N & K & ->). eexists. split.
    + apply group_in. exists (adv (at_ pre suf caps) (decode suf) []). split; [|reflexivity]. apply plus_in. exists (decode suf), []. cbn [at_ mIn].
      split; [rewrite app_nil_r; reflexivity|]. split; [intros E; apply N, decode_nil_inv, E|]. split; [apply newline_rune, K|reflexivity].
    + apply end_in. cbn [adv mIn mPos mCaps at_]. split; [reflexivity|]. change (nbytes (decode suf)) with (nb (decode suf)).
      rewrite decode_bytes. unfold at_. rewrite slen_app, decode_nil. reflexivity.
Qed.

(** ** The whole pattern *)
Lemma in_existsb b l : In b l <-> existsb (Byte.eqb b) l = true.
Proof.
  rewrite existsb_exists. split.
  - intros H. exists b. split; [exact H|]. apply Byte.byte_dec_lb. reflexivity.
  - intros (c & H & E). apply Byte.byte_dec_bl in E. subst c. exact H.
Qed.
Lemma upper_hex_bytes b : is_upper_hex (bv b) = true <-> In b (lit "0123456789ABCDEF").
Proof. rewrite in_existsb. assert (E : is_upper_hex (bv b) = existsb (Byte.eqb b) (lit "0123456789ABCDEF")) by (destruct b; reflexivity). rewrite E. reflexivity. Qed.
Lemma word_bytes b : is_word (bv b) = true <-> In b (lit "ABCDEFGHIJKLMNOPQRSTUVWXYZabcdefghijklmnopqrstuvwxyz0123456789_").
Proof. rewrite in_existsb. assert (E : is_word (bv b) = existsb (Byte.eqb b) (lit "ABCDEFGHIJKLMNOPQRSTUVWXYZabcdefghijklmnopqrstuvwxyz0123456789_")) by (destruct b; reflexivity). rewrite E. reflexivity. Qed.
Lemma blank_bytes b : is_blank (bv b) = true <-> In b blanks.
Proof. rewrite in_existsb. assert (E : is_blank (bv b) = existsb (Byte.eqb b) blanks) by (destruct b; reflexivity). rewrite E. reflexivity. Qed.
Lemma forall_iff {A} (P Q : A -> Prop) l : (forall a, P a <-> Q a) -> Forall P l <-> Forall Q l.
Proof. intros H. split; apply Forall_impl; intros a; apply H. Qed.
Lemma word_ascii : AsciiClass is_word.
Proof. intros r. unfold is_word, inb. lia. Qed.
Lemma blank_ascii : AsciiClass is_blank.
Proof. intros r. unfold is_blank. lia. Qed.
Lemma eqb_ascii k : k < 0x80 -> AsciiClass (Z.eqb k).
Proof. intros Hk r. lia. Qed.
Lemma bbyte x pre suf caps st' : bv x < 0x80 -> In st' (cmatch (CCls (Z.eqb (bv x))) (at_ pre suf caps)) <->
  exists s2, suf = x :: s2 /\ st' = at_ (pre ++ [x]) s2 caps.
Proof.
  intros Hx. rewrite bcls by (apply eqb_ascii, Hx). split.
  - intros (b & s2 & -> & E & ->). apply Z.eqb_eq in E. apply bv_inj in E. subst b. eauto.
  - intros (s2 & -> & ->). exists x, s2. split; [reflexivity|]. split; [apply Z.eqb_refl|reflexivity].
Qed.
Lemma bgroup n a pre suf caps st' (P : str -> str -> Prop) caps' :
  (forall st, In st (cmatch a (at_ pre suf caps)) <-> exists s1 s2, suf = s1 ++ s2 /\ P s1 s2 /\ st = at_ (pre ++ s1) s2 (caps' s1)) ->
  In st' (cmatch (CGroup n a) (at_ pre suf caps)) <->
  exists s1 s2, suf = s1 ++ s2 /\ P s1 s2 /\ st' = at_ (pre ++ s1) s2 ((n, (slen pre, slen (pre ++ s1))) :: caps' s1).
Proof.
  intros H. rewrite group_in. split.
  - intros (st1 & H1 & ->). apply H in H1. destruct H1 as (s1 & s2 & E & HP & ->). exists s1, s2. auto.
  - intros (s1 & s2 & E & HP & ->). exists (at_ (pre ++ s1) s2 (caps' s1)). split; [apply H; eauto|reflexivity].
Qed.

(** The groups of a line. *)
Definition caps_of (from : str) (to_ : option str) (w1 w2 name w3 : str) (b : byte) (comment : str) : list (nat * (Z * Z)) :=
  let mid := match to_ with Some t => lit ".." ++ t | None => [] end in
  let p4 := from ++ mid ++ w1 ++ lit ";" ++ w2 in
  let p5 := p4 ++ name ++ w3 ++ lit "#" ++ [b] in
  (5%nat, (slen p5, slen (p5 ++ comment))) :: (4%nat, (slen p4, slen (p4 ++ name)))
  :: (match to_ with
      | Some t => [(2%nat, (slen from, slen (from ++ lit ".." ++ t))); (3%nat, (slen (from ++ lit ".."), slen (from ++ lit ".." ++ t)))]
      | None => [] end)
  ++ [(1%nat, (0, slen from))].

Definition Pieces line from to_ w1 w2 name w3 b comment : Prop :=
  line = from ++ (match to_ with Some t => lit ".." ++ t | None => [] end) ++ w1 ++ lit ";" ++ w2 ++ name ++ w3 ++ lit "#" ++ [b] ++ comment
  /\ HexField from /\ (forall t, to_ = Some t -> HexField t) /\ Blanks w1 /\ Blanks w2 /\ Blanks w3 /\ In b blanks
  /\ Word name /\ comment <> [] /\ ~ In x0a comment.

Lemma hex_field s : HexField s <-> (4 <= List.length s <= 6)%nat /\ Forall (fun b => is_upper_hex (bv b) = true) s.
Proof. unfold HexField. rewrite (forall_iff _ _ s upper_hex_bytes). reflexivity. Qed.
Lemma word_field s : Word s <-> s <> [] /\ Forall (fun b => is_word (bv b) = true) s.
Proof. unfold Word. rewrite (forall_iff _ _ s word_bytes). reflexivity. Qed.
Lemma blanks_field s : Blanks s <-> Forall (fun b => is_blank (bv b) = true) s.
Proof. unfold Blanks. rewrite (forall_iff _ _ s blank_bytes). reflexivity. Qed.

Lemma from_in pre suf caps st' n : In st' (cmatch (CGroup n hex46) (at_ pre suf caps)) <->
  exists s1 s2, suf = s1 ++ s2 /\ HexField s1 /\ st' = at_ (pre ++ s1) s2 ((n, (slen pre, slen (pre ++ s1))) :: caps).
Proof.
  apply (bgroup n hex46 pre suf caps st' (fun s1 _ => HexField s1) (fun _ => caps)). intros st. rewrite bhex46.
  split; intros (s1 & s2 & A & B); exists s1, s2.
  - destruct B as (B & C & D). split; [exact A|]. split; [apply hex_field; auto|exact D].
  - destruct B as (B & D). apply hex_field in B. destruct B. auto.
Qed.
Lemma to_in pre suf caps st' :
  In st' (cmatch (COpt (CGroup 2 (CSeq (CCls (Z.eqb 46)) (CSeq (CCls (Z.eqb 46)) (CGroup 3 hex46))))) (at_ pre suf caps)) <->
  (exists t s2, suf = (lit ".." ++ t) ++ s2 /\ HexField t
    /\ st' = at_ (pre ++ lit ".." ++ t) s2 ((2%nat, (slen pre, slen (pre ++ lit ".." ++ t))) :: (3%nat, (slen (pre ++ lit ".."), slen (pre ++ lit ".." ++ t))) :: caps))
  \/ st' = at_ pre suf caps.
Proof.
  rewrite opt_in. apply or_iff_compat_r.
  rewrite (bgroup 2 _ pre suf caps st' (fun s1 _ => exists t, s1 = lit ".." ++ t /\ HexField t)
             (fun s1 => (3%nat, (slen (pre ++ lit ".."), slen (pre ++ s1))) :: caps)).
  - split.
    + intros (s1 & s2 & -> & (t & -> & Ht) & ->). exists t, s2. auto.
    + intros (t & s2 & -> & Ht & ->). exists (lit ".." ++ t), s2. eauto.
  - intros st. rewrite seq_in. split.
    + intros (st1 & H1 & H2). change 46 with (bv x2e) in H1. apply bbyte in H1; [|reflexivity]. destruct H1 as (s2 & -> & ->). apply seq_in in H2.
      destruct H2 as (st2 & H2 & H3). change 46 with (bv x2e) in H2. apply bbyte in H2; [|reflexivity]. destruct H2 as (s3 & -> & ->).
      apply from_in in H3. destruct H3 as (t & s4 & -> & Ht & ->). exists (lit ".." ++ t), s4. split; [reflexivity|]. split; [eauto|].
      rewrite <- !app_assoc. reflexivity.
    + intros (s1 & s2 & -> & (t & -> & Ht) & ->). exists (at_ (pre ++ [x2e]) (x2e :: t ++ s2) caps). split.
      * change 46 with (bv x2e). apply bbyte; [reflexivity|]. exists (x2e :: t ++ s2). auto.
      * apply seq_in. exists (at_ ((pre ++ [x2e]) ++ [x2e]) (t ++ s2) caps). split.
        -- change 46 with (bv x2e). apply bbyte; [reflexivity|]. exists (t ++ s2). auto.
        -- apply from_in. exists t, s2. split; [reflexivity|]. split; [exact Ht|]. rewrite <- !app_assoc. reflexivity.
Qed.

Lemma pattern_in line st' : In st' (cmatch propertyPattern (at_ [] line [])) <->
  exists from to_ w1 w2 name w3 b comment, Pieces line from to_ w1 w2 name w3 b comment
    /\ st' = at_ line [] (caps_of from to_ w1 w2 name w3 b comment).
Proof.
  unfold propertyPattern. split.
  - intros H. apply seq_in in H. destruct H as (st1 & H1 & H). apply from_in in H1. destruct H1 as (from & s1 & -> & Hf & ->). cbn [app] in H.
    change (slen []) with 0 in H.
    apply seq_in in H. destruct H as (st2 & H2 & H).
    assert (K : exists to_ s2, s1 = (match to_ with Some t => lit ".." ++ t | None => [] end) ++ s2 /\ (forall t, to_ = Some t -> HexField t)
      /\ st2 = at_ (from ++ match to_ with Some t => lit ".." ++ t | None => [] end) s2
           ((match to_ with
             | Some t => [(2%nat, (slen from, slen (from ++ lit ".." ++ t))); (3%nat, (slen (from ++ lit ".."), slen (from ++ lit ".." ++ t)))]
             | None => [] end) ++ [(1%nat, (0, slen from))])).
    { apply to_in in H2. destruct H2 as [(t & s2 & -> & Ht & ->)| ->].
      - exists (Some t), s2. split; [reflexivity|]. split; [intros t' [= <-]; exact Ht|reflexivity].
      - exists None, s1. split; [reflexivity|]. split; [discriminate|]. rewrite app_nil_r. reflexivity. }
    clear H2. destruct K as (to_ & s2 & -> & Ht & ->).
    apply seq_in in H. destruct H as (st3 & H3 & H). apply (bstar _ _ _ _ _ blank_ascii) in H3. destruct H3 as (w1 & s3 & -> & B1 & ->).
    apply seq_in in H. destruct H as (st4 & H4 & H). change 59 with (bv x3b) in H4. apply bbyte in H4; [|reflexivity]. destruct H4 as (s4 & -> & ->).
    apply seq_in in H. destruct H as (st5 & H5 & H). apply (bstar _ _ _ _ _ blank_ascii) in H5. destruct H5 as (w2 & s5 & -> & B2 & ->).
    apply seq_in in H. destruct H as (st6 & H6 & H).
    match type of H6 with In _ (cmatch _ (at_ _ _ ?c)) =>
      apply (bgroup 4 _ _ _ c _ (fun s1 _ => s1 <> [] /\ Forall (fun b => is_word (bv b) = true) s1) (fun _ => c)) in H6 end.
    2: { intros st. rewrite bplus by apply word_ascii. split; intros (x & y & A & B); exists x, y; intuition. }
    destruct H6 as (name & s6 & -> & [N6 B6] & ->).
    apply seq_in in H. destruct H as (st7 & H7 & H). apply (bstar _ _ _ _ _ blank_ascii) in H7. destruct H7 as (w3 & s7 & -> & B3 & ->).
    apply seq_in in H. destruct H as (st8 & H8 & H). change 35 with (bv x23) in H8. apply bbyte in H8; [|reflexivity]. destruct H8 as (s8 & -> & ->).
    apply seq_in in H. destruct H as (st9 & H9 & H). apply (bcls _ _ _ _ _ blank_ascii) in H9. destruct H9 as (b & comment & -> & Bb & ->).
    apply brest in H. destruct H as (Nc & Kc & ->).
    exists from, to_, w1, w2, name, w3, b, comment. split.
    + unfold Pieces. split; [reflexivity|]. split; [exact Hf|]. split; [exact Ht|]. split; [apply blanks_field, B1|]. split; [apply blanks_field, B2|].
      split; [apply blanks_field, B3|]. split; [apply blank_bytes, Bb|]. split; [apply word_field; auto|]. auto.
    + unfold caps_of. cbv zeta. rewrite <- !app_assoc. reflexivity.
  - intros (from & to_ & w1 & w2 & name & w3 & b & comment & (-> & Hf & Ht & B1 & B2 & B3 & Bb & Hw & Nc & Kc) & ->).
    apply blanks_field in B1, B2, B3. apply blank_bytes in Bb. apply word_field in Hw. destruct Hw as [N6 B6].
    set (mid := match to_ with Some t => lit ".." ++ t | None => [] end).
    set (mc := match to_ with Some t => [(2%nat, (slen from, slen (from ++ lit ".." ++ t))); (3%nat, (slen (from ++ lit ".."), slen (from ++ lit ".." ++ t)))] | None => [] end).
    apply seq_in. eexists. split; [apply from_in; eexists; eexists; split; [reflexivity|]; split; [exact Hf|reflexivity]|]. cbn [app]. change (slen []) with 0.
    apply seq_in. exists (at_ (from ++ mid) (w1 ++ lit ";" ++ w2 ++ name ++ w3 ++ lit "#" ++ [b] ++ comment) (mc ++ [(1%nat, (0, slen from))])). split.
    { apply to_in. destruct to_ as [t|]; [|right; unfold mid, mc; rewrite app_nil_r; reflexivity]. left. eexists t, _.
      split; [unfold mid; reflexivity|]. split; [apply Ht; reflexivity|reflexivity]. }
    apply seq_in. eexists. split; [apply (bstar _ _ _ _ _ blank_ascii); eexists; eexists; split; [reflexivity|]; split; [exact B1|reflexivity]|].
    apply seq_in. eexists. split; [change 59 with (bv x3b); apply bbyte; [reflexivity|]; eexists; split; reflexivity|].
    apply seq_in. eexists. split; [apply (bstar _ _ _ _ _ blank_ascii); eexists; eexists; split; [reflexivity|]; split; [exact B2|reflexivity]|].
    apply seq_in. eexists. split.
    { apply (bgroup 4 _ _ _ _ _ (fun s1 _ => s1 <> [] /\ Forall (fun b => is_word (bv b) = true) s1) (fun _ => mc ++ [(1%nat, (0, slen from))])).
      - intros st. rewrite bplus by apply word_ascii. split; intros (x & y & A & B); exists x, y; intuition.
      - eexists; eexists; split; [reflexivity|]; split; [split; [exact N6|exact B6]|reflexivity]. }
    apply seq_in. eexists. split; [apply (bstar _ _ _ _ _ blank_ascii); eexists; eexists; split; [reflexivity|]; split; [exact B3|reflexivity]|].
    apply seq_in. eexists. split; [change 35 with (bv x23); apply bbyte; [reflexivity|]; eexists; split; reflexivity|].
    apply seq_in. eexists. split; [apply (bcls _ _ _ _ _ blank_ascii); eexists; eexists; split; [reflexivity|]; split; [exact Bb|reflexivity]|].
    apply brest. split; [exact Nc|]. split; [exact Kc|]. unfold caps_of. cbv zeta. fold mid. fold mc. rewrite <- !app_assoc. reflexivity.
Qed.

(** ** The groups *)
Lemma group_part (p m r : str) : take (slen (p ++ m) - slen p) (drop (slen p) (p ++ m ++ r)) = m.
Proof. rewrite drop_app_exact, slen_app. replace (slen p + slen m - slen p) with (slen m) by lia. apply take_app_exact. Qed.
Lemma group_part_at line a b (p m r : str) : line = p ++ m ++ r -> a = slen p -> b = slen (p ++ m) -> take (b - a) (drop a line) = m.
Proof. intros -> -> ->. apply group_part. Qed.
Lemma groups_of line from to_ w1 w2 name w3 b comment : Pieces line from to_ w1 w2 name w3 b comment ->
  let caps := caps_of from to_ w1 w2 name w3 b comment in
  group line caps 1 = from /\ group line caps 3 = (match to_ with Some t => t | None => [] end) /\ group line caps 4 = name /\ group line caps 5 = comment.
Proof.
  intros (E & _). unfold caps_of. cbv zeta.
  set (mid := match to_ with Some t => lit ".." ++ t | None => [] end) in *.
  assert (G4 : forall r, take (slen ((from ++ mid ++ w1 ++ lit ";" ++ w2) ++ name) - slen (from ++ mid ++ w1 ++ lit ";" ++ w2)) (drop (slen (from ++ mid ++ w1 ++ lit ";" ++ w2)) line) = r -> r = name).
  { intros r <-. eapply group_part_at; [|reflexivity|reflexivity]. rewrite E, <- !app_assoc. reflexivity. }
  assert (G5 : forall r, take (slen (((from ++ mid ++ w1 ++ lit ";" ++ w2) ++ name ++ w3 ++ lit "#" ++ [b]) ++ comment) - slen ((from ++ mid ++ w1 ++ lit ";" ++ w2) ++ name ++ w3 ++ lit "#" ++ [b])) (drop (slen ((from ++ mid ++ w1 ++ lit ";" ++ w2) ++ name ++ w3 ++ lit "#" ++ [b])) line) = r -> r = comment).
  { intros r <-. eapply (fun x => group_part_at line _ _ x _ []); [|reflexivity|reflexivity]. rewrite E, app_nil_r, <- !app_assoc. reflexivity. }
  assert (G1 : forall r, take (slen from - 0) (drop 0 line) = r -> r = from).
  { intros r <-. apply (group_part_at line 0 (slen from) [] from (mid ++ w1 ++ lit ";" ++ w2 ++ name ++ w3 ++ lit "#" ++ [b] ++ comment)); [exact E|reflexivity|reflexivity]. }
  assert (G3 : forall t r, to_ = Some t -> take (slen (from ++ lit ".." ++ t) - slen (from ++ lit "..")) (drop (slen (from ++ lit "..")) line) = r -> r = t).
  { intros t r -> <-. eapply group_part_at; [|reflexivity|rewrite <- app_assoc; reflexivity]. rewrite E. unfold mid. rewrite <- !app_assoc. reflexivity. }
  destruct to_ as [t|]; cbn [app group Nat.eqb].
  - split; [eapply G1; reflexivity|]. split; [eapply G3; reflexivity|]. split; [eapply G4; reflexivity|eapply G5; reflexivity].
  - split; [eapply G1; reflexivity|]. split; [reflexivity|]. split; [eapply G4; reflexivity|eapply G5; reflexivity].
Qed.

(** ** One reading *)
Definition stops (P : byte -> Prop) (s : str) : Prop := forall b r, s = b :: r -> ~ P b.
Lemma stretch_unique (P : byte -> Prop) a : forall b x y, a ++ x = b ++ y -> Forall P a -> Forall P b -> stops P x -> stops P y -> a = b /\ x = y.
Proof.
  induction a as [|c a IH]; intros [|d b] x y E Fa Fb Sx Sy; cbn [app] in E.
  - auto.
  - exfalso. inversion Fb; subst. eapply Sx; [reflexivity|assumption].
  - exfalso. inversion Fa; subst. eapply Sy; [symmetry; reflexivity|assumption].
  - injection E as -> E. inversion Fa; inversion Fb; subst. destruct (IH b x y E) as [-> ->]; auto.
Qed.
Lemma stops_blanks (P : byte -> Prop) w s : Blanks w -> (forall b, In b blanks -> ~ P b) -> stops P s -> stops P (w ++ s).
Proof. intros Hw Hb Hs. destruct Hw as [|c w Hc Hw]; [exact Hs|]. intros b r [= <- <-]. apply Hb, Hc. Qed.
Ltac absurd_in := intros K; repeat (destruct K as [K|K]; [discriminate K|]); exact K.
Lemma property_line_pieces line from to_ name comment : PropertyLine line from to_ name comment <-> exists w1 w2 w3 b, Pieces line from to_ w1 w2 name w3 b comment.
Proof. reflexivity. Qed.
Lemma blank_not_hex b : In b blanks -> ~ In b (lit "0123456789ABCDEF").
Proof. rewrite !in_existsb. destruct b; cbn; congruence. Qed.
Lemma blank_not_word b : In b blanks -> ~ In b (lit "ABCDEFGHIJKLMNOPQRSTUVWXYZabcdefghijklmnopqrstuvwxyz0123456789_").
Proof. rewrite !in_existsb. destruct b; cbn; congruence. Qed.
Lemma pieces_unique line from to_ w1 w2 name w3 b comment from' to_' w1' w2' name' w3' b' comment' :
  Pieces line from to_ w1 w2 name w3 b comment -> Pieces line from' to_' w1' w2' name' w3' b' comment' ->
  from = from' /\ to_ = to_' /\ name = name' /\ comment = comment'.
Proof.
  intros (E & Hf & Ht & B1 & B2 & B3 & Hb & [Nn Hn] & _) (E' & Hf' & Ht' & B1' & B2' & B3' & Hb' & [Nn' Hn'] & _).
  rewrite E in E'. clear line E.
  assert (Semi : forall P : byte -> Prop, ~ P x3b -> forall s, stops P (lit ";" ++ s)) by (intros P HP s c r [= <- <-]; exact HP).
  assert (Hash : forall P : byte -> Prop, ~ P x23 -> forall s, stops P (lit "#" ++ s)) by (intros P HP s c r [= <- <-]; exact HP).
  assert (Dots : forall P : byte -> Prop, ~ P x2e -> forall s t, stops P ((lit ".." ++ s) ++ t)) by (intros P HP s t c r [= <- <-]; exact HP).
  assert (H3b : ~ In x3b (lit "0123456789ABCDEF")) by (rewrite in_existsb; discriminate).
  assert (S1 : forall o w s, (forall t, o = Some t -> HexField t) -> Blanks w -> stops (fun b => In b (lit "0123456789ABCDEF")) ((match o with Some t => lit ".." ++ t | None => [] end) ++ w ++ lit ";" ++ s)).
  { intros [t|] w s _ Hw; [apply Dots; rewrite in_existsb; discriminate|]. cbn [app]. apply stops_blanks; [exact Hw|exact blank_not_hex|apply Semi, H3b]. }
  apply stretch_unique with (P := fun b => In b (lit "0123456789ABCDEF")) in E'; [|exact (proj2 Hf)|exact (proj2 Hf')|apply S1; assumption|apply S1; assumption].
  destruct E' as [-> E'].
  assert (E1 : to_ = to_' /\ w1 ++ lit ";" ++ w2 ++ name ++ w3 ++ lit "#" ++ [b] ++ comment = w1' ++ lit ";" ++ w2' ++ name' ++ w3' ++ lit "#" ++ [b'] ++ comment').
  { assert (NoDot : forall t w s, Blanks w -> w ++ lit ";" ++ s <> (lit ".." ++ t)).
    { intros t w s Hw K. destruct Hw as [|c w Hc Hw]; cbn [app] in K; [discriminate K|]. injection K as -> _. cbn in Hc. revert Hc. absurd_in. }
    destruct to_ as [t|], to_' as [t'|].
    - rewrite <- !app_assoc in E'. apply app_inv_head in E'.
      apply stretch_unique with (P := fun b => In b (lit "0123456789ABCDEF")) in E'; [| | |apply (S1 None); [discriminate|assumption]|apply (S1 None); [discriminate|assumption]].
      + destruct E' as [-> E']. auto.
      + destruct (Ht t eq_refl) as [_ F]. exact F.
      + destruct (Ht' t' eq_refl) as [_ F]. exact F.
    - exfalso. rewrite <- !app_assoc in E'. cbn [app] in E'. symmetry in E'. revert E'. apply NoDot, B1'.
    - exfalso. rewrite <- !app_assoc in E'. revert E'. apply NoDot, B1.
    - auto. }
  destruct E1 as [<- E1]. clear E'.
  apply stretch_unique with (P := fun b => In b blanks) in E1; [|exact B1|exact B1'|apply Semi; cbn; absurd_in|apply Semi; cbn; absurd_in].
  destruct E1 as [_ E1]. apply app_inv_head in E1.
  assert (S2 : forall n s, n <> [] -> Forall (fun b => In b (lit "ABCDEFGHIJKLMNOPQRSTUVWXYZabcdefghijklmnopqrstuvwxyz0123456789_")) n -> stops (fun b => In b blanks) (n ++ s)).
  { intros n s N F. destruct F as [|c n Hc F]; [congruence|]. intros d r [= <- <-] K. exact (blank_not_word c K Hc). }
  apply stretch_unique with (P := fun b => In b blanks) in E1; [|exact B2|exact B2'|apply S2; assumption|apply S2; assumption].
  destruct E1 as [_ E1].
  apply stretch_unique with (P := fun b => In b (lit "ABCDEFGHIJKLMNOPQRSTUVWXYZabcdefghijklmnopqrstuvwxyz0123456789_")) in E1;
    [|exact Hn|exact Hn'|apply stops_blanks; [assumption|exact blank_not_word|apply Hash; rewrite in_existsb; discriminate]..].
  destruct E1 as [-> E1].
  apply stretch_unique with (P := fun b => In b blanks) in E1; [|exact B3|exact B3'|apply Hash; cbn; absurd_in|apply Hash; cbn; absurd_in].
  destruct E1 as [_ E1]. apply app_inv_head in E1. cbn [app] in E1. injection E1 as _ ->. auto.
Qed.
Lemma property_line_fun line from to_ name comment from' to_' name' comment' :
  PropertyLine line from to_ name comment -> PropertyLine line from' to_' name' comment' ->
  from = from' /\ to_ = to_' /\ name = name' /\ comment = comment'.
Proof. intros (w1 & w2 & w3 & b & P) (w1' & w2' & w3' & b' & P'). eapply pieces_unique; [exact P|exact P']. Qed.

Lemma submatch_at line : submatch propertyPattern line = match cmatch propertyPattern (at_ [] line []) with [] => None | st :: _ => Some (mCaps st) end.
Proof. reflexivity. Qed.
Lemma parse_some line from to_ name comment : PropertyLine line from to_ name comment -> parseProperty line = Some (the_prop from to_ name comment).
Proof.
  intros HP. pose proof HP as (w1 & w2 & w3 & b & P). unfold parseProperty. rewrite submatch_at.
  assert (K := proj2 (pattern_in line _) (ex_intro _ from (ex_intro _ to_ (ex_intro _ w1 (ex_intro _ w2 (ex_intro _ name (ex_intro _ w3 (ex_intro _ b (ex_intro _ comment (conj P eq_refl)))))))))).
  destruct (cmatch propertyPattern (at_ [] line [])) as [|st sts] eqn:E; [destruct K|]. clear K.
  assert (K : In st (cmatch propertyPattern (at_ [] line []))) by (rewrite E; left; reflexivity).
  apply pattern_in in K. destruct K as (f' & t' & v1 & v2 & n' & v3 & b' & c' & P' & ->). cbn [at_ mCaps].
  destruct (pieces_unique _ _ _ _ _ _ _ _ _ _ _ _ _ _ _ _ _ P P') as (<- & <- & <- & <-).
  destruct (groups_of _ _ _ _ _ _ _ _ _ P') as (G1 & G3 & G4 & G5). cbv zeta. rewrite G1, G3, G4, G5. unfold the_prop. f_equal. f_equal.
  destruct to_ as [t|]; [|reflexivity]. destruct P as (_ & _ & Ht & _). destruct (Ht t eq_refl) as [L _]. destruct t; [cbn in L; lia|reflexivity].
Qed.
Lemma parse_none line : parseProperty line = None -> forall from to_ name comment, ~ PropertyLine line from to_ name comment.
Proof. intros E from to_ name comment K. apply parse_some in K. congruence. Qed.
Lemma parse_inv line p : parseProperty line = Some p -> exists from to_ name comment, PropertyLine line from to_ name comment /\ p = the_prop from to_ name comment.
Proof.
  intros E. pose proof E as E0. unfold parseProperty in E0. rewrite submatch_at in E0.
  destruct (cmatch propertyPattern (at_ [] line [])) as [|st sts] eqn:Es; [discriminate|]. clear E0.
  assert (K : In st (cmatch propertyPattern (at_ [] line []))) by (rewrite Es; left; reflexivity).
  apply pattern_in in K. destruct K as (f & t & v1 & v2 & n & v3 & b & c & P & _).
  exists f, t, n, c. assert (PropertyLine line f t n c) by (exists v1, v2, v3, b; exact P). split; [assumption|].
  apply parse_some in H. congruence.
Qed.
Lemma parse_iff line p : parseProperty line = Some p <-> exists from to_ name comment, PropertyLine line from to_ name comment /\ p = the_prop from to_ name comment.
Proof. split; [apply parse_inv|]. intros (f & t & n & c & H & ->). apply parse_some, H. Qed.
