(** * Utf8Proofs: facts about decoding. *)
From Verif Require Import GoBase Utf8.
From Coq Require Import ZifyBool ZifyNat.
Local Open Scope Z_scope.
Ltac Zify.zify_post_hook ::= Z.div_mod_to_equations.

Lemma bv_range b : 0 <= bv b < 256.
Proof. unfold bv. pose proof (Byte.to_N_bounded b). lia. Qed.

Lemma bv_inj a b : bv a = bv b -> a = b.
Proof.
  unfold bv. intros H. apply N2Z.inj in H.
  pose proof (Byte.of_to_N a) as Ha. rewrite H, Byte.of_to_N in Ha. congruence.
Qed.

Lemma slen_nonneg {A} (l : list A) : 0 <= slen l.
Proof. unfold slen. lia. Qed.
Lemma slen_app {A} (a b : list A) : slen (a ++ b) = slen a + slen b.
Proof. unfold slen. rewrite app_length. lia. Qed.
Lemma slen_cons {A} (x : A) l : slen (x :: l) = 1 + slen l.
Proof. unfold slen. cbn [length]. lia. Qed.
Lemma slen_nil {A} : slen (@nil A) = 0.
Proof. reflexivity. Qed.
Lemma slen_0 {A} (l : list A) : slen l = 0 -> l = [].
Proof. destruct l; auto. rewrite slen_cons. pose proof (slen_nonneg l). lia. Qed.

Lemma take_drop n s : take n s ++ drop n s = s.
Proof. apply firstn_skipn. Qed.
Lemma drop_drop m n s : 0 <= m -> 0 <= n -> drop m (drop n s) = drop (n + m) s.
Proof.
  intros Hm Hn. unfold drop. replace (Z.to_nat (n + m)) with (Z.to_nat n + Z.to_nat m)%nat by lia.
  generalize (Z.to_nat n) (Z.to_nat m). clear. intros a b. revert s.
  induction a as [|a IH]; intros s; auto. destruct s; simpl; [apply skipn_nil|auto].
Qed.
Lemma drop_app_exact p q : drop (slen p) (p ++ q) = q.
Proof. unfold drop, slen. rewrite Nat2Z.id. rewrite skipn_app, skipn_all, Nat.sub_diag. reflexivity. Qed.
Lemma take_app_exact p q : take (slen p) (p ++ q) = p.
Proof.
  unfold take, slen. rewrite Nat2Z.id, firstn_app, Nat.sub_diag, firstn_all.
  cbn [firstn]. apply app_nil_r.
Qed.
Lemma slen_take n s : 0 <= n <= slen s -> slen (take n s) = n.
Proof. unfold slen, take. intros H. rewrite firstn_length_le; lia. Qed.
Lemma slen_drop n s : 0 <= n <= slen s -> slen (drop n s) = slen s - n.
Proof. unfold slen, drop. intros H. rewrite skipn_length. lia. Qed.
Lemma drop_0 s : drop 0 s = s.
Proof. reflexivity. Qed.

(** Case analysis on [DecodeRune]: valid sequences of each size. *)
Ltac dr_cases :=
  unfold DecodeRune;
  repeat match goal with
  | |- context [match ?l with [] => _ | _ :: _ => _ end] => destruct l
  | |- context [if ?b then _ else _] => destruct b eqn:?
  end.

Lemma DecodeRune_size s : s <> [] ->
  1 <= snd (DecodeRune s) <= 4 /\ snd (DecodeRune s) <= slen s.
Proof.
  intros Hs. dr_cases; try congruence; cbn [snd]; rewrite ?slen_cons;
    repeat match goal with |- context [slen ?l] =>
      lazymatch goal with H : 0 <= slen l |- _ => fail | _ => pose proof (slen_nonneg l) end end; lia.
Qed.

Lemma DecodeRune_range s : 0 <= fst (DecodeRune s) <= 0x10FFFF.
Proof.
  unfold RuneError, inb in *. dr_cases; cbn [fst]; unfold RuneError, inb, second_lo, second_hi in *;
    repeat match goal with |- context [bv ?b] =>
      lazymatch goal with H : 0 <= bv b < 256 |- _ => fail | _ => pose proof (bv_range b) end end;
    repeat match goal with H : context [if ?b then _ else _] |- _ => destruct b eqn:? end; lia.
Qed.

(** Size against value. *)
Lemma DecodeRune_class s : s <> [] ->
  let '(r, n) := DecodeRune s in
  (n = 1 /\ (0 <= r < 0x80 \/ r = 0xFFFD)) \/ (n = 2 /\ 0x80 <= r < 0x800)
  \/ (n = 3 /\ 0x800 <= r < 0x10000) \/ (n = 4 /\ 0x10000 <= r <= 0x10FFFF).
Proof.
  intros Hs. unfold RuneError, inb in *. dr_cases; try congruence;
    unfold RuneError, inb, second_lo, second_hi in *;
    repeat match goal with |- context [bv ?b] =>
      lazymatch goal with H : 0 <= bv b < 256 |- _ => fail | _ => pose proof (bv_range b) end end;
    repeat match goal with H : context [if ?b then _ else _] |- _ => destruct b eqn:? end; lia.
Qed.

(** ** Unfolding [decode] *)
Lemma decode_fuel_enough f : forall g s, (length s <= f)%nat -> (length s <= g)%nat ->
  decode_fuel f s = decode_fuel g s.
Proof.
  induction f as [|f IH]; intros g s Hf Hg.
  - destruct s; [|simpl in Hf; lia]. destruct g; reflexivity.
  - destruct s as [|c s]; [destruct g; reflexivity|].
    destruct g as [|g]; [simpl in Hg; lia|].
    cbn [decode_fuel]. destruct (DecodeRune (c :: s)) as [r n] eqn:E.
    f_equal. pose proof (DecodeRune_size (c :: s) ltac:(congruence)) as [H1 H2].
    rewrite E in H1, H2. cbn [snd] in *.
    assert (length (drop n (c :: s)) = length (c :: s) - Z.to_nat n)%nat as L
      by (unfold drop; apply skipn_length).
    apply IH; lia.
Qed.

Lemma decode_nil : decode [] = [].
Proof. reflexivity. Qed.

Lemma decode_cons s : s <> [] ->
  decode s = DecodeRune s :: decode (drop (snd (DecodeRune s)) s).
Proof.
  intros Hs. unfold decode at 1. destruct s as [|c s]; [congruence|].
  cbn [length decode_fuel]. pose proof (DecodeRune_size (c :: s) Hs) as [H1 H2].
  destruct (DecodeRune (c :: s)) as [r n] eqn:E. cbn [snd] in *. f_equal.
  apply decode_fuel_enough; [|auto].
  unfold drop. rewrite skipn_length. cbn [length]. lia.
Qed.

Lemma decode_nil_inv s : decode s = [] -> s = [].
Proof. destruct s as [|c s]; auto. rewrite decode_cons by congruence. discriminate. Qed.

(** Induction over the runes of a string. *)
Lemma decode_ind (P : str -> Prop) :
  P [] -> (forall s, s <> [] -> P (drop (snd (DecodeRune s)) s) -> P s) -> forall s, P s.
Proof.
  intros H0 Hstep s. remember (length s) as n eqn:Hn. revert s Hn.
  induction n as [n IH] using lt_wf_ind; intros s Hn.
  destruct s as [|c s]; auto. apply Hstep; [congruence|].
  eapply IH; [|reflexivity]. pose proof (DecodeRune_size (c :: s) ltac:(congruence)) as [H1 H2].
  unfold drop. rewrite skipn_length. unfold slen in H2. cbn [length] in *. lia.
Qed.

Definition nb (l : list (Z * Z)) : Z := zsum (map snd l).

Lemma nb_cons x l : nb (x :: l) = snd x + nb l.
Proof. reflexivity. Qed.
Lemma nb_app a b : nb (a ++ b) = nb a + nb b.
Proof. induction a as [|x a IH]; [reflexivity|]. cbn [app]. rewrite !nb_cons, IH. lia. Qed.

Lemma decode_bytes s : nb (decode s) = slen s.
Proof.
  induction s as [|s Hs IH] using decode_ind; [reflexivity|].
  rewrite decode_cons by auto. rewrite nb_cons, IH.
  pose proof (DecodeRune_size s Hs). rewrite slen_drop; lia.
Qed.

Lemma decode_range s : Forall (fun x => 0 <= fst x <= 0x10FFFF /\ 1 <= snd x <= 4) (decode s).
Proof.
  induction s as [|s Hs IH] using decode_ind; [constructor|].
  rewrite decode_cons by auto. constructor; auto.
  pose proof (DecodeRune_size s Hs). pose proof (DecodeRune_range s). tauto.
Qed.

Lemma decode_class s : Forall (fun x =>
  (snd x = 1 /\ (0 <= fst x < 0x80 \/ fst x = 0xFFFD)) \/ (snd x = 2 /\ 0x80 <= fst x < 0x800)
  \/ (snd x = 3 /\ 0x800 <= fst x < 0x10000) \/ (snd x = 4 /\ 0x10000 <= fst x <= 0x10FFFF))
  (decode s).
Proof.
  induction s as [|s Hs IH] using decode_ind; [constructor|].
  rewrite decode_cons by auto. constructor; auto.
  pose proof (DecodeRune_class s Hs) as H. destruct (DecodeRune s) as [r n]. exact H.
Qed.

(** ** Prefixes *)

(** A prefix long enough to contain the first rune decodes to the same. *)
Lemma DecodeRune_prefix p q : p <> [] -> snd (DecodeRune (p ++ q)) <= slen p ->
  DecodeRune p = DecodeRune (p ++ q).
Proof.
  intros Hp. destruct p as [|c0 p]; [congruence|]. rewrite slen_cons.
  unfold DecodeRune. cbn [app].
  destruct (bv c0 <? 128); auto.
  destruct (inb 194 223 (bv c0)).
  { destruct p as [|c1 p]; cbn [app]; auto.
    destruct q as [|d1 q]; auto. destruct (inb 128 191 (bv d1)); auto.
    cbn [snd]. rewrite slen_nil. lia. }
  destruct (inb 224 239 (bv c0)).
  { destruct p as [|c1 p]; cbn [app].
    - destruct q as [|d1 [|d2 q]]; auto.
      destruct (inb _ _ _ && inb _ _ _); auto. cbn [snd]. rewrite slen_nil. lia.
    - destruct p as [|c2 p]; cbn [app]; auto.
      destruct q as [|d2 q]; auto.
      destruct (inb _ _ _ && inb _ _ _); auto. cbn [snd]. rewrite slen_cons, slen_nil. lia. }
  destruct (inb 240 244 (bv c0)); auto.
  destruct p as [|c1 p]; cbn [app].
  - destruct q as [|d1 [|d2 [|d3 q]]]; auto.
    destruct (inb _ _ _ && inb _ _ _ && inb _ _ _); auto. cbn [snd]. rewrite slen_nil. lia.
  - destruct p as [|c2 p]; cbn [app].
    + destruct q as [|d2 [|d3 q]]; auto.
      destruct (inb _ _ _ && inb _ _ _ && inb _ _ _); auto.
      cbn [snd]. rewrite slen_cons, slen_nil. lia.
    + destruct p as [|c3 p]; cbn [app]; auto.
      destruct q as [|d3 q]; auto.
      destruct (inb _ _ _ && inb _ _ _ && inb _ _ _); auto.
      cbn [snd]. rewrite !slen_cons, slen_nil. lia.
Qed.

(** Cutting a decoded string anywhere cuts the bytes accordingly. *)
Lemma decode_split l1 : forall s l2, decode s = l1 ++ l2 ->
  exists p q, s = p ++ q /\ decode p = l1 /\ decode q = l2 /\ slen p = nb l1.
Proof.
  induction l1 as [|x l1 IH]; intros s l2 H.
  - exists [], s. repeat split; auto.
  - assert (Hs : s <> []) by (intros ->; discriminate).
    rename s into s0.
    rewrite decode_cons in H by auto. cbn [app] in H. pose proof (f_equal (hd x) H) as Hx. pose proof (f_equal (@tl _) H) as Hl. cbn [hd tl] in Hx, Hl. clear H.
    destruct (IH _ _ Hl) as (p & q & E & Hp & Hq & Hn).
    pose proof (DecodeRune_size s0 Hs) as [S1 S2].
    set (n := snd (DecodeRune s0)) in *.
    exists (take n s0 ++ p), q.
    assert (Es : s0 = (take n s0 ++ p) ++ q).
    { rewrite <- app_assoc, <- E, take_drop. reflexivity. }
    assert (Ln : slen (take n s0) = n) by (apply slen_take; lia).
    assert (Hne : take n s0 ++ p <> []).
    { intros K. apply app_eq_nil in K. destruct K as [K _]. rewrite K, slen_nil in Ln. lia. }
    assert (DR : DecodeRune (take n s0 ++ p) = DecodeRune s0).
    { rewrite Es at 2. apply DecodeRune_prefix; auto. rewrite <- Es.
      rewrite slen_app. pose proof (slen_nonneg p). fold n. lia. }
    repeat split; auto.
    + rewrite decode_cons by auto. rewrite DR. fold n. rewrite Hx. f_equal.
      rewrite <- Ln at 1. rewrite drop_app_exact. auto.
    + rewrite slen_app, Ln, nb_cons, <- Hx, Hn. reflexivity.
Qed.

(** ** Concatenation *)

Definition noncont (b : str) : Prop :=
  match b with [] => True | c :: _ => bv c < 0x80 \/ 0xC0 <= bv c end.

Lemma second_range b0 x : inb (second_lo b0) (second_hi b0) x = true -> 0x80 <= x <= 0xBF.
Proof.
  unfold inb, second_lo, second_hi. intros H.
  destruct (b0 =? 0xE0), (b0 =? 0xF0), (b0 =? 0xED), (b0 =? 0xF4); lia.
Qed.

Lemma DecodeRune_app a b : a <> [] -> noncont b -> DecodeRune (a ++ b) = DecodeRune a.
Proof.
  intros Ha Hb. destruct a as [|c0 a]; [congruence|].
  destruct b as [|d b]; [rewrite app_nil_r; auto|]. cbn [noncont] in Hb.
  assert (N1 : inb 128 191 (bv d) = false) by (unfold inb; lia).
  assert (N2 : forall x, inb (second_lo x) (second_hi x) (bv d) = false).
  { intros x. destruct (inb (second_lo x) (second_hi x) (bv d)) eqn:E; auto. apply second_range in E. lia. }
  unfold DecodeRune. cbn [app].
  destruct (bv c0 <? 128); auto.
  destruct (inb 194 223 (bv c0)).
  { destruct a as [|c1 a]; cbn [app]; auto. rewrite N1. auto. }
  destruct (inb 224 239 (bv c0)).
  { destruct a as [|c1 [|c2 a]]; cbn [app]; auto.
    - rewrite N2. destruct b; auto.
    - rewrite N1, andb_false_r. auto. }
  destruct (inb 240 244 (bv c0)); auto.
  destruct a as [|c1 [|c2 [|c3 a]]]; cbn [app]; auto.
  - rewrite N2. destruct b as [|? [|? ?]]; auto.
  - rewrite N1, andb_false_r. destruct b; auto.
  - rewrite N1, andb_false_r. auto.
Qed.

Lemma decode_app (a b : str) : noncont b -> decode (a ++ b) = decode a ++ decode b.
Proof.
  intros Hb. induction a as [|a Ha IH] using decode_ind; [reflexivity|].
  rewrite (decode_cons a) by auto. cbn [app].
  rewrite decode_cons by (intros K; apply app_eq_nil in K; tauto).
  rewrite DecodeRune_app by auto. f_equal. rewrite <- IH. f_equal.
  pose proof (DecodeRune_size a Ha) as [H1 H2].
  set (n := snd (DecodeRune a)) in *. unfold drop. rewrite skipn_app.
  replace (Z.to_nat n - length a)%nat with 0%nat by (unfold slen in H2; lia).
  reflexivity.
Qed.

Lemma decode_ascii c s : bv c < 0x80 -> decode (c :: s) = (bv c, 1) :: decode s.
Proof.
  intros H. rewrite decode_cons by congruence.
  assert (E : DecodeRune (c :: s) = (bv c, 1)).
  { unfold DecodeRune. destruct (Z.ltb_spec (bv c) 0x80); [auto|lia]. }
  rewrite E. reflexivity.
Qed.

Lemma noncont_ascii c s : bv c < 0x80 -> noncont (c :: s).
Proof. simpl. auto. Qed.

(** After an ASCII byte decoding is synchronised, whatever follows. *)
Lemma decode_app_ascii a c b : bv c < 0x80 ->
  decode (a ++ c :: b) = decode a ++ (bv c, 1) :: decode b.
Proof.
  intros H. rewrite decode_app by (apply noncont_ascii; auto). rewrite decode_ascii; auto.
Qed.

Definition ascii_str (s : str) : Prop := Forall (fun b => bv b < 0x80) s.

Lemma decode_ascii_str s : ascii_str s -> decode s = map (fun b => (bv b, 1)) s.
Proof.
  induction 1 as [|c s Hc Hs IH]; [reflexivity|]. rewrite decode_ascii by auto. simpl. congruence.
Qed.

Lemma decode_ascii_app s b : ascii_str s -> decode (s ++ b) = decode s ++ decode b.
Proof.
  induction 1 as [|c s Hc Hs IH]; [reflexivity|]. cbn [app].
  rewrite !decode_ascii by auto. cbn [app]. congruence.
Qed.

Lemma spaces_ascii n : ascii_str (spaces n).
Proof. unfold spaces, ascii_str. apply Forall_forall. intros x Hx. apply repeat_spec in Hx.
  subst. vm_compute. reflexivity. Qed.

Lemma noncont_ascii_str s : ascii_str s -> noncont s.
Proof. intros H. destruct H; simpl; auto. Qed.
