(** * Utf8Theory: the decoder against well-formed UTF-8. *)
From Verif Require Import GoBase Utf8 Utf8Spec Utf8Proofs TextSpec Locale LocaleProofs.
From Coq Require Import ZifyBool ZifyNat.
Local Open Scope Z_scope.
Ltac Zify.zify_post_hook ::= Z.div_mod_to_equations.

Ltac ifs := repeat match goal with |- context [if ?b then _ else _] => let K := fresh "K" in destruct b eqn:K; [|] end.

Lemma encodes_scalar r e : Encodes r e -> Scalar r.
Proof. intros HE. destruct HE; auto; unfold Scalar; pose proof bv_range; try (specialize (H0 b)); lia. Qed.

Lemma encodes_len r e : Encodes r e -> e <> [] /\ 1 <= slen e <= 4.
Proof. intros HE. destruct HE; (split; [discriminate|unfold slen; cbn; lia]). Qed.

Lemma decode_encodes r e s : Encodes r e -> DecodeRune (e ++ s) = (r, slen e).
Proof.
  intros HE. destruct HE; unfold slen; cbn [app DecodeRune List.length].
  - replace (bv b <? 0x80) with true by lia. reflexivity.
  - replace (bv b1 <? 0x80) with false by lia. replace (inb 0xC2 0xDF (bv b1)) with true by (unfold inb; lia).
    replace (inb 0x80 0xBF (bv b2)) with true by (unfold inb; lia). f_equal. lia.
  - unfold Scalar in *. replace (bv b1 <? 0x80) with false by lia. replace (inb 0xC2 0xDF (bv b1)) with false by (unfold inb; lia).
    replace (inb 0xE0 0xEF (bv b1)) with true by (unfold inb; lia).
    replace (inb 0x80 0xBF (bv b3)) with true by (unfold inb; lia).
    replace (inb (second_lo (bv b1)) (second_hi (bv b1)) (bv b2)) with true.
    + cbn [andb]. f_equal. lia.
    + unfold inb, second_lo, second_hi. ifs; lia.
  - unfold Scalar in *. replace (bv b1 <? 0x80) with false by lia. replace (inb 0xC2 0xDF (bv b1)) with false by (unfold inb; lia).
    replace (inb 0xE0 0xEF (bv b1)) with false by (unfold inb; lia). replace (inb 0xF0 0xF4 (bv b1)) with true by (unfold inb; lia).
    replace (inb 0x80 0xBF (bv b3)) with true by (unfold inb; lia). replace (inb 0x80 0xBF (bv b4)) with true by (unfold inb; lia).
    replace (inb (second_lo (bv b1)) (second_hi (bv b1)) (bv b2)) with true.
    + cbn [andb]. f_equal. lia.
    + unfold inb, second_lo, second_hi. ifs; lia.
Qed.

Lemma decode_cases s : s <> [] ->
  (exists r e rest, s = e ++ rest /\ Encodes r e /\ DecodeRune s = (r, slen e)) \/ DecodeRune s = (RuneError, 1).
Proof.
  destruct s as [|c0 s1]; [congruence|]. intros _. pose proof (bv_range c0) as R0. unfold DecodeRune.
  destruct (Z.ltb_spec (bv c0) 0x80).
  { left. exists (bv c0), [c0], s1. split; [reflexivity|]. split; [constructor; auto|reflexivity]. }
  destruct (inb 0xC2 0xDF (bv c0)) eqn:B0; unfold inb in B0.
  { destruct s1 as [|c1 s2]; [auto|]. destruct (inb 0x80 0xBF (bv c1)) eqn:B1; [|auto]. unfold inb in B1. left.
    exists ((bv c0 - 0xC0) * 64 + (bv c1 - 0x80)), [c0; c1], s2. split; [reflexivity|]. split; [|reflexivity].
    apply (e2 _ (bv c0 - 0xC0) (bv c1 - 0x80)); lia. }
  destruct (inb 0xE0 0xEF (bv c0)) eqn:B1; unfold inb in B1.
  { destruct s1 as [|c1 [|c2 s3]]; [auto|auto|]. match goal with |- context [if ?b then _ else _] => destruct b eqn:B2; [|auto] end. unfold inb, second_lo, second_hi in B2. left.
    exists ((bv c0 - 0xE0) * 4096 + (bv c1 - 0x80) * 64 + (bv c2 - 0x80)), [c0; c1; c2], s3. split; [reflexivity|]. split; [|reflexivity].
    destruct (Z.eqb_spec (bv c0) 0xE0), (Z.eqb_spec (bv c0) 0xF0), (Z.eqb_spec (bv c0) 0xED), (Z.eqb_spec (bv c0) 0xF4); try lia;
    apply (e3 _ (bv c0 - 0xE0) (bv c1 - 0x80) (bv c2 - 0x80)); unfold Scalar; lia. }
  destruct (inb 0xF0 0xF4 (bv c0)) eqn:B2; unfold inb in B2; [|auto].
  destruct s1 as [|c1 [|c2 [|c3 s4]]]; [auto|auto|auto|]. match goal with |- context [if ?b then _ else _] => destruct b eqn:B3; [|auto] end. unfold inb, second_lo, second_hi in B3. left.
  exists ((bv c0 - 0xF0) * 262144 + (bv c1 - 0x80) * 4096 + (bv c2 - 0x80) * 64 + (bv c3 - 0x80)), [c0; c1; c2; c3], s4.
  split; [reflexivity|]. split; [|reflexivity].
  destruct (Z.eqb_spec (bv c0) 0xE0), (Z.eqb_spec (bv c0) 0xF0), (Z.eqb_spec (bv c0) 0xED), (Z.eqb_spec (bv c0) 0xF4); try lia;
  apply (e4 _ (bv c0 - 0xF0) (bv c1 - 0x80) (bv c2 - 0x80) (bv c3 - 0x80)); unfold Scalar; lia.
Qed.

(** Three bytes at least encode U+FFFD. *)
Lemma encodes_error e : Encodes RuneError e -> slen e = 3.
Proof. intros HE. unfold RuneError in HE. inversion HE as [b Hb E0|b1 b2| |]; subst; try reflexivity; lia. Qed.

Lemma decode_spec s r n : s <> [] ->
  (DecodeRune s = (r, n) <->
   (exists e rest, s = e ++ rest /\ Encodes r e /\ n = slen e)
   \/ (r = RuneError /\ n = 1 /\ forall r' e rest, s = e ++ rest -> ~ Encodes r' e)).
Proof.
  intros Hs. split.
  - intros HD. destruct (decode_cases s Hs) as [(r0 & e & rest & Es & HE & HD')|HD'].
    + rewrite HD in HD'. injection HD' as -> ->. left. eauto.
    + right. rewrite HD in HD'. injection HD' as -> ->. split; [auto|]. split; [auto|]. intros r' e rest -> HE.
      rewrite (decode_encodes r' e rest HE) in HD. injection HD as -> Hl. rewrite (encodes_error e HE) in Hl. discriminate.
  - intros [(e & rest & -> & HE & ->)|(-> & -> & Hn)]; [apply decode_encodes; auto|].
    destruct (decode_cases s Hs) as [(r0 & e & rest & Es & HE & _)|HD']; [|auto]. exfalso. eapply Hn; eauto.
Qed.

Lemma encodes_unique_eq r e : Encodes r e -> forall r' e', Encodes r' e' -> r = r' -> e = e'.
Proof.
  intros H1 r' e' H2 E. destruct H1, H2; pose proof bv_range as R;
  repeat match goal with b : byte |- _ => lazymatch goal with K : 0 <= bv b < 256 |- _ => fail | _ => pose proof (R b) end end; try lia;
  repeat (first [reflexivity | apply Utf8Proofs.bv_inj; lia | f_equal]).
Qed.
Lemma encodes_unique r e e' : Encodes r e -> Encodes r e' -> e = e'.
Proof. intros H1 H2. exact (encodes_unique_eq r e H1 r e' H2 eq_refl). Qed.

Lemma encode_encodes r : Scalar r -> Encodes r (EncodeRune r).
Proof.
  intros HS. unfold EncodeRune, Scalar in *. replace ((r <? 0) || (r >? 0x10FFFF) || inb 0xD800 0xDFFF r) with false by (unfold inb; lia).
  unfold encode_valid. destruct (Z.ltb_spec r 0x80).
  { rewrite <- (bv_zb r) at 1 by lia. constructor. rewrite bv_zb; lia. }
  destruct (Z.ltb_spec r 0x800).
  { apply (e2 _ (r / 64) (r mod 64)); try rewrite bv_zb; lia. }
  destruct (Z.ltb_spec r 0x10000).
  { apply (e3 _ (r / 4096) (r / 64 mod 64) (r mod 64)); try rewrite bv_zb; unfold Scalar; lia. }
  apply (e4 _ (r / 262144) (r / 4096 mod 64) (r / 64 mod 64) (r mod 64)); try rewrite bv_zb; unfold Scalar; lia.
Qed.

Lemma text_decode rs s : EncodesText rs s -> runes s = rs /\ ValidUTF8 s.
Proof.
  intros (es & HF & ->). induction HF as [|r e rs es HE HF [IH1 IH2]].
  - split; [reflexivity|constructor].
  - cbn [concat]. pose proof (encodes_len r e HE) as [Hne HL].
    assert (Hne2 : e ++ concat es <> []) by (intros E0; apply app_eq_nil in E0; tauto).
    assert (ED : decode (e ++ concat es) = (r, slen e) :: decode (concat es)).
    { rewrite (decode_cons _ Hne2), (decode_encodes r e _ HE). cbn [snd]. rewrite drop_app_exact. reflexivity. }
    unfold runes, ValidUTF8. rewrite ED. cbn [map fst]. split; [f_equal; exact IH1|]. constructor; [|exact IH2].
    intros E0. injection E0 as -> Hl. rewrite (encodes_error e HE) in Hl. discriminate.
Qed.

Lemma valid_text s : ValidUTF8 s -> EncodesText (runes s) s.
Proof.
  apply (decode_ind (fun s => ValidUTF8 s -> EncodesText (runes s) s)).
  - intros _. exists []. split; [constructor|reflexivity].
  - clear s. intros s Hs IH HV. unfold ValidUTF8, runes in *. rewrite (decode_cons s Hs) in HV |- *. inversion HV as [|x l Hx Hl]; subst.
    destruct (decode_cases s Hs) as [(r & e & rest & -> & HE & HD)|HD]; [|congruence]. rewrite HD in *. cbn [snd fst map] in *.
    rewrite drop_app_exact in *. destruct (IH Hl) as (es & HF & E0). exists (e :: es). split; [constructor; auto|].
    cbn [concat]. congruence.
Qed.
