(** * MethodsProofs: what the visual width is a sum of. *)
From Coq Require Import Strings.String.
From Verif Require Import GoBase Utf8 Utf8Spec Utf8Proofs GraphemeSpec Runewidth ConditionSpec RunewidthProofs Regex EscapeSpec RegexProofs Width
  TextSpec ScanProofs WidthProofs WidthTheory LawsProofs LawsTheory StringWidthProofs VisualLawsSpec VisualLawsProofs MethodsSpec.
From Coq Require Import ZifyBool ZifyNat.
Local Open Scope Z_scope.

(** ** Taking apart *)
Lemma escape_ne (m : text) : Escape (text_runes m) -> m <> [].
Proof. intros HE ->. inversion HE. Qed.

Lemma apart_exists n : forall s, (List.length s < n)%nat -> exists ps es, Apart s ps es.
Proof.
  induction n as [|n IH]; intros s Hn; [lia|].
  destruct (FindStringIndex ansiEscapeRE s) as [(i, j)|] eqn:E.
  - destruct (FindStringIndex_some _ _ _ E) as (pre & m & rest & Ed & HF & _ & _).
    destruct (decode_split _ _ _ Ed) as (a & q & -> & Ha & Hq & _).
    destruct (decode_split _ _ _ Hq) as (e & b & -> & He & Hb & _). subst pre m rest.
    destruct (IH b) as (ps & es & HA).
    { rewrite !app_length in Hn. assert (e <> []); [|destruct e; [congruence|cbn in Hn; lia]].
      intros ->. exact (escape_ne _ (proj1 HF) eq_refl). }
    exists (a :: ps), (e :: es). constructor; auto.
  - exists [s], []. constructor. apply FindStringIndex_none, E.
Qed.

Lemma decode_length_inj a b : decode a = decode b -> List.length a = List.length b.
Proof. intros E. pose proof (decode_bytes a). pose proof (decode_bytes b). rewrite E in *. unfold slen in *. lia. Qed.

Lemma apart_unique s ps es : Apart s ps es -> forall ps' es', Apart s ps' es' -> ps' = ps /\ es' = es.
Proof.
  induction 1 as [s Hno|a e b ps es Hd HF HA IH]; intros ps' es' H'.
  - inversion H' as [|a e b ps es Hd HF HA]; subst; [auto|]. destruct (Hno _ _ _ Hd). apply HF.
  - remember (a ++ e ++ b) as s eqn:Es. destruct H' as [s Hno|a' e' b' ps' es' Hd' HF' HA'].
    + subst s. destruct (Hno _ _ _ Hd). apply HF.
    + rewrite Es in Hd'. destruct (FirstEscape_unique (decode a') (decode e') (decode b') (decode a) (decode e) (decode b)) as (Ea & Ee & Eb); auto.
      { rewrite <- Hd, <- Hd', Es. reflexivity. }
      destruct (app_length_inv _ _ _ _ Es (decode_length_inj _ _ Ea)) as [-> Es'].
      destruct (app_length_inv _ _ _ _ Es' (decode_length_inj _ _ Ee)) as [-> ->].
      destruct (IH _ _ HA') as [-> ->]. auto.
Qed.

Lemma apart_all s : exists ps es, Apart s ps es /\ forall ps' es', Apart s ps' es' -> ps' = ps /\ es' = es.
Proof. destruct (apart_exists (S (List.length s)) s ltac:(lia)) as (ps & es & HA). exists ps, es. split; [exact HA|]. apply apart_unique, HA. Qed.

Lemma apart_scan s ps es : Apart s ps es -> Scan (decode s) (map decode es).
Proof.
  induction 1 as [s Hno|a e b ps es Hd HF HA IH]; [constructor; exact Hno|]. cbn [map]. rewrite Hd. constructor; auto.
Qed.

Lemma apart_count s ps es : Apart s ps es -> countMatchesLength ansiEscapeRE s = zsum (map (fun e => slen e - 1) es).
Proof.
  intros HA. rewrite (count_eq s _ (apart_scan s ps es HA)). unfold escape_cells. rewrite map_map. f_equal.
  apply map_ext. intros e. rewrite text_bytes_nb, decode_bytes. reflexivity.
Qed.

(** ** What is measured *)
Lemma tail_alike c x l : Reachable c -> TailChar x -> swidth c (x :: l) = swidth c (0x61 :: l).
Proof.
  intros Hc Hx. apply TailChar_range in Hx. rewrite !swidth_run by (apply Reachable_OK; auto). cbn [run].
  rewrite (class_printable x), (class_printable 0x61) by lia. unfold vstep.
  rewrite (width_printable c x), (width_printable c 0x61) by (auto; lia). reflexivity.
Qed.

Lemma behind_swidth c p : behind c p = swidth c (0x61 :: runes p) - 1.
Proof. unfold behind. rewrite StringWidth_swidth. reflexivity. Qed.

Lemma escape_c1 e : Escape (runes e) -> c1_count (runes e) = c1_introduced [e].
Proof.
  intros HE. destruct (Escape_shape _ HE) as (i & t & E & Hi & Ht & _). unfold c1_introduced. cbn [filter]. rewrite E.
  unfold c1_count. cbn [filter]. rewrite (filter_none (fun r => r =? 0x9B) t).
  - destruct (i =? 0x9B); reflexivity.
  - intros x Hx. rewrite Forall_forall in Ht. apply Ht, TailChar_range in Hx. lia.
Qed.

Lemma c1_introduced_cons e es : c1_introduced (e :: es) = c1_introduced [e] + c1_introduced es.
Proof. unfold c1_introduced. rewrite (filter_app _ [e] es : filter _ (e :: es) = _), slen_app. reflexivity. Qed.

Lemma apart_sum c s ps es : Reachable c -> Apart s ps es -> exists p qs, ps = p :: qs
  /\ forall L, swidth c (L ++ runes s) - countMatchesLength ansiEscapeRE s
     = swidth c (L ++ runes p) + zsum (map (behind c) qs) - c1_introduced es.
Proof.
  intros Hc HA. rewrite (apart_count s ps es HA). induction HA as [s Hno|a e b ps es Hd HF HA IH].
  - exists s, []. split; [reflexivity|]. intros L. unfold c1_introduced. cbn. lia.
  - destruct IH as (p & qs & -> & IH). exists a, (p :: qs). split; [reflexivity|]. intros L.
    assert (HE : Escape (runes e)) by apply HF.
    destruct (swidth_escape c (L ++ runes a) (runes e) (runes b) Hc HE) as (x & Hx & EW & _).
    assert (ER : L ++ runes (a ++ e ++ b) = (L ++ runes a) ++ runes e ++ runes b).
    { unfold runes. rewrite Hd, !map_app, <- !app_assoc. reflexivity. }
    rewrite ER, EW, (tail_alike c x _ Hc Hx). cbn [map]. rewrite !zsum_cons, c1_introduced_cons, behind_swidth.
    pose proof (IH [0x61]) as K. cbn [app] in K.
    pose proof (escape_bytes (a ++ e ++ b) (decode a) (decode e) (decode b) Hd HE) as KB.
    rewrite decode_bytes in KB. change (map fst (decode e)) with (runes e) in KB. rewrite (escape_c1 e HE) in KB.
    assert (slen (decode e) = slen (runes e)) by (unfold slen, runes; rewrite map_length; reflexivity).
    lia.
Qed.

Lemma measured_sum c s p ps es : Reachable c -> Apart s (p :: ps) es ->
  rawWidth c s = StringWidth c p + zsum (map (behind c) ps) - c1_introduced es.
Proof.
  intros Hc HA. destruct (apart_sum c s _ es Hc HA) as (p' & qs & E & K). injection E as <- <-. specialize (K []).
  cbn [app] in K. unfold rawWidth. rewrite !StringWidth_swidth. exact K.
Qed.

Lemma behind_apart c p : Reachable c -> ~ JoinsPrevious p -> behind c p = StringWidth c p.
Proof.
  intros Hc Hp. rewrite behind_swidth, StringWidth_swidth. destruct (runes p) as [|r l] eqn:E.
  - rewrite swidth_single by (apply Reachable_OK; auto). rewrite width_printable by (auto; lia). reflexivity.
  - destruct (not_joins_prev p r l Hp E) as (K1 & K2 & K3). change (0x61 :: r :: l) with ([0x61] ++ r :: l).
    rewrite swidth_app.
    + rewrite swidth_single by (apply Reachable_OK; auto). rewrite width_printable by (auto; lia). lia.
    + cbn [map rev app]. rewrite class_printable by lia. apply breaks_after_other; auto.
Qed.

Lemma whole_sum c s p ps es : Reachable c -> Apart s (p :: ps) es -> Forall (fun q => ~ JoinsPrevious q) ps ->
  rawWidth c s = zsum (map (StringWidth c) (p :: ps)) - c1_introduced es.
Proof.
  intros Hc HA HF. rewrite (measured_sum c s p ps es Hc HA). cbn [map]. rewrite zsum_cons. do 3 f_equal.
  apply map_ext_in. intros q Hq. rewrite Forall_forall in HF. apply behind_apart; auto.
Qed.

(** ** The sequences removed *)
Lemma starts_concat ps : Forall StartsRune ps -> StartsRune (List.concat ps).
Proof.
  induction 1 as [|p ps Hp _ IH]; [exact Logic.I|]. cbn [List.concat]. destruct p as [|b p]; [exact IH|exact Hp].
Qed.

Lemma concat_le c p ps : Reachable c -> Forall StartsRune ps ->
  StringWidth c (List.concat (p :: ps)) <= zsum (map (StringWidth c) (p :: ps)).
Proof.
  intros Hc HF. revert p. induction HF as [|q ps Hq HF IH]; intros p.
  - cbn [List.concat map]. rewrite app_nil_r. unfold zsum. cbn. lia.
  - change (List.concat (p :: q :: ps)) with (p ++ List.concat (q :: ps)). cbn [map]. rewrite zsum_cons.
    specialize (IH q). assert (HS : StartsRune (List.concat (q :: ps))) by (apply starts_concat; constructor; auto).
    rewrite StringWidth_swidth, (runes_app p _ HS).
    pose proof (swidth_subadd c (runes p) (runes (List.concat (q :: ps))) Hc) as K.
    rewrite <- !StringWidth_swidth in K. rewrite StringWidth_swidth in IH. cbn [map] in IH. rewrite zsum_cons in IH.
    rewrite <- !StringWidth_swidth in *. cbn [map]. rewrite ?zsum_cons. lia.
Qed.

Lemma removed_le c s p ps es : Reachable c -> Apart s (p :: ps) es -> Forall (fun q => ~ JoinsPrevious q) ps ->
  Forall StartsRune ps -> c1_introduced es = 0 -> StringWidth c (List.concat (p :: ps)) <= rawWidth c s.
Proof.
  intros Hc HA HF HS H1. rewrite (whole_sum c s p ps es Hc HA HF), H1. pose proof (concat_le c p ps Hc HS). lia.
Qed.

Lemma concat_eq c rest : Forall StartsRune rest -> forall done, done <> [] -> SeamsBreak (done ++ rest) ->
  StringWidth c (List.concat (done ++ rest)) = StringWidth c (List.concat done) + zsum (map (StringWidth c) rest).
Proof.
  induction 1 as [|q rest Hq HF IH]; intros done Hd HB.
  - rewrite app_nil_r. unfold zsum. cbn. lia.
  - replace (done ++ q :: rest) with ((done ++ [q]) ++ rest) in * by (rewrite <- app_assoc; reflexivity).
    rewrite (IH (done ++ [q])); auto; [|destruct done; discriminate].
    rewrite concat_app. cbn [List.concat map]. rewrite app_nil_r, zsum_cons. rewrite StringWidth_app.
    + lia.
    + apply decode_app, Hq.
    + intros r l E. apply (HB done q rest r l); auto. rewrite <- app_assoc. reflexivity.
Qed.

Lemma removed_eq c s p ps es : Reachable c -> Apart s (p :: ps) es -> Forall (fun q => ~ JoinsPrevious q) ps ->
  Forall StartsRune ps -> c1_introduced es = 0 -> SeamsBreak (p :: ps) -> StringWidth c (List.concat (p :: ps)) = rawWidth c s.
Proof.
  intros Hc HA HF HS H1 HB. rewrite (whole_sum c s p ps es Hc HA HF), H1.
  pose proof (concat_eq c ps HS [p] ltac:(discriminate) HB) as K. cbn [app] in K. rewrite K. cbn [List.concat map].
  rewrite app_nil_r, zsum_cons. lia.
Qed.

Lemma with_sequences c s ps es : Apart s ps es -> StringWidth c s = rawWidth c s + zsum (map (fun e => slen e - 1) es).
Proof. intros HA. unfold rawWidth. rewrite (apart_count s ps es HA). lia. Qed.

(** ** Counting bytes *)
Lemma apart_bytes s ps es : Apart s ps es -> slen s = zsum (map slen ps) + zsum (map slen es).
Proof.
  induction 1 as [s Hno|a e b ps es Hd HF HA IH]; [unfold zsum; cbn; lia|]. rewrite !slen_app. cbn [map]. rewrite !zsum_cons. lia.
Qed.

Lemma pred_sum (es : list str) : zsum (map (fun e => slen e - 1) es) = zsum (map slen es) - slen es.
Proof. induction es as [|e es IH]; [reflexivity|]. cbn [map]. rewrite !zsum_cons, slen_cons. lia. Qed.

Lemma printable_not_joins p : Forall (fun b => 0x20 <= bv b <= 0x7E) p -> ~ JoinsPrevious p.
Proof.
  intros HF (r & post & E & K). rewrite printable_runes in E by auto. destruct p as [|b p]; [discriminate|].
  injection E as <- _. inversion HF; subst. rewrite class_printable in K by auto. intuition discriminate.
Qed.

Lemma bytes_counted c s p ps es : Reachable c -> Apart s (p :: ps) es ->
  Forall (Forall (fun b => 0x20 <= bv b <= 0x7E)) (p :: ps) ->
  slen s - countMatchesLength ansiEscapeRE s = rawWidth c s + c1_introduced es + slen es.
Proof.
  intros Hc HA HF. rewrite (whole_sum c s p ps es Hc HA).
  - rewrite (apart_count _ _ _ HA), (apart_bytes _ _ _ HA), pred_sum.
    assert (E : map (StringWidth c) (p :: ps) = map slen (p :: ps)).
    { apply map_ext_in. intros q Hq. rewrite Forall_forall in HF. specialize (HF q Hq).
      pose proof (rawWidth_printable c q Hc HF) as K. unfold rawWidth in K. rewrite count_no_intro in K; [lia|].
      rewrite printable_runes by auto. rewrite Forall_map. eapply Forall_impl; [|exact HF]. cbn. intros b Hb [K1|K1]; lia. }
    rewrite E. lia.
  - apply Forall_inv_tail in HF. eapply Forall_impl; [|exact HF]. intros q. apply printable_not_joins.
Qed.
