(** * FewestWidth: the narrowest column for a number of lines. *)
From Coq Require Import ZifyBool ZifyNat.
From Verif Require Import GoBase Runewidth ConditionSpec StringWidthProofs TextSpec LawsTheory LawsProofs PartsSpec PartsCases TrimSpec TrimProofs TrimCases FewestSpec FewestProofs FewestCases.
Local Open Scope Z_scope.

Lemma enough c w s ps : Reachable c -> Lines c w s ps -> forall n, 1 <= n -> StringWidth c s <= n * (w - 1) + 1 -> slen ps <= n.
Proof.
  intros Hc. induction 1 as [|s p q ps Hs HT HL IH]; intros n Hn HW; [cbn; lia|].
  destruct (trim_facts _ _ _ _ _ Hc HT) as (E & L & W & Q & F). unfold slen in *. cbn [length].
  destruct q as [|b q].
  - inversion HL; subst; [cbn; lia|congruence].
  - specialize (F ltac:(discriminate)). destruct (Z.eq_dec n 1) as [->|N1].
    + assert (K : b :: q = []) by (apply Q; lia). discriminate.
    + assert (n * (w - 1) = (n - 1) * (w - 1) + (w - 1)) by ring. specialize (IH (n - 1) ltac:(lia) ltac:(lia)). lia.
Qed.
Lemma at_most c w s ps n : Reachable c -> 2 <= w -> Lines c w s ps -> slen ps <= n -> 0 <= n -> StringWidth c s <= n * w.
Proof.
  intros Hc Hw H Hn Hn0. destruct s as [|b s].
  - rewrite StringWidth_swidth. cbn. apply Z.mul_nonneg_nonneg; lia.
  - pose proof (lines_number c w (b :: s) ps Hc Hw H ltac:(discriminate)) as [_ K]. unfold slen in Hn. pose proof (Z.mul_le_mono_nonneg_r _ _ w ltac:(lia) Hn). lia.
Qed.

Lemma least_from c s n : Reachable c -> forall k : nat, (forall w ps, 2 <= w < 2 + Z.of_nat k -> Lines c w s ps -> n < slen ps) \/
  exists w ps, 2 <= w /\ Lines c w s ps /\ slen ps <= n /\ forall w' ps', 2 <= w' -> Lines c w' s ps' -> slen ps' <= n -> w <= w'.
Proof.
  intros Hc. induction k as [|k [IH|IH]]; [left; intros w ps Hw; lia| |right; exact IH].
  destruct (lines_exist c (2 + Z.of_nat k) s Hc ltac:(lia)) as (ps & H). destruct (Z_le_gt_dec (slen ps) n) as [L|L].
  - right. exists (2 + Z.of_nat k), ps. split; [lia|]. split; [exact H|]. split; [exact L|]. intros w' ps' Hw' H' L'.
    destruct (Z_le_gt_dec (2 + Z.of_nat k) w') as [K|K]; [exact K|]. specialize (IH w' ps' ltac:(lia) H'). lia.
  - left. intros w ps' Hw H'. destruct (Z.eq_dec w (2 + Z.of_nat k)) as [->|N]; [rewrite <- (lines_fun c _ s ps Hc H ps' H'); lia|]. apply (IH w ps'); [lia|exact H'].
Qed.
Lemma narrowest c s n : Reachable c -> 1 <= n -> exists w ps, 2 <= w /\ Lines c w s ps /\ slen ps <= n /\
  (forall w' ps', 2 <= w' -> Lines c w' s ps' -> (slen ps' <= n <-> w <= w')) /\
  StringWidth c s <= n * w /\ (w = 2 \/ n * (w - 2) + 2 <= StringWidth c s).
Proof.
  intros Hc Hn. pose proof (StringWidth_bounds c s Hc) as [B _].
  destruct (least_from c s n Hc (S (Z.to_nat (StringWidth c s)))) as [K|(w & ps & Hw & H & L & M)].
  - exfalso. destruct (lines_exist c (2 + StringWidth c s) s Hc ltac:(lia)) as (ps & H). specialize (K (2 + StringWidth c s) ps ltac:(lia) H).
    assert (slen ps <= 1) by (apply (enough c _ s ps Hc H 1); lia). lia.
  - exists w, ps. split; [exact Hw|]. split; [exact H|]. split; [exact L|]. split; [|split].
    + intros w' ps' Hw' H'. split; [apply M; auto|]. intros Hww. pose proof (wider c w w' s ps ps' Hc Hww H H') as K. unfold slen in *. lia.
    + apply (at_most c w s ps n); auto. lia.
    + destruct (Z.eq_dec w 2) as [->|N]; [left; reflexivity|right]. destruct (lines_exist c (w - 1) s Hc ltac:(lia)) as (ps' & H').
      destruct (Z_le_gt_dec (n * (w - 2) + 2) (StringWidth c s)) as [Q|Q]; [exact Q|]. exfalso.
      assert (slen ps' <= n). { apply (enough c _ s ps' Hc H' n Hn). replace (w - 1 - 1) with (w - 2) by ring. lia. }
      specialize (M (w - 1) ps' ltac:(lia) H' ltac:(lia)). lia.
Qed.
(** Both bounds are reached: two wide characters in two lines, and three. *)
Lemma narrowest_example : Lines (P false true) 2 (wide ++ wide) [wide; wide] /\ StringWidth (P false true) (wide ++ wide) = 2 * 2 /\
  Lines (P false true) 4 (wide ++ wide ++ wide) [wide ++ wide; wide] /\ Lines (P false true) 3 (wide ++ wide ++ wide) [wide; wide; wide] /\
  StringWidth (P false true) (wide ++ wide ++ wide) = 2 * (4 - 2) + 2.
Proof.
  split; [|split; [vm_compute; reflexivity|split; [|split; [|vm_compute; reflexivity]]]].
  - apply ln_more with (q := wide); [discriminate| |apply ln_more with (q := []); [discriminate| |constructor]]; [trimmed 2 [wide] [wide]|trimmed 2 [wide] (@nil str)].
  - apply ln_more with (q := wide); [discriminate| |apply ln_more with (q := []); [discriminate| |constructor]]; [trimmed 4 [wide; wide] [wide]|trimmed 4 [wide] (@nil str)].
  - apply ln_more with (q := wide ++ wide); [discriminate| |apply ln_more with (q := wide); [discriminate| |apply ln_more with (q := []); [discriminate| |constructor]]];
    [trimmed 3 [wide] [wide; wide]|trimmed 3 [wide] [wide]|trimmed 3 [wide] (@nil str)].
Qed.
