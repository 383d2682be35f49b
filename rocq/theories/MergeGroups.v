(** * MergeGroups: how many groups plain merging prints. *)
From Verif Require Import GoBase Utf8 Runewidth ConditionSpec Width TextSpec AlignSpec Table TableContract
  Merge MergeSpec MergeLayout MergeRender MergeSearch MergeTheory MergeWidths MergePlan MergePrinted MergeExamples.
Local Open Scope Z_scope.

Lemma plain_groups (Item Val E : Type) c (t : Table Item Val E) cols items rows :
  Printable t cols items rows -> forall m fuel sep maxWidth,
  0 < reckoned t cols sep < 65536 -> 0 <= maxWidth -> maxWidth + slen sep < 65536 ->
  exists g lines, Layout m g rows lines /\ (1 <= g)%nat
    /\ written (merge m fuel c t (fun _ => true) items maxWidth sep false) = printed c cols sep (fun _ => recorded t cols) g lines
    /\ (g = 1%nat \/ Z.of_nat g * reckoned t cols sep <= maxWidth + slen sep)
    /\ forall g', (g < g')%nat -> maxWidth + slen sep < Z.of_nat g' * reckoned t cols sep.
Proof.
  intros Hp m fuel sep maxWidth Hr Hm Hms.
  assert (Hd : reckoned t cols sep mod 65536 <> 0) by (rewrite Z.mod_small; lia).
  assert (Hf : stop (merge m fuel c t (fun _ => true) items maxWidth sep false) = Finished).
  { destruct (merge_stops (c := c) Hp m fuel maxWidth sep false Hd) as [K|[K _]]; [exact K|discriminate]. }
  assert (HP : exists g lines W, Plan c t cols sep maxWidth m rows false g lines W
    /\ written (merge m fuel c t (fun _ => true) items maxWidth sep false) = printed c cols sep W g lines).
  { destruct m; [eapply horizontal_output|eapply vertical_output]; eauto. }
  destruct HP as (g & lines & W & (g0 & Hg0 & -> & HL & HC) & HW).
  exists g0, lines. split; [exact HL|].
  assert (H1 : (1 <= g0)%nat) by (unfold estimate in Hg0; lia).
  split; [exact H1|]. split.
  { destruct HC as [[_ ->]|[K _]]; [exact HW|lia]. }
  split.
  - destruct (Nat.eq_dec g0 1) as [|Hn]; [auto|right]. unfold estimate in Hg0. assert (0 <= slen sep) by (unfold slen; lia).
    assert (He : effective maxWidth = maxWidth).
    { unfold effective. destruct (Z.gtb_spec maxWidth 65535); [lia|]. apply Z.mod_small. lia. }
    rewrite He, !Z.mod_small in Hg0 by lia.
    pose proof (Z.mul_div_le (maxWidth + slen sep) (reckoned t cols sep) ltac:(lia)).
    assert (Z.of_nat g0 = (maxWidth + slen sep) / reckoned t cols sep) as -> by lia. lia.
  - intros g' Hg. apply estimate_most; auto. rewrite <- Hg0. lia.
Qed.
