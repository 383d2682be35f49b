(** * MergeLeast: how wide a screen must be for a number of lines. *)
From Verif Require Import GoBase Runewidth Width AlignSpec Table Merge TableContract MergeSpec MergeLayout MergeTheory MergePlan MergeGroups.
From Coq Require Import ZifyBool ZifyNat.
Local Open Scope Z_scope.

Section Types.
Context {Item Val E : Type}.

Theorem least_width c (t : Table Item Val E) cols items rows : Printable t cols items rows -> rows <> [] ->
  forall m fuel sep maxWidth L, 0 < reckoned t cols sep < 65536 -> 0 <= maxWidth -> maxWidth + slen sep < 65536 -> 1 <= L ->
  (slen (written (merge m fuel c t (fun _ => true) items maxWidth sep false)) <= L <->
   slen rows <= L \/ exists g, slen rows <= L * g /\ g * reckoned t cols sep <= maxWidth + slen sep).
Proof.
  intros HP Hne m fuel sep maxWidth L Hr Hm Hs HL.
  destruct (plain_groups _ _ _ c t cols items rows HP m fuel sep maxWidth Hr Hm Hs) as (g & lines & HLay & Hg & -> & H1 & H2).
  assert (HN : (1 <= length rows)%nat) by (destruct rows; [congruence|cbn; lia]).
  assert (EL : slen (printed c cols sep (fun _ => recorded t cols) g lines) = Z.of_nat (lineCount (length rows) g)).
  { unfold printed, slen. rewrite map_length. f_equal. rewrite (layout_unique m g rows lines (layout_lines m g rows)); auto using layout_ok, layout_len. }
  rewrite EL. pose proof (lineCount_spec (length rows) g Hg HN) as HC. unfold slen. split.
  - intros HK. destruct H1 as [-> | H1]; [left; lia|]. right. exists (Z.of_nat g). split; [nia|exact H1].
  - intros [K|(g' & K1 & K2)].
    + assert (lineCount (length rows) g <= length rows)%nat; [|lia].
      pose proof (lineCount_mono (length rows) 1 g ltac:(lia) Hg HN) as M.
      pose proof (lineCount_spec (length rows) 1 ltac:(lia) HN). lia.
    + assert (G : 0 < g') by nia.
      destruct (le_lt_dec (Z.to_nat g') g) as [Q|Q].
      * pose proof (lineCount_mono (length rows) (Z.to_nat g') g ltac:(lia) Q HN) as M.
        pose proof (lineCount_spec (length rows) (Z.to_nat g') ltac:(lia) HN) as S.
        pose proof (lineCount_pos (length rows) (Z.to_nat g') HN) as P. destruct S as [S _]. apply Nat2Z.inj_lt in S.
        rewrite Nat2Z.inj_mul, Nat2Z.inj_sub, Z2Nat.id in S by lia.
        destruct (Z.le_gt_cases (Z.of_nat (lineCount (length rows) g)) L) as [|X]; [assumption|]. exfalso.
        pose proof (Z.mul_le_mono_nonneg_r L (Z.of_nat (lineCount (length rows) (Z.to_nat g')) - 1) g') as Y. lia.
      * exfalso. specialize (H2 (Z.to_nat g') Q). rewrite Z2Nat.id in H2 by lia. unfold slen in *. lia.
Qed.
End Types.
