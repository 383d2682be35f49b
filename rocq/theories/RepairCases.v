(** * RepairCases: by example. *)
From Coq Require Import Strings.String.
From Coq Require Import ZifyBool ZifyNat.
From Verif Require Import GoBase Utf8 Utf8Spec Utf8Proofs Utf8Theory Uniseg GraphemeSpec SegmentSpec SegmentTheory TextSpec Runewidth ConditionSpec Width AlignSpec Table TableContract TableExamples
  Merge MergeSpec MergeExamples TemplateSpec TemplateProofs RepairSpec RepairProofs MarkCases.
Local Open Scope Z_scope.

Lemma repaired_clusters s s' gs gs' : Repaired s s' -> Visits (NewGraphemes s) gs -> Visits (NewGraphemes s') gs' -> map Runes gs' = map Runes gs.
Proof. intros HR V V'. apply repaired_runes in HR. rewrite (Visits_new _ _ V), (Visits_new _ _ V'), (proj1 HR). reflexivity. Qed.

Lemma kept_ascii s s' : ascii_str s -> forall t t', s' = s -> Repaired t t' -> Repaired (s ++ t) (s' ++ t').
Proof.
  intros HA t t' -> HR. induction HA as [|b s Hb HA IH]; [exact HR|]. change (Repaired ([b] ++ (s ++ t)) ([b] ++ (s ++ t'))). apply rp_kept with (bv b); [constructor; exact Hb|exact IH].
Qed.
(** "caf" and a lone byte E9, as in Latin-1. *)
Definition cafe : str := lit "caf"%string ++ [xe9].
Lemma not_encoded b s : DecodeRune (b :: s) = (RuneError, 1) -> forall r e rest, b :: s = e ++ rest -> ~ Encodes r e.
Proof.
  intros D r e rest E HE. assert (K : DecodeRune (b :: s) = (r, slen e)) by (rewrite E; apply decode_encodes, HE). rewrite D in K. injection K as <- K. rewrite (encodes_error e HE) in K. discriminate.
Qed.
Lemma cafe_repaired : Repaired cafe (lit "caf"%string ++ replacement).
Proof.
  apply kept_ascii; [repeat constructor|reflexivity|]. change replacement with (replacement ++ []). apply rp_replaced; [|constructor]. apply not_encoded. vm_compute. reflexivity.
Qed.
(** The first two of three bytes of a character. *)
Lemma cut_repaired : Repaired [xe6; x97] (replacement ++ replacement) /\ StringWidth exC [xe6; x97] = 2 /\ StringWidth exC [xe6; x97; xa5] = 2 /\ StringWidth exC replacement = 1.
Proof.
  split; [|vm_compute; auto]. apply rp_replaced; [apply not_encoded; vm_compute; reflexivity|]. change replacement with (replacement ++ []).
  apply rp_replaced; [apply not_encoded; vm_compute; reflexivity|constructor].
Qed.
Definition cRows : list (list str) := [[cafe; lit "12"%string]; [lit "x"%string; lit "3"%string]].
Definition cRows' : list (list str) := [[lit "caf"%string ++ replacement; lit "12"%string]; [lit "x"%string; lit "3"%string]].
Lemma self_repaired s : ascii_str s -> Repaired s s.
Proof. intros HA. rewrite <- (app_nil_r s). apply kept_ascii; [exact HA|reflexivity|constructor]. Qed.
Lemma repaired_example : RepairedItems (listOf cRows) (listOf cRows')
  /\ Forall (fun mc => match mc with Some col => BuiltIn exC col | None => True end) (Columns (tSpec mTable))
  /\ written (merge H 40 exC mTable (fun _ => true) (listOf cRows) 80 mSep true) = [cafe ++ lit " 12 |x 3 |"%string ++ [x0a]]
  /\ written (merge H 40 exC mTable (fun _ => true) (listOf cRows') 80 mSep true) = [(lit "caf"%string ++ replacement) ++ lit " 12 |x 3 |"%string ++ [x0a]].
Proof.
  split; [|split; [apply merged_example|vm_compute; auto]]. split; [reflexivity|]. intros i. unfold listOf, fiGet, at_index. destruct (i <? 0); [reflexivity|].
  destruct (Z.to_nat i) as [|[|n]]; cbn [nth_error cRows cRows'].
  - repeat (constructor; [first [exact cafe_repaired|apply self_repaired; repeat constructor]|]). constructor.
  - repeat (constructor; [apply self_repaired; repeat constructor|]). constructor.
  - destruct n; reflexivity.
Qed.
(** One replacement for several bytes is not the same. *)
Lemma run_refuted : exists c s, Reachable c /\ (forall r e rest, s = e ++ rest -> ~ Encodes r e) /\ vwidth c (s ++ lit "x"%string) <> vwidth c (replacement ++ lit "x"%string).
Proof.
  exists exC, [xe6; x97]. split; [apply r_fresh|]. split; [apply not_encoded; vm_compute; reflexivity|]. vm_compute. discriminate.
Qed.
(** In East Asian mode a stray byte takes two cells. *)
Lemma stray_wide : Reachable (plainCondition true true) /\ vwidth (plainCondition true true) cafe = 5 /\ vwidth exC cafe = 4.
Proof. split; [apply r_fresh|]. vm_compute. auto. Qed.
