(** * TrimCases: texts cut, well and badly. *)
From Coq Require Import Strings.String.
From Coq Require Import ZifyBool ZifyNat.
From Verif Require Import GoBase Utf8 Utf8Spec Utf8Proofs Uniseg GraphemeSpec Runewidth ConditionSpec Width PartsSpec PartsProofs PartsCases EditCases TrimSpec TrimProofs.
Local Open Scope Z_scope.
Notation P := plainCondition.

Definition wide : str := [xe6; x97; xa5].       (* U+65E5, two cells *)
Definition dots : str := [xe2; x80; xa6].       (* U+2026, one cell; two in East Asian mode *)

Lemma trim_by c w s cl1 cl2 : Clusters s (cl1 ++ cl2) -> StringWidth c (List.concat cl1) <= w ->
  match cl2 with [] => True | k :: _ => w < StringWidth c (List.concat cl1) + StringWidth c k end -> Trim c w s (List.concat cl1) (List.concat cl2).
Proof. intros H HW HN. exists cl1, cl2. repeat split; auto. intros k cl ->. exact HN. Qed.

(** Two wide characters in three cells: one of them, and two cells. *)
Lemma trim_example : Trim (P false true) 3 (wide ++ wide) wide wide /\ StringWidth (P false true) wide = 2.
Proof.
  split; [|vm_compute; reflexivity].
  apply (trim_by (P false true) 3 (wide ++ wide) [wide] [wide]); [apply (clusters_by 5); vm_compute; reflexivity|vm_compute; discriminate|vm_compute; reflexivity].
Qed.
(** The mark stays with its letter. *)
Lemma mark_example : Trim (P false true) 1 [x65; xcc; x81; x61] [x65; xcc; x81] [x61].
Proof.
  apply (trim_by (P false true) 1 [x65; xcc; x81; x61] [[x65; xcc; x81]] [[x61]]); [apply (clusters_by 5); vm_compute; reflexivity|vm_compute; discriminate|vm_compute; reflexivity].
Qed.
Lemma sign_example : StartsRune dots /\ Trim (P false true) (3 - StringWidth (P false true) dots) (wide ++ wide) wide wide /\ StringWidth (P false true) (wide ++ dots) = 3.
Proof.
  split; [right; vm_compute; discriminate|]. split; [|vm_compute; reflexivity].
  apply (trim_by (P false true) _ (wide ++ wide) [wide] [wide]); [apply (clusters_by 5); vm_compute; reflexivity|vm_compute; discriminate|vm_compute; reflexivity].
Qed.
Lemma lines_example : Lines (P false true) 3 (wide ++ [x61] ++ wide ++ wide ++ [x62]) [wide ++ [x61]; wide; wide ++ [x62]].
Proof.
  apply ln_more with (q := wide ++ wide ++ [x62]); [discriminate| |apply ln_more with (q := wide ++ [x62]); [discriminate| |apply ln_more with (q := []); [discriminate| |constructor]]].
  - apply (trim_by (P false true) 3 _ [wide; [x61]] [wide; wide; [x62]]); [apply (clusters_by 9); vm_compute; reflexivity|vm_compute; discriminate|vm_compute; reflexivity].
  - apply (trim_by (P false true) 3 _ [wide] [wide; [x62]]); [apply (clusters_by 9); vm_compute; reflexivity|vm_compute; discriminate|vm_compute; reflexivity].
  - apply (trim_by (P false true) 3 _ [wide; [x62]] []); [apply (clusters_by 9); vm_compute; reflexivity|vm_compute; discriminate|exact Logic.I].
Qed.

(** ** Otherwise *)
Lemma bytes_wider : exists c s p q, Reachable c /\ s = p ++ q /\ StringWidth c s < StringWidth c p.
Proof.
  exists (P true true), wide, [xe6; x97], [xa5]. split; [constructor|]. split; reflexivity.
Qed.
Lemma runes_differ : exists c s p q, Reachable c /\ s = p ++ q /\ StartsRune q /\ StringWidth c s < StringWidth c p + StringWidth c q.
Proof.
  exists (P false true), (flagD ++ flagD), flagD, flagD. split; [constructor|]. split; [reflexivity|].
  split; [right; vm_compute; discriminate|vm_compute; reflexivity].
Qed.
(** Room for one cell left for the dots. *)
Lemma dots_wider : exists c w s p q, Reachable c /\ Trim c (w - 1) s p q /\ w < StringWidth c (p ++ dots).
Proof.
  exists (P true true), 2, (lit "abc"%string), (lit "a"%string), (lit "bc"%string). split; [constructor|]. split; [|vm_compute; reflexivity].
  apply (trim_by (P true true) 1 (lit "abc"%string) [[x61]] [[x62]; [x63]]); [apply (clusters_by 5); vm_compute; reflexivity|vm_compute; discriminate|vm_compute; reflexivity].
Qed.
(** A red text that fits is cut inside the sequence. *)
Lemma colours_cut : exists c w s p q, Reachable c /\ Trim c w s p q /\ vwidth c s <= w /\ q <> [].
Proof.
  exists (P false true), 2, (x1b :: lit "[31mab"%string), (x1b :: lit "[3"%string), (lit "1mab"%string).
  split; [constructor|]. split; [|split; [vm_compute; discriminate|discriminate]].
  apply (trim_by (P false true) 2 _ [[x1b]; lit "["%string; lit "3"%string] [lit "1"%string; lit "m"%string; lit "a"%string; lit "b"%string]);
    [apply (clusters_by 9); vm_compute; reflexivity|vm_compute; discriminate|vm_compute; reflexivity].
Qed.
(** In one column there is no line for a wide character. *)
Lemma narrow_lines : forall ps, ~ Lines (P false true) 1 wide ps.
Proof.
  assert (Hc : Reachable (P false true)) by constructor.
  intros ps H. remember wide as s eqn:Es. induction H as [|s p q ps Hs HT HL IH]; [discriminate|]. subst s. apply IH.
  assert (K : Trim (P false true) 1 wide [] wide).
  { apply (trim_by (P false true) 1 wide [] [wide]); [apply (clusters_by 5); vm_compute; reflexivity|vm_compute; discriminate|vm_compute; reflexivity]. }
  apply (trim_unique _ _ _ _ _ _ _ Hc HT K).
Qed.
