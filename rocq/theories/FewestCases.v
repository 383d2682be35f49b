(** * FewestCases: texts broken into lines. *)
From Coq Require Import ZifyBool ZifyNat.
From Verif Require Import GoBase Utf8 GraphemeSpec Runewidth ConditionSpec PartsSpec PartsCases TrimSpec TrimProofs TrimCases FewestSpec FewestProofs.
Local Open Scope Z_scope.

Ltac trimmed w a b := apply (trim_by (P false true) w _ a b); [apply (clusters_by 9); vm_compute; reflexivity|vm_compute; discriminate|try exact Logic.I; vm_compute; reflexivity].
Definition text : str := wide ++ [x61] ++ wide ++ wide ++ [x62].
Lemma broken_example : Lines (P false true) 3 text [wide ++ [x61]; wide; wide ++ [x62]] /\ Broken (P false true) 3 text [wide; [x61] ++ wide; wide; [x62]].
Proof.
  split; [apply lines_example|]. exists [[wide]; [[x61]; wide]; [wide]; [[x62]]]. split; [apply (clusters_by 9); vm_compute; reflexivity|].
  split; [reflexivity|]. repeat constructor; vm_compute; discriminate.
Qed.
Lemma wider_example : Lines (P false true) 3 text [wide ++ [x61]; wide; wide ++ [x62]] /\ Lines (P false true) 5 text [wide ++ [x61] ++ wide; wide ++ [x62]].
Proof.
  split; [apply lines_example|]. apply ln_more with (q := wide ++ [x62]); [discriminate| |apply ln_more with (q := []); [discriminate| |constructor]].
  - trimmed 5 [wide; [x61]; wide] [wide; [x62]].
  - trimmed 5 [wide; [x62]] (@nil str).
Qed.
Lemma parts_example : Clusters [x61; x62] ([[x61]] ++ [[x62]]) /\ Lines (P false true) 3 [x61; x62] [[x61; x62]] /\ Lines (P false true) 3 [x61] [[x61]] /\ Lines (P false true) 3 [x62] [[x62]].
Proof.
  split; [apply (clusters_by 9); vm_compute; reflexivity|]. split; [|split]; (apply ln_more with (q := []); [discriminate| |constructor]).
  - trimmed 3 [[x61]; [x62]] (@nil str).
  - trimmed 3 [[x61]] (@nil str).
  - trimmed 3 [[x62]] (@nil str).
Qed.

(** Three wide characters have room in two lines of three columns, and need three. *)
Lemma area_refuted : exists c w s ps n, Reachable c /\ Lines c w s ps /\ StringWidth c s <= n * w /\ n < slen ps.
Proof.
  exists (P false true), 3, (wide ++ wide ++ wide), [wide; wide; wide], 2. split; [constructor|]. split; [|split; vm_compute; [discriminate|reflexivity]].
  apply ln_more with (q := wide ++ wide); [discriminate| |apply ln_more with (q := wide); [discriminate| |apply ln_more with (q := []); [discriminate| |constructor]]].
  - trimmed 3 [wide] [wide; wide].
  - trimmed 3 [wide] [wide].
  - trimmed 3 [wide] (@nil str).
Qed.
