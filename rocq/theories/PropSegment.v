(** * PropSegment: grapheme clusters and string widths (C10-C13, C20). *)
From Verif Require Import GoBase Utf8 Uniseg GraphemeSpec SegmentSpec SegmentTheory
  Runewidth ConditionSpec StringWidthSpec StringWidthProofs.
Local Open Scope Z_scope.

(** ** C10: segmentation is lossless *)

Theorem C10_lossless : forall s, exists gs, Visits (NewGraphemes s) gs
  /\ concat (map g_cluster gs) = s
  /\ Forall (fun h => g_cluster h <> []) gs
  /\ (forall gs1 h gs2, gs = gs1 ++ h :: gs2 -> g_offset h = slen (concat (map g_cluster gs1))).
Proof. exact iteration_lossless. Qed.
Print Assumptions C10_lossless.

Theorem C10_deterministic : forall g a, Visits g a -> forall b, Visits g b -> a = b.
Proof. exact Visits_fun. Qed.
Print Assumptions C10_deterministic.

Theorem C10_end_is_final : forall s gs h n, Visits (NewGraphemes s) (gs ++ [h]) ->
  exists g', next_n (S n) h = Some (g', false) /\ Runes g' = [].
Proof. exact iteration_ends. Qed.
Print Assumptions C10_end_is_final.

(** "a" followed by U+0301, then an invalid byte, then "b". *)
Example C10_example : exists gs, iterate 9 (NewGraphemes [x61; xcc; x81; xff; x62]) = Some gs
  /\ map g_cluster gs = [[x61; xcc; x81]; [xff]; [x62]] /\ map g_offset gs = [0; 3; 4].
Proof. eexists. vm_compute. auto. Qed.

(** ** C11: boundaries are exactly those of UAX #29 *)

Theorem C11_uax29 : forall s gs, Visits (NewGraphemes s) gs ->
  IsSegmentation (runes s) (map Runes gs).
Proof. exact iteration_uax29. Qed.
Print Assumptions C11_uax29.

(** Two flags and a family emoji: 3 clusters (regional indicator parity, GB11). *)
Example C11_example : option_map (map Runes) (iterate 60 (NewGraphemes
   [xf0;x9f;x87;xa9; xf0;x9f;x87;xaa; xf0;x9f;x87;xab; xf0;x9f;x87;xb7;
    xf0;x9f;x91;xa9; xe2;x80;x8d; xf0;x9f;x91;xa7]))
  = Some [[0x1F1E9; 0x1F1EA]; [0x1F1EB; 0x1F1F7]; [0x1F469; 0x200D; 0x1F467]].
Proof. vm_compute. reflexivity. Qed.

(** ** C12: boundaries never split a rune *)

Theorem C12_runes : forall s gs, Visits (NewGraphemes s) gs -> concat (map Runes gs) = runes s.
Proof. exact iteration_runes. Qed.
Print Assumptions C12_runes.

Example C12_example : runes [xe3; x81; x82; xe3; x81] = [0x3042; 0xFFFD; 0xFFFD].
Proof. vm_compute. reflexivity. Qed.

(** ** C13: segmentation is restartable *)

Theorem C13_restartable : forall s st, StateFor s st -> StepString s st = StepString s (-1).
Proof. exact restartable. Qed.
Print Assumptions C13_restartable.

Theorem C13_first_cluster : forall s st, s <> [] -> StateFor s st ->
  exists cluster rest b st', StepString s st = Some (cluster, rest, b, st')
    /\ s = cluster ++ rest /\ cluster <> []
    /\ forall cl, IsSegmentation (runes s) cl ->
         exists cl', cl = runes cluster :: cl' /\ IsSegmentation (runes rest) cl'.
Proof. exact StepString_cluster. Qed.
Print Assumptions C13_first_cluster.

Example C13_example : exists b st, StepString [x61; xcc; x81; x62] (-1) = Some ([x61; xcc; x81], [x62], b, st)
  /\ st <> -1.
Proof. eexists _, _. split; vm_compute; [reflexivity|congruence]. Qed.

(** ** C20: StringWidth is the sum of its clusters' widths *)

Theorem C20_sum_of_clusters : forall c s w, Reachable c ->
  (StringWidth c s = w <-> TextWidth (RuneWidth c) (runes s) w).
Proof. exact StringWidth_TextWidth. Qed.
Print Assumptions C20_sum_of_clusters.

Theorem C20_terminates : forall c s, StringWidth_go c s = Some (StringWidth c s).
Proof. intros c s. rewrite StringWidth_swidth. apply StringWidth_go_swidth. Qed.
Print Assumptions C20_terminates.

Theorem C20_bounds : forall c s, Reachable c -> 0 <= StringWidth c s <= 2 * slen (runes s).
Proof. exact StringWidth_bounds. Qed.
Print Assumptions C20_bounds.

Theorem C20_bytes : forall st s, StringWidth (plainCondition false st) s <= slen s.
Proof. exact plain_swidth_bytes. Qed.
Print Assumptions C20_bytes.

(** In East Asian mode a byte can take two cells: an invalid one. *)
Theorem C20_bytes_eastasian_refuted : exists s,
  StringWidth (plainCondition true true) s > slen s.
Proof. exists [xff]. vm_compute. reflexivity. Qed.
Print Assumptions C20_bytes_eastasian_refuted.

Example C20_example : StringWidth (plainCondition false true)
  [x61; xcc; x81; xe3; x81; x82; xf0; x9f; x91; xa9; xe2; x80; x8d; xf0; x9f; x91; xa7] = 5.
Proof. vm_compute. reflexivity. Qed.
