(** * PropMeasureWord: measuring with machine integers (C79). *)
From Coq Require Import Strings.String.
From Verif Require Import GoBase Utf8 Uniseg Runewidth ConditionSpec Regex Width TableExamples MergeWord MeasureWord MeasureWordProofs MeasureWordCases.
Local Open Scope Z_scope.

(** C79: with [int]s of 32 bits or more, the visual width is as reckoned, and
    nothing panics, for every string there can be. *)
Theorem C79_visual : forall half k c s, 31 <= k -> half = 2 ^ k -> Reachable c -> slen s < half ->
  vwidthW half c s = Some (vwidth c s).
Proof. exact visualW. Qed.
Print Assumptions C79_visual.

Example C79_example : Reachable exC /\ slen sample < 2 ^ 31 /\ vwidthW (2 ^ 31) exC sample = Some 5
  /\ StringWidthW (2 ^ 31) exC sample = Some 12 /\ vwidthW (2 ^ 31) exC [xc2; x9b; x6d] = Some 65535
  /\ vwidth exC [xc2; x9b; x6d] = 65535.
Proof. exact sample_example. Qed.

(** StringWidth wraps around at the worst. *)
Theorem C79_string_wraps : forall half c s, 2 ^ 31 <= half -> Reachable c -> slen s < half ->
  StringWidthW half c s = Some (wrap half (StringWidth c s)).
Proof. exact stringW. Qed.
Print Assumptions C79_string_wraps.

(** It does not for texts of less than half the largest length. *)
Theorem C79_string : forall half k c s, 31 <= k -> half = 2 ^ k -> Reachable c -> 2 * slen s < half ->
  StringWidthW half c s = Some (StringWidth c s).
Proof. exact stringW_small. Qed.
Print Assumptions C79_string.

Theorem C79_string_refuted : exists c s, Reachable c /\ slen s = 2 ^ 30 /\ StringWidth c s = 2 ^ 31
  /\ StringWidthW (2 ^ 31) c s = Some (- 2 ^ 31).
Proof. exact overflow. Qed.
Print Assumptions C79_string_refuted.

(** The clusters, their offsets and the states between them are as reckoned;
    the width of a cluster that StepString reports wraps around. *)
Theorem C79_clusters : forall half fuel s, 2 ^ 31 <= half -> slen s < half ->
  iterateW half fuel (NewGraphemes s) = option_map (map (fun g =>
    {| g_original := g_original g; g_remaining := g_remaining g; g_cluster := g_cluster g; g_offset := g_offset g;
       g_boundaries := wrap half (g_boundaries g); g_state := g_state g |})) (iterate fuel (NewGraphemes s)).
Proof. exact iterate_newW. Qed.
Print Assumptions C79_clusters.

(** Widths of runes, and the bytes of escape sequences, never wrap. *)
Theorem C79_rune : forall half c r, 2 ^ 31 <= half -> Reachable c -> RuneWidthW half c r = Some (RuneWidth c r).
Proof. exact runeW. Qed.
Print Assumptions C79_rune.

Theorem C79_sequences : forall half s, 2 ^ 31 <= half -> slen s < half ->
  countMatchesLengthW half ansiEscapeRE s = Some (countMatchesLength ansiEscapeRE s).
Proof. exact countLW. Qed.
Print Assumptions C79_sequences.
