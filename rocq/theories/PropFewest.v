(** * PropFewest: breaking texts into as few lines as possible (C115). *)
From Verif Require Import GoBase Runewidth ConditionSpec PartsSpec TrimSpec TrimCases FewestSpec FewestProofs FewestCases FewestWidth.
Local Open Scope Z_scope.

(** C115: no way of breaking the text between characters needs fewer lines. *)
Theorem C115_fewest : forall c w s ps qs, Reachable c -> Lines c w s ps -> Broken c w s qs -> (length ps <= length qs)%nat.
Proof. exact fewest. Qed.
Print Assumptions C115_fewest.

(** The lines themselves are such a way, *)
Theorem C115_broken : forall c w s ps, Reachable c -> Lines c w s ps -> Broken c w s ps.
Proof. exact lines_broken. Qed.
Print Assumptions C115_broken.

(** and after any number of lines none has come further. *)
Theorem C115_furthest : forall c w s ps qs n, Reachable c -> Lines c w s ps -> Broken c w s qs -> exists m, concat (firstn n ps) = concat (firstn n qs) ++ m.
Proof. exact furthest. Qed.
Print Assumptions C115_furthest.

Example C115_fewest_example : Lines (plainCondition false true) 3 text [wide ++ [x61]; wide; wide ++ [x62]] /\
  Broken (plainCondition false true) 3 text [wide; [x61] ++ wide; wide; [x62]].
Proof. exact broken_example. Qed.

(** Wider lines are never more. *)
Theorem C115_wider : forall c w w' s ps ps', Reachable c -> w <= w' -> Lines c w s ps -> Lines c w' s ps' -> (length ps' <= length ps)%nat.
Proof. exact wider. Qed.
Print Assumptions C115_wider.

Example C115_wider_example : Lines (plainCondition false true) 3 text [wide ++ [x61]; wide; wide ++ [x62]] /\
  Lines (plainCondition false true) 5 text [wide ++ [x61] ++ wide; wide ++ [x62]].
Proof. exact wider_example. Qed.

(** Parted between characters, both parts together need as many lines as the whole or
    one more, and neither more than the whole. *)
Theorem C115_parts : forall c w s cl1 cl2 ps ps1 ps2, Reachable c -> Clusters s (cl1 ++ cl2) ->
  Lines c w s ps -> Lines c w (concat cl1) ps1 -> Lines c w (concat cl2) ps2 ->
  (length ps <= length ps1 + length ps2 <= S (length ps))%nat /\ (length ps1 <= length ps /\ length ps2 <= length ps)%nat.
Proof. exact two_parts. Qed.
Print Assumptions C115_parts.

Example C115_parts_example : Clusters [x61; x62] ([[x61]] ++ [[x62]]) /\ Lines (plainCondition false true) 3 [x61; x62] [[x61; x62]] /\
  Lines (plainCondition false true) 3 [x61] [[x61]] /\ Lines (plainCondition false true) 3 [x62] [[x62]].
Proof. exact parts_example. Qed.

(** From the width of the text: so many lines are enough, *)
Theorem C115_enough : forall c w s ps, Reachable c -> Lines c w s ps -> forall n, 1 <= n -> StringWidth c s <= n * (w - 1) + 1 -> slen ps <= n.
Proof. exact enough. Qed.
Print Assumptions C115_enough.

(** and the narrowest column for [n] lines is the width by [n], rounded up, or one more. *)
Theorem C115_narrowest : forall c s n, Reachable c -> 1 <= n -> exists w ps, 2 <= w /\ Lines c w s ps /\ slen ps <= n /\
  (forall w' ps', 2 <= w' -> Lines c w' s ps' -> (slen ps' <= n <-> w <= w')) /\
  StringWidth c s <= n * w /\ (w = 2 \/ n * (w - 2) + 2 <= StringWidth c s).
Proof. exact narrowest. Qed.
Print Assumptions C115_narrowest.

Example C115_narrowest_example : Lines (plainCondition false true) 2 (wide ++ wide) [wide; wide] /\ StringWidth (plainCondition false true) (wide ++ wide) = 2 * 2 /\
  Lines (plainCondition false true) 4 (wide ++ wide ++ wide) [wide ++ wide; wide] /\ Lines (plainCondition false true) 3 (wide ++ wide ++ wide) [wide; wide; wide] /\
  StringWidth (plainCondition false true) (wide ++ wide ++ wide) = 2 * (4 - 2) + 2.
Proof. exact narrowest_example. Qed.

(** As many lines as the width of the text asks for are not always enough. *)
Theorem C115_area_refuted : exists c w s ps n, Reachable c /\ Lines c w s ps /\ StringWidth c s <= n * w /\ n < slen ps.
Proof. exact area_refuted. Qed.
Print Assumptions C115_area_refuted.
