(** * PropAlign: properties of the alignments (C01, C02, C03). *)
From Coq Require Import Strings.String.
From Verif Require Import GoBase Utf8 GraphemeSpec Runewidth ConditionSpec Width
  TextSpec AlignSpec Table AlignProofs AlignTheory.
Local Open Scope Z_scope.

(** C01. *)
Theorem C01_left : forall c s w, Reachable c -> 0 <= w < 65536 -> ~ JoinsNext s ->
  vwidth c s < w -> vwidth c (AlignmentLeft c s w) = w.
Proof. exact left_exact. Qed.
Print Assumptions C01_left.

Theorem C01_right : forall c s w, Reachable c -> 0 <= w < 65536 -> ~ JoinsPrevious s ->
  vwidth c s < w -> vwidth c (AlignmentRight c s w) = w.
Proof. exact right_exact. Qed.
Print Assumptions C01_right.

Theorem C01_center : forall c s w, Reachable c -> 0 <= w < 65536 ->
  ~ JoinsPrevious s -> ~ JoinsNext s ->
  vwidth c s < w -> vwidth c (AlignmentCenter c s w) = w.
Proof. exact center_exact. Qed.
Print Assumptions C01_center.

(** Wide (CJK) text and a colour sequence, padded to 9 cells. *)
Example C01_example :
  let s := x1b :: lit "[31m"%string ++ [xe6; xbc; xa2] in
  ~ JoinsPrevious s /\ ~ JoinsNext s
  /\ vwidth (plainCondition false true) s = 2
  /\ vwidth (plainCondition false true) (AlignmentCenter (plainCondition false true) s 9) = 9.
Proof. exact align_example. Qed.

(** U+0600 absorbs the space that follows it. *)
Theorem C01_left_joining_refuted : exists c s w, Reachable c /\ JoinsNext s /\
  vwidth c s < w < 65536 /\ vwidth c (AlignmentLeft c s w) < w.
Proof. exact left_refuted. Qed.
Print Assumptions C01_left_joining_refuted.

(** U+0903 attaches to the space that precedes it. *)
Theorem C01_right_joining_refuted : exists c s w, Reachable c /\ JoinsPrevious s /\
  vwidth c s < w < 65536 /\ vwidth c (AlignmentRight c s w) < w.
Proof. exact right_refuted. Qed.
Print Assumptions C01_right_joining_refuted.

(** C02: for every text, joining or not. *)
Theorem C02_left_adds_spaces : forall c s w, 0 <= w < 65536 ->
  AlignmentLeft c s w = s ++ spaces (Z.max 0 (w - vwidth c s)).
Proof. exact left_spaces. Qed.
Print Assumptions C02_left_adds_spaces.

Theorem C02_right_adds_spaces : forall c s w, 0 <= w < 65536 ->
  AlignmentRight c s w = spaces (Z.max 0 (w - vwidth c s)) ++ s.
Proof. exact right_spaces. Qed.
Print Assumptions C02_right_adds_spaces.

Theorem C02_center_adds_spaces : forall c s w, 0 <= w < 65536 ->
  exists l r, AlignmentCenter c s w = spaces l ++ s ++ spaces r
    /\ 0 <= l /\ 0 <= r /\ l + r = Z.max 0 (w - vwidth c s) /\ (l = r \/ l = r + 1).
Proof. exact center_spaces. Qed.
Print Assumptions C02_center_adds_spaces.

Theorem C02_wide_unchanged : forall c s w, w <= vwidth c s ->
  AlignmentLeft c s w = s /\ AlignmentRight c s w = s /\ AlignmentCenter c s w = s.
Proof. exact wide_unchanged. Qed.
Print Assumptions C02_wide_unchanged.

Example C02_example : AlignmentCenter (plainCondition false true) (lit "ab"%string) 7
  = lit "   ab  "%string.
Proof. vm_compute. reflexivity. Qed.

(** C03. *)
Theorem C03_left_idempotent : forall c s w, Reachable c -> 0 <= w < 65536 -> ~ JoinsNext s ->
  AlignmentLeft c (AlignmentLeft c s w) w = AlignmentLeft c s w.
Proof. exact left_idempotent. Qed.
Print Assumptions C03_left_idempotent.

Theorem C03_right_idempotent : forall c s w, Reachable c -> 0 <= w < 65536 -> ~ JoinsPrevious s ->
  AlignmentRight c (AlignmentRight c s w) w = AlignmentRight c s w.
Proof. exact right_idempotent. Qed.
Print Assumptions C03_right_idempotent.

Theorem C03_center_idempotent : forall c s w, Reachable c -> 0 <= w < 65536 ->
  ~ JoinsPrevious s -> ~ JoinsNext s ->
  AlignmentCenter c (AlignmentCenter c s w) w = AlignmentCenter c s w.
Proof. exact center_idempotent. Qed.
Print Assumptions C03_center_idempotent.

Example C03_example :
  AlignmentRight (plainCondition true true) (AlignmentRight (plainCondition true true) [xc2; xa1] 4) 4
  = lit "  "%string ++ [xc2; xa1].
Proof. vm_compute. reflexivity. Qed.

Theorem C03_left_joining_refuted : exists c s w, Reachable c /\ 0 <= w < 65536 /\
  AlignmentLeft c (AlignmentLeft c s w) w <> AlignmentLeft c s w.
Proof. exact left_idempotent_refuted. Qed.
Print Assumptions C03_left_joining_refuted.
