(** * PropMiss: by how much the alignments miss the width asked for (C83). *)
From Coq Require Import Strings.String.
From Verif Require Import GoBase Utf8 GraphemeSpec Runewidth ConditionSpec StringWidthSpec Width TextSpec AlignSpec
  Table MissSpec MissProofs MissCases.
Local Open Scope Z_scope.

Theorem C83_lost : forall c s, Reachable c -> exists d e,
  LostBefore (RuneWidth c) (runes s) d /\ LostAfter (RuneWidth c) (runes s) e /\ 0 <= d <= 2 /\ 0 <= e <= 1.
Proof. intros c s. exact (Lost_exists c (runes s)). Qed.
Print Assumptions C83_lost.

Theorem C83_left : forall c s w e, Reachable c -> 0 <= w < 65536 -> vwidth c s < w ->
  LostAfter (RuneWidth c) (runes s) e -> vwidth c (AlignmentLeft c s w) = w - e.
Proof. exact left_miss. Qed.
Print Assumptions C83_left.

Theorem C83_right : forall c s w d, Reachable c -> 0 <= w < 65536 -> vwidth c s < w ->
  LostBefore (RuneWidth c) (runes s) d -> vwidth c (AlignmentRight c s w) = (w - d) mod 65536.
Proof. exact right_miss. Qed.
Print Assumptions C83_right.

Theorem C83_center : forall c s w d e, Reachable c -> 0 <= w < 65536 -> vwidth c s < w ->
  LostBefore (RuneWidth c) (runes s) d -> LostAfter (RuneWidth c) (runes s) e ->
  vwidth c (AlignmentCenter c s w) = (w - d - (if w =? vwidth c s + 1 then 0 else e)) mod 65536.
Proof. exact center_miss. Qed.
Print Assumptions C83_center.

Example C83_example : Reachable narrowC /\ vwidth narrowC both = 4
  /\ LostBefore (RuneWidth narrowC) (runes both) 2 /\ LostAfter (RuneWidth narrowC) (runes both) 1
  /\ vwidth narrowC (AlignmentLeft narrowC both 9) = 8
  /\ vwidth narrowC (AlignmentRight narrowC both 9) = 7
  /\ vwidth narrowC (AlignmentCenter narrowC both 9) = 6.
Proof. exact miss_example. Qed.

Example C83_invisible_example :
  let s := lit "a"%string ++ [xdc; x8f] in
  JoinsNext s /\ vwidth narrowC s = 1 /\ vwidth narrowC (AlignmentLeft narrowC s 5) = 5.
Proof. exact invisible_example. Qed.

Theorem C83_bounds : forall a c s w, Reachable c -> 3 <= w < 65536 -> vwidth c s <= w ->
  w - 3 <= vwidth c (align a c s w) <= w.
Proof. exact align_bounds. Qed.
Print Assumptions C83_bounds.

Theorem C83_left_stable : forall c s w e, Reachable c -> 0 <= w < 65536 -> vwidth c s < w ->
  LostAfter (RuneWidth c) (runes s) e ->
  (AlignmentLeft c (AlignmentLeft c s w) w = AlignmentLeft c s w <-> e = 0).
Proof. exact left_stable. Qed.
Print Assumptions C83_left_stable.

Theorem C83_right_stable : forall c s w d, Reachable c -> 2 <= w < 65536 -> vwidth c s < w ->
  LostBefore (RuneWidth c) (runes s) d ->
  (AlignmentRight c (AlignmentRight c s w) w = AlignmentRight c s w <-> d = 0).
Proof. exact right_stable. Qed.
Print Assumptions C83_right_stable.

Theorem C83_center_stable : forall c s w d e, Reachable c -> 3 <= w < 65536 -> vwidth c s < w ->
  LostBefore (RuneWidth c) (runes s) d -> LostAfter (RuneWidth c) (runes s) e ->
  (AlignmentCenter c (AlignmentCenter c s w) w = AlignmentCenter c s w <-> d = 0 /\ (e = 0 \/ w = vwidth c s + 1)).
Proof. exact center_stable. Qed.
Print Assumptions C83_center_stable.

Theorem C83_left_twice : forall c s w, Reachable c -> 0 <= w < 65536 -> vwidth c s < w ->
  vwidth c (AlignmentLeft c (AlignmentLeft c s w) w) = w.
Proof. exact left_twice. Qed.
Print Assumptions C83_left_twice.

Theorem C83_right_twice : forall c s w, Reachable c -> 2 <= w < 65536 -> vwidth c s < w ->
  vwidth c (AlignmentRight c (AlignmentRight c s w) w) = w.
Proof. exact right_twice. Qed.
Print Assumptions C83_right_twice.

Theorem C83_center_thrice : forall c s w, Reachable c -> 3 <= w < 65536 -> vwidth c s < w ->
  vwidth c (AlignmentCenter c (AlignmentCenter c (AlignmentCenter c s w) w) w) = w.
Proof. exact center_thrice. Qed.
Print Assumptions C83_center_thrice.

Example C83_twice_example :
  vwidth narrowC (AlignmentLeft narrowC (AlignmentLeft narrowC both 9) 9) = 9
  /\ vwidth narrowC (AlignmentRight narrowC (AlignmentRight narrowC both 9) 9) = 9
  /\ vwidth narrowC (AlignmentCenter narrowC (AlignmentCenter narrowC (AlignmentCenter narrowC both 5) 5) 5) = 5.
Proof. exact twice_example. Qed.

Theorem C83_center_twice_refuted : exists c s w, Reachable c /\ 3 <= w < 65536 /\ vwidth c s < w
  /\ vwidth c (AlignmentCenter c (AlignmentCenter c s w) w) < w.
Proof. exact center_twice_short. Qed.
Print Assumptions C83_center_twice_refuted.
