(** * MissCases: texts whose edges join spaces. *)
From Coq Require Import Strings.String.
From Verif Require Import GoBase Utf8 GraphemeSpec Runewidth ConditionSpec StringWidthSpec StringWidthProofs
  UnisegProofs Width TextSpec AlignSpec Table MissSpec MissProofs.
Local Open Scope Z_scope.

(** U+1F3FB, a skin tone standing alone: Extend, and two cells wide; U+0600:
    Prepend, one cell. *)
Definition tone : str := [xf0; x9f; x8f; xbb].
Definition sign : str := [xd8; x80].
Definition narrowC : Condition := plainCondition false true.

Lemma narrowC_reachable : Reachable narrowC.
Proof. apply r_fresh. Qed.

Definition both : str := tone ++ lit "a"%string ++ sign.

Lemma both_runes : runes both = [0x1F3FB; 0x61; 0x600].
Proof. vm_compute. reflexivity. Qed.

Lemma both_before : LostBefore (RuneWidth narrowC) (runes both) 2.
Proof.
  rewrite both_runes. apply (before_first _ _ 0x1F3FB [0x61; 0x600] [0x1F3FB] [[0x61]; [0x600]]); [reflexivity| | |].
  - left. vm_compute. reflexivity.
  - replace [[0x1F3FB]; [0x61]; [0x600]] with (segments [0x1F3FB; 0x61; 0x600]) by (vm_compute; reflexivity).
    apply segments_IsSegmentation.
  - replace 2 with (cluster_width narrowC [0x1F3FB]) by (vm_compute; reflexivity).
    apply cluster_width_spec, Reachable_OK, narrowC_reachable.
Qed.

Lemma both_after : LostAfter (RuneWidth narrowC) (runes both) 1.
Proof.
  rewrite both_runes. apply after_one. exists [0x1F3FB; 0x61], [0x600]. split; [reflexivity|]. split.
  - constructor; [vm_compute; reflexivity|constructor].
  - constructor. vm_compute. reflexivity.
Qed.

(** Asked for nine cells, the three alignments give eight, seven and six. *)
Lemma miss_example : Reachable narrowC /\ vwidth narrowC both = 4
  /\ LostBefore (RuneWidth narrowC) (runes both) 2 /\ LostAfter (RuneWidth narrowC) (runes both) 1
  /\ vwidth narrowC (AlignmentLeft narrowC both 9) = 8
  /\ vwidth narrowC (AlignmentRight narrowC both 9) = 7
  /\ vwidth narrowC (AlignmentCenter narrowC both 9) = 6.
Proof.
  split; [apply narrowC_reachable|]. split; [vm_compute; reflexivity|].
  split; [apply both_before|]. split; [apply both_after|]. repeat split; vm_compute; reflexivity.
Qed.

(** An invisible Prepend rune loses nothing: U+070F. *)
Lemma invisible_example :
  let s := lit "a"%string ++ [xdc; x8f] in
  JoinsNext s /\ vwidth narrowC s = 1 /\ vwidth narrowC (AlignmentLeft narrowC s 5) = 5.
Proof.
  intros s. subst s. split; [|split; vm_compute; reflexivity].
  exists [0x61], 0x70F. split; vm_compute; reflexivity.
Qed.

(** Centring twice: asked for five cells the first time adds one space, the
    second one on either side. *)
Lemma center_twice_short : exists c s w, Reachable c /\ 3 <= w < 65536 /\ vwidth c s < w
  /\ vwidth c (AlignmentCenter c (AlignmentCenter c s w) w) < w.
Proof.
  exists narrowC, both, 5. split; [apply narrowC_reachable|]. split; [lia|].
  split; vm_compute; reflexivity.
Qed.

Lemma twice_example :
  vwidth narrowC (AlignmentLeft narrowC (AlignmentLeft narrowC both 9) 9) = 9
  /\ vwidth narrowC (AlignmentRight narrowC (AlignmentRight narrowC both 9) 9) = 9
  /\ vwidth narrowC (AlignmentCenter narrowC (AlignmentCenter narrowC (AlignmentCenter narrowC both 5) 5) 5) = 5.
Proof. repeat split; vm_compute; reflexivity. Qed.
