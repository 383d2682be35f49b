(** * EditCases: texts whose width changes as much as it can. *)
From Coq Require Import Strings.String.
From Coq Require Import ZifyBool ZifyNat.
From Verif Require Import GoBase Utf8 Utf8Spec Utf8Proofs Utf8Theory GraphemeSpec Runewidth ConditionSpec StringWidthProofs LawsTheory TextSpec Width WidthProofs WidthTheory
  TerminalSpec TerminalProofs EditSpec EditProofs EditTheory.
Local Open Scope Z_scope.

Definition copyright : str := [xc2; xa9].                      (* U+00A9: Pict, 1 cell *)
Definition mark : str := [xd8; x9c].                           (* U+061C: Control, 1 cell *)
Definition sign : str := [xd8; x80].                           (* U+0600: Prepend, 1 cell *)
Definition flagD : str := [xf0; x9f; x87; xa9].                (* U+1F1E9: RI *)
Definition tone : str := [xf0; x9f; x8f; xbb].                 (* U+1F3FB: Extend, 2 cells *)
(** U+1F3FB U+200D U+231A: a skin tone, a joiner and a watch. *)
Definition joined : str := tone ++ [xe2; x80; x8d] ++ [xe2; x8c; x9a].

Lemma enc_copyright : Encodes 0xA9 copyright.
Proof. apply (e2 0xA9 2 0x29); vm_compute; intuition congruence. Qed.
Lemma enc_mark : Encodes 0x61C mark.
Proof. apply (e2 0x61C 0x18 0x1C); vm_compute; intuition congruence. Qed.
Lemma enc_cr : Encodes 0xD [x0d].
Proof. apply (e1 x0d). vm_compute. reflexivity. Qed.
Lemma enc_a : Encodes 0x61 [x61].
Proof. apply (e1 x61). vm_compute. reflexivity. Qed.
Lemma starts_joined : StartsRune joined.
Proof. right. vm_compute. discriminate. Qed.

Notation P := plainCondition.
(** In every mode. *)
Lemma seam_sharp ea s : StringWidth (P ea s) (copyright ++ joined) = StringWidth (P ea s) copyright + StringWidth (P ea s) joined - 4.
Proof. destruct ea, s; vm_compute; reflexivity. Qed.
Lemma insert_sharp ea s :
  StringWidth (P ea s) (copyright ++ mark ++ joined) = StringWidth (P ea s) (copyright ++ joined) + 5 /\
  StringWidth (P ea s) ([] ++ copyright ++ joined) = StringWidth (P ea s) ([] ++ joined) - 3.
Proof. destruct ea, s; vm_compute; split; reflexivity. Qed.
Lemma replace_sharp ea s : StringWidth (P ea s) (sign ++ mark ++ joined) = StringWidth (P ea s) (sign ++ copyright ++ joined) + 5.
Proof. destruct ea, s; vm_compute; reflexivity. Qed.
Lemma swap_sharp ea s : StringWidth (P ea s) ([] ++ copyright ++ [x0d] ++ joined) = StringWidth (P ea s) ([] ++ [x0d] ++ copyright ++ joined) + 4.
Proof. destruct ea, s; vm_compute; reflexivity. Qed.
Lemma splice_sharp ea s : StringWidth (P ea s) (copyright ++ mark ++ joined) = StringWidth (P ea s) (copyright ++ [] ++ joined) + StringWidth (P ea s) mark + 4.
Proof. destruct ea, s; vm_compute; reflexivity. Qed.
(** Regional indicators and Extend runes. *)
Lemma settles_not ea s :
  StringWidth (P ea s) (flagD ++ flagD ++ flagD) <> StringWidth (P ea s) (flagD ++ flagD) + StringWidth (P ea s) (flagD ++ flagD) - StringWidth (P ea s) flagD /\
  StringWidth (P ea s) (copyright ++ joined) <> StringWidth (P ea s) (copyright ++ tone) + StringWidth (P ea s) joined - StringWidth (P ea s) tone.
Proof. destruct ea, s; vm_compute; split; discriminate. Qed.
Lemma settles_example ea s : StringWidth (P ea s) (joined ++ [x61] ++ joined) = 7 /\ StringWidth (P ea s) (joined ++ [x61]) = 5 /\ StringWidth (P ea s) ([x61] ++ joined) = 3.
Proof. destruct ea, s; vm_compute; auto. Qed.

(** ESC put before an attribute sequence without it, of any length. *)
Definition bare (n : nat) : str := x5b :: List.repeat x3b n ++ [x6d].
Lemma bare_plain n : Forall (fun b => 0x20 <= bv b <= 0x7E) (bare n).
Proof.
  unfold bare. constructor; [vm_compute; intuition congruence|]. apply Forall_app. split.
  - apply Forall_forall. intros b Hb. apply repeat_spec in Hb. subst b. vm_compute. intuition congruence.
  - constructor; [vm_compute; intuition congruence|constructor].
Qed.
Lemma bare_hidden c n : Reachable c -> rawWidth c (x1b :: bare n) = 0.
Proof.
  intros Hc. unfold bare. apply attribute_zero; [exact Hc|..].
  - apply Forall_forall. intros b Hb. apply repeat_spec in Hb. subst b. vm_compute. tauto.
  - split; [apply Forall_forall; intros b Hb; apply repeat_spec in Hb; subst b; vm_compute; tauto|].
    intros pre ds post E F. destruct ds as [|d ds]; [cbn; lia|]. exfalso. inversion F as [|? ? Hd _]; subst.
    assert (Hin : In d (List.repeat x3b n)) by (rewrite E; apply in_or_app; right; left; reflexivity). apply repeat_spec in Hin. subst d. vm_compute in Hd. intuition discriminate.
Qed.

Lemma escape_refuted : forall n, exists c a r e b, Reachable c /\ Encodes r e /\ StartsRune b /\ rawWidth c (a ++ e ++ b) <= rawWidth c (a ++ b) - n.
Proof.
  intros n. exists (P false true), [], 0x1B, [x1b], (bare (Z.to_nat n)). split; [apply r_fresh|]. split; [apply (e1 x1b); vm_compute; reflexivity|].
  split; [left; vm_compute; reflexivity|]. cbn [app]. rewrite bare_hidden by apply r_fresh.
  destruct (ascii_width (P false true) (bare (Z.to_nat n)) (r_fresh _ _) (bare_plain _)) as [E _]. rewrite E.
  unfold bare, slen. cbn [List.length]. rewrite app_length, repeat_length. cbn [List.length]. lia.
Qed.
(** Two changes. *)
Lemma edits_example : Edits 2 [0x600; 0x61C; 0x1F3FB; 0x200D; 0x231A] [0x600; 0xA9; 0x1F3FB; 0x200D; 0x231A; 0x61].
Proof.
  apply (eds_more 1 _ [0x600; 0xA9; 0x1F3FB; 0x200D; 0x231A]).
  - exact (ed_replace [0x600] 0x61C 0xA9 [0x1F3FB; 0x200D; 0x231A]).
  - eapply eds_more; [|constructor]. exact (ed_insert [0x600; 0xA9; 0x1F3FB; 0x200D; 0x231A] 0x61 []).
Qed.
