(** * TintCases: coloured texts cut. *)
From Coq Require Import Strings.String.
From Coq Require Import ZifyBool ZifyNat.
From Verif Require Import GoBase Utf8 Utf8Spec Utf8Proofs Uniseg GraphemeSpec EscapeSpec Runewidth ConditionSpec TextSpec Width TerminalSpec TerminalProofs TerminalCases WrapSpec ColourSpec ColourProofs
  PartsSpec PartsCases TrimSpec TrimProofs TrimCases TintSpec TintProofs.
Local Open Scope Z_scope.

Definition red_on : str := attr "31"%string.
Definition off : str := attr ""%string.
Lemma quiet_on : Quiet red_on.
Proof. apply attr_quiet. vm_compute. reflexivity. Qed.
Lemma quiet_off : Quiet off.
Proof. apply (quiet [] [] x6d); [constructor|constructor|vm_compute; tauto]. Qed.
Definition long : str := [] ++ red_on ++ (lit "abc"%string) ++ off ++ lit "de"%string.
Definition short : str := [] ++ red_on ++ (lit "ab"%string) ++ off ++ [].
Lemma simple_abc : SimpleText (lit "abc"%string).
Proof. apply simple_b_ok. vm_compute. reflexivity. Qed.
Lemma simple_de : SimpleText (lit "de"%string).
Proof. apply simple_b_ok. vm_compute. reflexivity. Qed.
Lemma tint_example : Tint (P false true) 2 long short /\ Styled long /\ Closed (P false true) long /\ rawWidth (P false true) long = 5
  /\ paint (P false true) home short = [(97, [[51; 49]]); (98, [[51; 49]])].
Proof.
  split; [|split; [|split; [|split; vm_compute; reflexivity]]].
  - apply ti_more; [apply simple_nil|apply quiet_on|vm_compute; discriminate|]. change (StringWidth (P false true) []) with 0.
    apply (ti_full (P false true) 2 (lit "abc"%string) (lit "ab"%string) (lit "c"%string) off (lit "de"%string) []).
    + apply simple_abc.
    + apply quiet_off.
    + apply (trim_by (P false true) 2 (lit "abc"%string) [lit "a"%string; lit "b"%string] [lit "c"%string]); [apply (clusters_by 9); vm_compute; reflexivity|vm_compute; discriminate|vm_compute; reflexivity].
    + discriminate.
    + constructor. apply simple_de.
  - apply st_more; [apply simple_nil|apply quiet_on|]. apply st_more; [apply simple_abc|apply quiet_off|]. constructor. apply simple_de.
  - split; [unfold ValidUTF8; vm_compute; repeat constructor; discriminate|]. split; vm_compute; reflexivity.
Qed.
(** Cut off with all that follows, the colour stays on. *)
Lemma bare_cut_refuted : exists c w s p q, Reachable c /\ Styled s /\ Closed c s /\ s = p ++ q /\ Styled p /\ rawWidth c p <= w /\ ~ Closed c p.
Proof.
  exists (P false true), 2, long, ([] ++ red_on ++ lit "ab"%string), (lit "c"%string ++ off ++ lit "de"%string).
  destruct tint_example as (_ & S & C & _). split; [constructor|]. split; [exact S|]. split; [exact C|]. split; [reflexivity|].
  split; [apply st_more; [apply simple_nil|apply quiet_on|constructor; apply simple_b_ok; vm_compute; reflexivity]|].
  split; [vm_compute; discriminate|]. intros (_ & _ & K). vm_compute in K. discriminate.
Qed.
