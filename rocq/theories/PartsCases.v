(** * PartsCases: text arriving in parts. *)
From Coq Require Import Strings.String.
From Verif Require Import GoBase Utf8 Utf8Proofs Uniseg GraphemeSpec UnisegProofs SegmentSpec SegmentTheory Runewidth ConditionSpec TextSpec TableExamples
  StringWidthProofs PartsSpec PartsProofs.
From Coq Require Import ZifyBool ZifyNat.
Local Open Scope Z_scope.

Lemma clusters_by n s cl : option_map (map g_cluster) (iterate n (NewGraphemes s)) = Some cl -> Clusters s cl.
Proof.
  destruct (iterate n (NewGraphemes s)) as [gs|] eqn:E; [|discriminate]. intros H. injection H as <-.
  exists gs. split; [eapply iterate_Visits; eauto|reflexivity].
Qed.
Lemma valid_tail (w tail : str) : ValidUTF8 w -> Stays w tail.
Proof. intros H b. apply (valid_stays w H (tail ++ b)). Qed.

(** "e", then U+0301 in two parts with more text: e with its accent, "x", and
    two flags the second of which comes in two parts. *)
Definition flagD : str := [xf0; x9f; x87; xa9].
Definition flagE : str := [xf0; x9f; x87; xaa].
Definition parts1 : list str := [lit "e"%string ++ [xcc]; [x81] ++ lit "x"%string ++ flagD ++ [xf0; x9f]; [x87; xaa] ++ flagE].
Definition out1 : list str := [[x65; xcc; x81]; [x78]; flagD ++ flagE; flagE].

Lemma feeds_example : Feeds [] parts1 out1.
Proof.
  change out1 with ([] ++ out1). eapply fd_part with (w := [x65]) (tail := [xcc]) (keep := [x65]); [reflexivity| | |].
  { apply valid_tail. repeat constructor. discriminate. }
  { apply (clusters_by 5). vm_compute. reflexivity. }
  change out1 with ([[x65; xcc; x81]; [x78]] ++ [flagD ++ flagE; flagE]).
  eapply fd_part with (w := [x65; xcc; x81; x78] ++ flagD) (tail := [xf0; x9f]) (keep := flagD); [reflexivity| | |].
  { apply valid_tail. unfold ValidUTF8. vm_compute. repeat constructor; discriminate. }
  { apply (clusters_by 9). vm_compute. reflexivity. }
  apply fd_wait. apply fd_end. apply (clusters_by 9). vm_compute. reflexivity.
Qed.
Lemma feeds_whole : List.concat parts1 = [x65; xcc; x81; x78] ++ flagD ++ flagE ++ flagE /\ List.concat out1 = List.concat parts1
  /\ map (StringWidth exC) out1 = [1; 1; 1; 1] /\ StringWidth exC (List.concat parts1) = 4.
Proof. vm_compute. auto. Qed.

(** Cutting inside a rune without holding its bytes; segmenting the parts one by
    one. *)
Lemma cut_inside_refuted : exists a b cl keep out, Clusters a (cl ++ [keep]) /\ Clusters (keep ++ b) out /\ ~ Clusters (a ++ b) (cl ++ out).
Proof.
  exists [x65; xcc], [x81], [[x65]], [xcc], [[xcc; x81]].
  split; [apply (clusters_by 5); vm_compute; reflexivity|]. split; [apply (clusters_by 5); vm_compute; reflexivity|].
  intros K. assert (C : Clusters [x65; xcc; x81] [[x65; xcc; x81]]) by (apply (clusters_by 5); vm_compute; reflexivity).
  pose proof (clusters_fun _ _ _ K C) as X. discriminate X.
Qed.
Lemma one_by_one_refuted : exists a b c1 c2, ValidUTF8 a /\ ValidUTF8 b /\ Clusters a c1 /\ Clusters b c2 /\ ~ Clusters (a ++ b) (c1 ++ c2).
Proof.
  exists flagD, flagE, [flagD], [flagE].
  split; [unfold ValidUTF8; vm_compute; repeat constructor; discriminate|]. split; [unfold ValidUTF8; vm_compute; repeat constructor; discriminate|].
  split; [apply (clusters_by 5); vm_compute; reflexivity|]. split; [apply (clusters_by 5); vm_compute; reflexivity|].
  intros K. assert (C : Clusters (flagD ++ flagE) [flagD ++ flagE]) by (apply (clusters_by 5); vm_compute; reflexivity).
  pose proof (clusters_fun _ _ _ K C) as X. discriminate X.
Qed.

(** A letter with [n] accents is one cluster. *)
Fixpoint accents (n : nat) : str := match n with O => [] | S n => xcc :: x81 :: accents n end.
Lemma accents_runes n : runes (accents n) = repeat 0x301 n.
Proof.
  induction n as [|n IH]; [reflexivity|]. unfold runes in *. cbn [accents repeat]. rewrite decode_cons by discriminate.
  change (DecodeRune (xcc :: x81 :: accents n)) with (0x301, 2). cbn [snd]. change (drop 2 (xcc :: x81 :: accents n)) with (accents n).
  cbn [map fst]. rewrite IH. reflexivity.
Qed.
Lemma seg_accents n : forall before cur g, before = g :: tl before -> is_control g = false -> seg before cur (repeat 0x301 n) = [cur ++ repeat 0x301 n].
Proof.
  induction n as [|n IH]; intros before cur g HB HG; cbn [repeat seg]; [rewrite app_nil_r; reflexivity|].
  rewrite HB. change (class 0x301) with Extend.
  assert (K : breaks (g :: tl before) Extend = false) by (destruct g; try discriminate; reflexivity). rewrite K.
  rewrite (IH (Extend :: g :: tl before) (cur ++ [0x301]) Extend); auto. rewrite <- app_assoc. reflexivity.
Qed.
Lemma unbounded n : exists s, ValidUTF8 s /\ (n < List.length s)%nat /\ Clusters s [s].
Proof.
  exists (x65 :: accents n).
  assert (L : forall n, List.length (accents n) = (2 * n)%nat) by (clear; induction n; cbn; lia).
  assert (V : forall n, ValidUTF8 (accents n)).
  { clear. induction n as [|n IH]; [constructor|]. unfold ValidUTF8 in *. cbn [accents]. rewrite decode_cons by discriminate.
    change (DecodeRune (xcc :: x81 :: accents n)) with (0x301, 2). constructor; [discriminate|]. exact IH. }
  split; [|split].
  - unfold ValidUTF8. rewrite decode_ascii by (vm_compute; reflexivity). constructor; [discriminate|apply V].
  - cbn [List.length]. rewrite L. lia.
  - destruct (clusters_total (x65 :: accents n)) as (cl & H). pose proof H as H'. rewrite clusters_cut in H'. destruct (cut_runes _ _ H') as (C1 & C2 & _).
    assert (R : runes (x65 :: accents n) = 101 :: repeat 0x301 n).
    { unfold runes. rewrite decode_ascii by (vm_compute; reflexivity). cbn [map fst]. f_equal. apply accents_runes. }
    rewrite R in C2. cbn [segments] in C2. rewrite (seg_accents n [class 101] [101] Other) in C2; [|reflexivity|reflexivity].
    destruct cl as [|k [|? ?]]; try discriminate. cbn [List.concat] in C1. rewrite app_nil_r in C1. subst k. exact H.
Qed.

Lemma must_example : Stays (lit "ab"%string) [] /\ Clusters (lit "ab"%string) ([[x61]] ++ [[x62]]) /\ ~ EndsIn (lit "ab"%string) (fun g => g = LF \/ g = Control)
  /\ Stays (lit "a"%string ++ [x0d; x0a]) [] /\ Clusters (lit "a"%string ++ [x0d; x0a]) ([[x61]] ++ [[x0d; x0a]])
  /\ EndsIn (lit "a"%string ++ [x0d; x0a]) (fun g => g = LF \/ g = Control)
  /\ ~ EndsIn (lit "a"%string ++ [x0d]) (fun g => g = LF \/ g = Control).
Proof.
  split; [apply valid_stays; repeat constructor; discriminate|]. split; [apply (clusters_by 5); vm_compute; reflexivity|]. split.
  { intros (pre & r & E & K). change (runes (lit "ab"%string)) with ([97] ++ [98]) in E. apply app_inj_tail in E. destruct E as [_ <-]. vm_compute in K. destruct K; discriminate. }
  split; [apply valid_stays; repeat constructor; discriminate|]. split; [apply (clusters_by 5); vm_compute; reflexivity|]. split.
  { exists [97; 13], 10. split; vm_compute; auto. }
  intros (pre & r & E & K). change (runes (lit "a"%string ++ [x0d])) with ([97] ++ [13]) in E. apply app_inj_tail in E. destruct E as [_ <-]. vm_compute in K. destruct K; discriminate.
Qed.
Lemma held_example : Stays (lit "a"%string) [xe3; x81] /\ ~ Stays (lit "a"%string ++ [xe3; x81]) [] /\ Stays [xe3; x81] (lit "a"%string).
Proof.
  split; [apply valid_tail; repeat constructor; discriminate|]. split.
  - intros K. specialize (K [x82]). vm_compute in K. discriminate.
  - intros b. assert (N : decode ([xe3; x81] ++ x61 :: b) = decode [xe3; x81] ++ decode (x61 :: b)) by (apply decode_app_ascii; vm_compute; reflexivity). exact N.
Qed.
