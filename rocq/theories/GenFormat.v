(** * GenFormat: lines read by script/generate.go. *)
From Coq Require Import Strings.String.
From Verif Require Import GoBase Utf8 Utf8Proofs Utf8Spec Utf8Theory Locale LocaleProofs Generate GenText GenTextSpec GenScan GenPattern GenRead GenSource GenScriptSpec.
From Coq Require Import ZifyBool ZifyNat.
Local Open Scope Z_scope.

(** ** Parts of a format *)
Lemma space_gap r : IsSpace r = true <-> In r gaps \/ r = 10.
Proof.
  split.
  - intros H. unfold IsSpace, inb in H. cbn [gaps In]. lia.
  - intros [H| ->]; [|reflexivity]. cbn [gaps In] in H. repeat (destruct H as [<-|H]; [reflexivity|]). destruct H.
Qed.
Lemma gap_10 : ~ In 10 gaps.
Proof. cbn [gaps In]. lia. Qed.
Lemma gap_dec r : {In r gaps} + {~ In r gaps}.
Proof. apply (in_dec Z.eq_dec). Qed.
Lemma gap_space r : In r gaps -> IsSpace r = true /\ r <> 10.
Proof. intros H. split; [apply space_gap; auto|]. intros ->. exact (gap_10 H). Qed.
Definition NoGap (l : list Z) : Prop := match l with [] => True | r :: _ => ~ In r gaps /\ r <> 10 end.
Lemma skip_iff l l' : skip_space l = Some l' <-> exists s, l = s ++ l' /\ Gap s /\ NoGap l'.
Proof.
  revert l'. induction l as [|r l IH]; intros l'; cbn [skip_space].
  - split; [intros [= <-]; exists []; repeat split; constructor|]. intros (s & E & _ & _). symmetry in E. apply app_eq_nil in E. destruct E as [_ ->]. reflexivity.
  - destruct (Z.eqb_spec r 10) as [->|N].
    + split; [discriminate|]. intros (s & E & HG & HN). exfalso. destruct HG as [|x s Hx HG]; cbn [app] in E.
      * subst l'. destruct HN as [_ HN]. congruence.
      * injection E as <- _. exact (gap_10 Hx).
    + destruct (IsSpace r) eqn:ES.
      * apply space_gap in ES. destruct ES as [ES|ES]; [|congruence]. rewrite IH. split.
        -- intros (s & -> & HG & HN). exists (r :: s). repeat split; auto. constructor; assumption.
        -- intros (s & E & HG & HN). destruct HG as [|x s Hx HG]; cbn [app] in E; [subst l'; destruct HN; contradiction|]. injection E as -> ->. eauto.
      * assert (Hr : ~ In r gaps) by (intros K; apply gap_space in K; destruct K; congruence). split.
        -- intros [= <-]. exists []. repeat split; auto; constructor.
        -- intros (s & E & HG & HN). destruct HG as [|x s Hx HG]; cbn [app] in E; [congruence|]. injection E as <- _. contradiction.
Qed.
Lemma span_iff p l a b : span p l = (a, b) <-> l = a ++ b /\ Forall (fun r => p r = true) a /\ match b with [] => True | r :: _ => p r = false end.
Proof.
  revert a b. induction l as [|r l IH]; intros a b; cbn [span].
  - split; [intros [= <- <-]; repeat split; constructor|]. intros (E & _). symmetry in E. apply app_eq_nil in E. destruct E as [-> ->]. reflexivity.
  - destruct (p r) eqn:Ep.
    + destruct (span p l) as [a' b']. split.
      * intros [= <- <-]. destruct (proj1 (IH a' b') eq_refl) as (-> & F & Hb). repeat split; auto. 
      * intros (E & F & Hb). destruct F as [|x a Hx F]; cbn [app] in E; [subst b; congruence|]. injection E as <- E.
        assert (K : (a', b') = (a, b)) by (apply IH; auto). injection K as -> ->. reflexivity.
    + split; [intros [= <- <-]; repeat split; auto|]. intros (E & F & Hb). destruct F as [|x a Hx F]; cbn [app] in E; [subst b; reflexivity|].
      injection E as <- _. congruence.
Qed.

Lemma digit_iff c d : Digit c d <-> is_hex c = true /\ d = hexdigit c.
Proof.
  unfold is_hex, inb, hexdigit. split.
  - intros [x H|x H|x H]; (split; [lia|]); repeat match goal with |- context [?a <=? ?b] => destruct (Z.leb_spec a b) end; lia.
  - intros [H ->]. repeat match goal with |- context [?a <=? ?b] => destruct (Z.leb_spec a b) end.
    + apply digit_dec; lia.
    + apply digit_upper; lia.
    + apply digit_lower; lia.
Qed.
Lemma digits_iff l v : Digits l v <-> l <> [] /\ Forall (fun r => is_hex r = true) l /\ v = hexval l.
Proof.
  split.
  - induction 1 as [c d Hd|l v c d H (N & F & ->) Hd]; apply digit_iff in Hd; destruct Hd as [Hc ->].
    + split; [discriminate|]. split; [constructor; auto|]. unfold hexval. cbn [fold_left]. lia.
    + split; [destruct l; discriminate|]. split; [apply Forall_app; auto|]. unfold hexval. rewrite fold_left_app. cbn [fold_left]. lia.
  - intros (N & F & ->). revert N F. induction l as [|c l IH] using rev_ind; intros N F; [congruence|]. apply Forall_app in F. destruct F as [F Fc].
    inversion Fc as [|? ? Hc _]; subst. destruct l as [|x l].
    + cbn [app]. unfold hexval. cbn [fold_left]. apply digits_one, digit_iff. auto.
    + replace (hexval ((x :: l) ++ [c])) with (16 * hexval (x :: l) + hexdigit c) by (unfold hexval; rewrite fold_left_app; cbn [fold_left]; lia).
      apply digits_more; [apply IH; [discriminate|exact F]|apply digit_iff; auto].
Qed.
Lemma hexval_nonneg l : Forall (fun r => is_hex r = true) l -> 0 <= hexval l.
Proof.
  intros F. assert (H : forall v, 0 <= v -> 0 <= fold_left (fun v r => v * 16 + hexdigit r) l v); [|apply H; lia].
  induction F as [|r l Hr F IH]; intros v Hv; [exact Hv|]. cbn [fold_left]. apply IH. unfold is_hex, inb in Hr. unfold hexdigit.
  repeat match goal with |- context [?a <=? ?b] => destruct (Z.leb_spec a b) end; lia.
Qed.
(** No further digit. *)
Definition NoHex (l : list Z) : Prop := match l with [] => True | r :: _ => is_hex r = false end.
Lemma hex_gap r : is_hex r = true -> ~ In r gaps /\ r <> 10 /\ r <> 43 /\ r <> 45.
Proof. intros H. unfold is_hex, inb in H. cbn [gaps In]. lia. Qed.
Lemma scan_hex_iff l v rest : scan_hex l = Some (v, rest) <-> exists s a, l = s ++ a ++ rest /\ Gap s /\ Signed a v /\ NoHex rest.
Proof.
  unfold scan_hex. split.
  - destruct (skip_space l) as [l1|] eqn:E1; [|discriminate]. apply skip_iff in E1. destruct E1 as (s & -> & HG & HN).
    assert (K : forall (neg : bool) ds' l2, (let '(ds, rest0) := span is_hex l2 in match ds with [] => None | _ => let v := if neg then - hexval ds else hexval ds in
        if inb (-2147483648) 2147483647 v then Some (v, rest0) else None end) = Some (v, rest) -> ds' ++ l2 = l1 ->
        (neg = false /\ (ds' = [] \/ ds' = [43]) \/ neg = true /\ ds' = [45]) -> exists s a, s ++ a ++ rest = s ++ ds' ++ l2 /\ Gap s /\ Signed a v /\ NoHex rest /\ s ++ ds' ++ l2 = s ++ l1).
    { intros neg ds' l2 H <- Hs. destruct (span is_hex l2) as [ds r0] eqn:ES. apply span_iff in ES. destruct ES as (-> & F & Hr).
      destruct ds as [|d ds]; [discriminate|]. cbv zeta in H. set (dd := d :: ds) in *. assert (HD : Digits dd (hexval dd)) by (apply digits_iff; repeat split; [discriminate|exact F]).
      pose proof (hexval_nonneg dd F) as H0. destruct (inb _ _ _) eqn:EI; [|discriminate]. injection H as <- <-. unfold inb in EI.
      exists [], (ds' ++ dd). split; [rewrite <- !app_assoc; reflexivity|]. split; [constructor|]. split; [|split; [exact Hr|reflexivity]].
      destruct Hs as [[-> [-> | ->]]|[-> ->]]; cbn [app]; constructor; try assumption; lia. }
    intros H. assert (K2 : exists a, l1 = a ++ rest /\ Signed a v /\ NoHex rest).
    { destruct l1 as [|r l2].
      - destruct (K false [] [] H eq_refl) as (s' & a & E & _ & HS & HR & _); [auto|]. apply app_inv_head in E. exists a. auto.
      - destruct (Z.eqb_spec r 43) as [->|N1].
        + destruct (K false [43] l2 H eq_refl) as (s' & a & E & _ & HS & HR & _); [auto|]. apply app_inv_head in E. exists a. auto.
        + destruct (Z.eqb_spec r 45) as [->|N2].
          * destruct (K true [45] l2 H eq_refl) as (s' & a & E & _ & HS & HR & _); [auto|]. apply app_inv_head in E. exists a. auto.
          * destruct (K false [] (r :: l2) H eq_refl) as (s' & a & E & _ & HS & HR & _); [auto|]. apply app_inv_head in E. exists a. auto. }
    destruct K2 as (a & -> & HS & HR). exists s, a. auto.
  - intros (s & a & -> & HG & HS & HR).
    assert (Sp : forall ds, Forall (fun r => is_hex r = true) ds -> span is_hex (ds ++ rest) = (ds, rest)) by (intros ds F; apply span_iff; auto).
    assert (HN : NoGap (a ++ rest)).
    { destruct HS as [l v HD _|l v HD _|l v HD _]; apply digits_iff in HD; destruct HD as (N & F & _).
      - destruct F as [|c l Hc F]; [congruence|]. cbn [app NoGap]. apply hex_gap in Hc. tauto.
      - cbn [app NoGap gaps In]. lia.
      - cbn [app NoGap gaps In]. lia. }
    rewrite (proj2 (skip_iff (s ++ a ++ rest) (a ++ rest))) by eauto.
    destruct HS as [l v HD L|l v HD L|l v HD L]; apply digits_iff in HD; destruct HD as (N & F & ->); pose proof (hexval_nonneg l F) as H0.
    + destruct F as [|c l Hc F]; [congruence|]. cbn [app]. destruct (hex_gap c Hc) as (_ & _ & N1 & N2).
      destruct (Z.eqb_spec c 43); [congruence|]. destruct (Z.eqb_spec c 45); [congruence|]. change (c :: l ++ rest) with ((c :: l) ++ rest).
      rewrite Sp by (constructor; assumption). cbv zeta. replace (inb (-2147483648) 2147483647 (hexval (c :: l))) with true by (unfold inb; lia). reflexivity.
    + cbn [app]. rewrite Z.eqb_refl, Sp by exact F. destruct l as [|c l]; [congruence|]. cbv zeta.
      replace (inb (-2147483648) 2147483647 (hexval (c :: l))) with true by (unfold inb; lia). reflexivity.
    + cbn [app]. change (45 =? 43) with false. rewrite Z.eqb_refl, Sp by exact F. destruct l as [|c l]; [congruence|]. cbv zeta.
      replace (inb (-2147483648) 2147483647 (- hexval (c :: l))) with true by (unfold inb; lia). reflexivity.
Qed.
Definition encode_all (w : list Z) : str := List.concat (map EncodeRune w).
Lemma scan_str_iff l ss rest : scan_str l = Some (ss, rest) <->
  exists s w, l = s ++ w ++ rest /\ Gap s /\ Letters w /\ ss = encode_all w /\ match rest with [] => True | r :: _ => IsSpace r = true end.
Proof.
  unfold scan_str, encode_all. split.
  - destruct (skip_space l) as [l1|] eqn:E1; [|discriminate]. apply skip_iff in E1. destruct E1 as (s & -> & HG & HN).
    destruct l1 as [|r l1]; [discriminate|]. destruct (span _ (r :: l1)) as [w rest'] eqn:ES. intros [= <- <-]. apply span_iff in ES. destruct ES as (E & F & Hr).
    exists s, w. split; [rewrite E; reflexivity|]. split; [exact HG|]. split.
    + split.
      * intros ->. cbn [app] in E. destruct rest' as [|y rest']; [discriminate|]. injection E as <- _. cbn [NoGap] in HN. apply negb_false_iff in Hr. apply space_gap in Hr. tauto.
      * revert F. apply Forall_impl. intros y Hy. apply negb_true_iff in Hy. split; intros K; assert (IsSpace y = true) by (apply space_gap; auto); congruence.
    + split; [reflexivity|]. destruct rest' as [|y rest']; [exact I|]. apply negb_false_iff, Hr.
  - intros (s & w & -> & HG & [N F] & -> & Hr). assert (HN : NoGap (w ++ rest)) by (destruct F as [|r w [H1 H2] F]; [congruence|]; cbn [app NoGap]; auto).
    rewrite (proj2 (skip_iff (s ++ w ++ rest) (w ++ rest))) by eauto. destruct w as [|r w]; [congruence|]. cbn [app]. change (r :: w ++ rest) with ((r :: w) ++ rest).
    rewrite (proj2 (span_iff (fun r => negb (IsSpace r)) ((r :: w) ++ rest) (r :: w) rest)); [reflexivity|]. split; [reflexivity|]. split.
    + revert F. apply Forall_impl. intros y [H1 H2]. apply negb_true_iff. destruct (IsSpace y) eqn:E; [|reflexivity]. apply space_gap in E. tauto.
    + destruct rest; [exact I|]. rewrite Hr. reflexivity.
Qed.
Lemma scan_space_iff l : (exists l', scan_space l = Some l') <-> Ends l.
Proof.
  unfold Ends. destruct l as [|r l]; cbn [scan_space]; [split; eauto|]. split.
  - intros (l' & H). destruct (IsSpace r && negb (r =? 10)) eqn:E; [|discriminate]. right. exists r, l. split; [reflexivity|].
    apply andb_true_iff in E. destruct E as [E1 E2]. apply space_gap in E1. destruct E1; [assumption|lia].
  - intros [|(r' & l' & [= <- <-] & H)]; [discriminate|]. apply gap_space in H. destruct H as [-> H]. destruct (Z.eqb_spec r 10); [contradiction|]. cbn. eauto.
Qed.
Lemma ends_space l : Ends l -> match l with [] => True | r :: _ => IsSpace r = true end.
Proof. intros [->|(r & l' & -> & H)]; [exact I|]. apply gap_space, H. Qed.
Lemma ends_nohex l : Ends l -> NoHex l.
Proof. intros [->|(r & l' & -> & H)]; [exact I|]. cbn [NoHex]. destruct (is_hex r) eqn:E; [|reflexivity]. apply hex_gap in E. tauto. Qed.

(** ** The four formats *)
Lemma lit_iff r f l x : sscanf (FLit r :: f) l = Some x <-> exists l', l = r :: l' /\ sscanf f l' = Some x.
Proof.
  cbn [sscanf]. destruct l as [|r' l]; [split; [discriminate|intros (? & [=] & _)]|]. destruct (Z.eqb_spec r r') as [<-|N].
  - split; [eauto|]. intros (l' & [= <-] & H). exact H.
  - split; [discriminate|]. intros (l' & [=] & _). congruence.
Qed.
Lemma hex_iff f l x : sscanf (FHex :: f) l = Some x <-> exists s a v l' x', l = s ++ a ++ l' /\ Gap s /\ Signed a v /\ NoHex l' /\ x = VInt v :: x' /\ sscanf f l' = Some x'.
Proof.
  cbn [sscanf]. split.
  - destruct (scan_hex l) as [[v l']|] eqn:E; [|discriminate]. apply scan_hex_iff in E. destruct E as (s & a & -> & HG & HS & HR).
    destruct (sscanf f l') as [x'|] eqn:E'; [|discriminate]. intros [= <-]. exists s, a, v, l', x'. auto 10.
  - intros (s & a & v & l' & x' & -> & HG & HS & HR & -> & E). rewrite (proj2 (scan_hex_iff (s ++ a ++ l') v l')) by (exists s, a; auto). rewrite E. reflexivity.
Qed.
Lemma str_iff f l x : sscanf (FStr :: f) l = Some x <-> exists s w l' x', l = s ++ w ++ l' /\ Gap s /\ Letters w
  /\ match l' with [] => True | r :: _ => IsSpace r = true end /\ x = VStr (encode_all w) :: x' /\ sscanf f l' = Some x'.
Proof.
  cbn [sscanf]. split.
  - destruct (scan_str l) as [[ss l']|] eqn:E; [|discriminate]. apply scan_str_iff in E. destruct E as (s & w & -> & HG & HS & -> & HR).
    destruct (sscanf f l') as [x'|] eqn:E'; [|discriminate]. intros [= <-]. exists s, w, l', x'. auto 10.
  - intros (s & w & l' & x' & -> & HG & HS & HR & -> & E). rewrite (proj2 (scan_str_iff (s ++ w ++ l') (encode_all w) l')) by (exists s, w; auto). rewrite E. reflexivity.
Qed.
Lemma end_iff l x : sscanf [FSpace] l = Some x <-> Ends l /\ x = [].
Proof.
  rewrite <- scan_space_iff. cbn [sscanf]. destruct (scan_space l) as [l'|].
  - split; [intros [= <-]; eauto|]. intros [_ ->]. reflexivity.
  - split; [discriminate|]. intros [(? & [=]) _].
Qed.
Lemma range_class l x : sscanf fmtRangeClass l = Some x <-> exists lo hi w, x = [VInt lo; VInt hi; VStr (encode_all w)] /\ RangeClass l lo hi w.
Proof.
  unfold fmtRangeClass, RangeClass. split.
  - intros H. apply hex_iff in H. destruct H as (s1 & a & lo & l1 & x1 & -> & G1 & S1 & N1 & -> & H).
    apply lit_iff in H. destruct H as (l2 & -> & H). apply lit_iff in H. destruct H as (l3 & -> & H).
    apply hex_iff in H. destruct H as (s2 & b & hi & l4 & x2 & -> & G2 & S2 & N2 & -> & H).
    apply lit_iff in H. destruct H as (l5 & -> & H). apply str_iff in H. destruct H as (s3 & w & l6 & x3 & -> & G3 & S3 & N3 & -> & H).
    apply end_iff in H. destruct H as [HE ->]. exists lo, hi, w. split; [reflexivity|]. exists s1, a, s2, b, s3, l6. auto 10.
  - intros (lo & hi & w & -> & s1 & a & s2 & b & s3 & tail & -> & G1 & S1 & G2 & S2 & G3 & HW & HE).
    apply hex_iff. eexists s1, a, lo, _, _. split; [reflexivity|]. split; [exact G1|]. split; [exact S1|]. split; [reflexivity|]. split; [reflexivity|].
    apply lit_iff. eexists. split; [reflexivity|]. apply lit_iff. eexists. split; [reflexivity|].
    apply hex_iff. eexists s2, b, hi, _, _. split; [reflexivity|]. split; [exact G2|]. split; [exact S2|]. split; [reflexivity|]. split; [reflexivity|].
    apply lit_iff. eexists. split; [reflexivity|]. apply str_iff. eexists s3, w, tail, _. split; [reflexivity|]. split; [exact G3|]. split; [exact HW|].
    split; [apply ends_space, HE|]. split; [reflexivity|]. apply end_iff. auto.
Qed.
Lemma one_class l x : sscanf fmtOneClass l = Some x <-> exists lo w, x = [VInt lo; VStr (encode_all w)] /\ OneClass l lo w.
Proof.
  unfold fmtOneClass, OneClass. split.
  - intros H. apply hex_iff in H. destruct H as (s1 & a & lo & l1 & x1 & -> & G1 & S1 & N1 & -> & H).
    apply lit_iff in H. destruct H as (l5 & -> & H). apply str_iff in H. destruct H as (s3 & w & l6 & x3 & -> & G3 & S3 & N3 & -> & H).
    apply end_iff in H. destruct H as [HE ->]. exists lo, w. split; [reflexivity|]. exists s1, a, s3, l6. auto 10.
  - intros (lo & w & -> & s1 & a & s3 & tail & -> & G1 & S1 & G3 & HW & HE).
    apply hex_iff. eexists s1, a, lo, _, _. split; [reflexivity|]. split; [exact G1|]. split; [exact S1|]. split; [reflexivity|]. split; [reflexivity|].
    apply lit_iff. eexists. split; [reflexivity|]. apply str_iff. eexists s3, w, tail, _. split; [reflexivity|]. split; [exact G3|]. split; [exact HW|].
    split; [apply ends_space, HE|]. split; [reflexivity|]. apply end_iff. auto.
Qed.
Lemma range_only l x : sscanf fmtRange l = Some x <-> exists lo hi, x = [VInt lo; VInt hi] /\ RangeOnly l lo hi.
Proof.
  unfold fmtRange, RangeOnly. split.
  - intros H. apply hex_iff in H. destruct H as (s1 & a & lo & l1 & x1 & -> & G1 & S1 & N1 & -> & H).
    apply lit_iff in H. destruct H as (l2 & -> & H). apply lit_iff in H. destruct H as (l3 & -> & H).
    apply hex_iff in H. destruct H as (s2 & b & hi & l4 & x2 & -> & G2 & S2 & N2 & -> & H).
    apply end_iff in H. destruct H as [HE ->]. exists lo, hi. split; [reflexivity|]. exists s1, a, s2, b, l4. auto 10.
  - intros (lo & hi & -> & s1 & a & s2 & b & tail & -> & G1 & S1 & G2 & S2 & HE).
    apply hex_iff. eexists s1, a, lo, _, _. split; [reflexivity|]. split; [exact G1|]. split; [exact S1|]. split; [reflexivity|]. split; [reflexivity|].
    apply lit_iff. eexists. split; [reflexivity|]. apply lit_iff. eexists. split; [reflexivity|].
    apply hex_iff. eexists s2, b, hi, tail, _. split; [reflexivity|]. split; [exact G2|]. split; [exact S2|]. split; [apply ends_nohex, HE|]. split; [reflexivity|].
    apply end_iff. auto.
Qed.
Lemma one_only l x : sscanf fmtOne l = Some x <-> exists lo, x = [VInt lo] /\ OneOnly l lo.
Proof.
  unfold fmtOne, OneOnly. split.
  - intros H. apply hex_iff in H. destruct H as (s1 & a & lo & l1 & x1 & -> & G1 & S1 & N1 & -> & H).
    apply end_iff in H. destruct H as [HE ->]. exists lo. split; [reflexivity|]. exists s1, a, l1. auto 10.
  - intros (lo & -> & s1 & a & tail & -> & G1 & S1 & HE).
    apply hex_iff. eexists s1, a, lo, tail, _. split; [reflexivity|]. split; [exact G1|]. split; [exact S1|]. split; [apply ends_nohex, HE|]. split; [reflexivity|].
    apply end_iff. auto.
Qed.
