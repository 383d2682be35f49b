(** * ScanProofs: the counting loop finds the escape sequences of EscapeSpec. *)
From Verif Require Import GoBase Utf8 Utf8Proofs Regex Width EscapeSpec RegexProofs.
From Coq Require Import ZifyBool ZifyNat.
Local Open Scope Z_scope.

Lemma app_split {A} (a b c d : list A) : a ++ b = c ++ d ->
  (exists l, a = c ++ l /\ d = l ++ b) \/ (exists l, c = a ++ l /\ b = l ++ d).
Proof.
  revert c. induction a as [|x a IH]; intros c E.
  - right. exists c. auto.
  - destruct c as [|y c]; cbn [app] in E.
    + left. exists (x :: a). auto.
    + injection E as -> E. destruct (IH c E) as [(l & -> & ->)|(l & -> & ->)]; [left|right]; exists l; auto.
Qed.

Lemma nbytes_nb l : nbytes l = nb l.
Proof. reflexivity. Qed.
Lemma text_bytes_nb l : text_bytes l = nb l.
Proof. reflexivity. Qed.

(** ** FindStringIndex *)

Lemma find_spec l : forall pos,
  match find_from ansiEscapeRE l pos with
  | Some (i, j) => exists pre m rest, l = pre ++ m ++ rest /\ FirstEscape pre m rest
                   /\ i = pos + nb pre /\ j = pos + nb pre + nb m
  | None => forall pre m rest, l = pre ++ m ++ rest -> ~ Escape (text_runes m)
  end.
Proof.
  induction l as [|(c, n) l IH]; intros pos.
  - cbn [find_from]. change (match_here ansiEscapeRE []) with (@None Z).
    intros pre m rest E. destruct pre; [|discriminate]. destruct m; [|discriminate].
    intros H. apply Escape_nonempty in H. apply H. reflexivity.
  - cbn [find_from]. unfold match_here.
    destruct (rests ansiEscapeRE ((c, n) :: l)) as [|rem tl] eqn:E.
    + pose proof (match_front_none _ E) as Hno. specialize (IH (pos + n)).
      destruct (find_from ansiEscapeRE l (pos + n)) as [(i, j)|].
      * destruct IH as (pre & m & rest & El & (H1 & H2 & H3) & Hi & Hj).
        exists ((c, n) :: pre), m, rest. split; [cbn [app]; congruence|]. split.
        { split; [exact H1|]. split; [|exact H3].
          intros pre' m' rest' E' Hm'. destruct pre' as [|x pre'].
          - exfalso. apply (Hno m' rest'); auto. cbn [app] in E'. rewrite <- E'. congruence.
          - cbn [app] in E'. injection E' as E1 E2. cbn [length]. apply le_n_S. eapply H2; eauto. }
        rewrite nb_cons. cbn [snd]. lia.
      * intros pre m rest E'. destruct pre as [|x pre].
        { cbn [app] in E'. apply (Hno m rest); auto. }
        cbn [app] in E'. injection E' as E1 E2. eapply IH; eauto.
    + destruct (match_front_some _ _ _ E) as (m & Em & Hm & Hl).
      exists [], m, rem. split; [exact Em|]. split.
      { split; [exact Hm|]. split; [intros; simpl; lia|]. rewrite <- Em. exact Hl. }
      change (nbytes ((c, n) :: l)) with (nb ((c, n) :: l)). change (nbytes rem) with (nb rem).
      rewrite Em, nb_app. change (nb []) with 0. lia.
Qed.

Lemma FindStringIndex_some s i j : FindStringIndex ansiEscapeRE s = Some (i, j) ->
  exists pre m rest, decode s = pre ++ m ++ rest /\ FirstEscape pre m rest
    /\ i = nb pre /\ j = nb pre + nb m.
Proof.
  intros H. pose proof (find_spec (decode s) 0) as K. unfold FindStringIndex in H.
  rewrite H in K. exact K.
Qed.

Lemma FindStringIndex_none s : FindStringIndex ansiEscapeRE s = None ->
  forall pre m rest, decode s = pre ++ m ++ rest -> ~ Escape (text_runes m).
Proof.
  intros H. pose proof (find_spec (decode s) 0) as K. unfold FindStringIndex in H.
  rewrite H in K. exact K.
Qed.

(** ** Determinism of scanning *)

Lemma app_length_inv {A} (a b c d : list A) : a ++ b = c ++ d -> length a = length c ->
  a = c /\ b = d.
Proof.
  revert c. induction a as [|x a IH]; intros [|y c] E L; try discriminate; auto.
  cbn [app] in E. injection E as -> E. injection L as L. destruct (IH c E L). subst. auto.
Qed.

Lemma FirstEscape_unique p1 m1 r1 p2 m2 r2 : p1 ++ m1 ++ r1 = p2 ++ m2 ++ r2 ->
  FirstEscape p1 m1 r1 -> FirstEscape p2 m2 r2 -> p1 = p2 /\ m1 = m2 /\ r1 = r2.
Proof.
  intros E (A1 & A2 & A3) (B1 & B2 & B3).
  assert (Lp : length p1 = length p2).
  { pose proof (A2 p2 m2 r2 E B1). pose proof (B2 p1 m1 r1 (eq_sym E) A1). lia. }
  destruct (app_length_inv _ _ _ _ E Lp) as [-> E2].
  assert (Lm : length m1 = length m2).
  { pose proof (A3 m2 r2 E2 B1). pose proof (B3 m1 r1 (eq_sym E2) A1). lia. }
  destruct (app_length_inv _ _ _ _ E2 Lm) as [-> ->]. auto.
Qed.

Lemma Scan_unique l a : Scan l a -> forall b, Scan l b -> a = b.
Proof.
  induction 1 as [l Hno|pre m rest ms HF HS IH]; intros b Hb.
  - inversion Hb as [|pre m rest ms HF HS]; subst; auto.
    exfalso. destruct HF as [H _]. eapply Hno; eauto.
  - remember (pre ++ m ++ rest) as l eqn:El. destruct Hb as [l Hno|pre' m' rest' ms' HF' HS'].
    + exfalso. destruct HF as [H _]. eapply Hno; eauto.
    + destruct (FirstEscape_unique _ _ _ _ _ _ El HF' HF) as (-> & -> & ->).
      f_equal. auto.
Qed.

(** ** The counting loop *)

Definition escape_cells (ms : list text) : Z := zsum (map (fun m => text_bytes m - 1) ms).

Lemma nb_decode_nonneg l s a b : decode s = a ++ l ++ b -> 0 <= nb l.
Proof.
  intros E. pose proof (decode_range s) as H. rewrite E in H.
  apply Forall_app in H. destruct H as [_ H]. apply Forall_app in H. destruct H as [H _].
  clear E. induction H as [|x l [_ Hx] Hl IH]; [unfold nb; simpl; lia|]. rewrite nb_cons. lia.
Qed.

Lemma nb_decode_ge l s a b : decode s = a ++ l ++ b -> Z.of_nat (length l) <= nb l.
Proof.
  intros E. pose proof (decode_range s) as H. rewrite E in H.
  apply Forall_app in H. destruct H as [_ H]. apply Forall_app in H. destruct H as [H _].
  clear E. induction H as [|x l [_ Hx] Hl IH]; [unfold nb; simpl; lia|]. rewrite nb_cons.
  cbn [length]. lia.
Qed.

Lemma loop_scan fuel : forall s start total, 0 <= start -> (length (drop start s) < fuel)%nat ->
  exists ms, Scan (decode (drop start s)) ms /\
    countMatches_loop fuel ansiEscapeRE s start total = Some (total + escape_cells ms).
Proof.
  induction fuel as [|f IH]; intros s start total H0 Hf; [lia|]. cbn [countMatches_loop].
  destruct (Z.ltb_spec start (slen s)) as [Hlt|Hge].
  - destruct (FindStringIndex ansiEscapeRE (drop start s)) as [(i, j)|] eqn:E.
    + destruct (FindStringIndex_some _ _ _ E) as (pre & m & rest & Ed & HF & -> & ->).
      rewrite app_assoc in Ed. destruct (decode_split _ _ _ Ed) as (p & q & Es & Hp & Hq & Hn).
      assert (Hnb : 0 <= nb pre /\ 1 <= nb m).
      { split.
        - apply (nb_decode_nonneg pre p [] m). cbn [app]. auto.
        - assert (2 <= length m)%nat.
          { destruct HF as [H _]. apply Escape_length2 in H. unfold text_runes in H.
            rewrite map_length in H. exact H. }
          pose proof (nb_decode_ge m p pre []) as K. rewrite app_nil_r in K. specialize (K Hp). lia. }
      rewrite nb_app in Hn.
      assert (Edrop : drop (start + (nb pre + nb m)) s = q).
      { rewrite <- drop_drop by lia. rewrite Es, <- Hn. apply drop_app_exact. }
      destruct (IH s (start + (nb pre + nb m)) (total + (nb pre + nb m - nb pre - 1))) as (ms & HS & Hc).
      { lia. }
      { rewrite Edrop. apply (f_equal (@length byte)) in Es. rewrite app_length in Es.
        unfold slen in Hn. lia. }
      exists (m :: ms). rewrite Edrop, Hq in HS. split.
      { rewrite Ed, <- app_assoc. constructor; auto. }
      rewrite Hc. f_equal. unfold escape_cells. cbn [map zsum fold_right].
      change (text_bytes m) with (nb m). fold (zsum (map (fun m0 => text_bytes m0 - 1) ms)). lia.
    + exists []. split.
      * constructor. apply FindStringIndex_none; auto.
      * unfold escape_cells. simpl. f_equal. lia.
  - exists []. split.
    + assert (drop start s = []) as -> by (unfold drop; apply skipn_all2; unfold slen in Hge; lia).
      constructor. intros pre m rest E. destruct pre; [|discriminate]. destruct m; [|discriminate].
      intros H. apply Escape_nonempty in H. apply H. reflexivity.
    + unfold escape_cells. simpl. f_equal. lia.
Qed.

Lemma count_scan s : exists ms, Scan (decode s) ms /\
  countMatchesLength_go ansiEscapeRE s = Some (escape_cells ms).
Proof.
  destruct (loop_scan (S (length s)) s 0 0 ltac:(lia)) as (ms & H1 & H2).
  { rewrite drop_0. lia. }
  rewrite drop_0 in H1. exists ms. split; [exact H1|]. exact H2.
Qed.

Lemma count_eq s ms : Scan (decode s) ms -> countMatchesLength ansiEscapeRE s = escape_cells ms.
Proof.
  intros H. destruct (count_scan s) as (ms' & H1 & H2). rewrite (Scan_unique _ _ H _ H1).
  unfold countMatchesLength. rewrite H2. reflexivity.
Qed.

Lemma Scan_exists_decode s : exists ms, Scan (decode s) ms.
Proof. destruct (count_scan s) as (ms & H & _). eauto. Qed.

Lemma escape_cells_app a b : escape_cells (a ++ b) = escape_cells a + escape_cells b.
Proof.
  unfold escape_cells. rewrite map_app. induction (map _ a) as [|x xs IH]; auto.
  cbn [app]. unfold zsum in *. cbn [fold_right]. lia.
Qed.

(** ** Shape of an escape sequence *)

(** Runes that may occur after the first one. *)
Definition TailChar (r : Z) : Prop := oneof digits r \/ oneof punctuation r \/ oneof finals r.

Lemma MoreParams_tail l : MoreParams l -> Forall TailChar l.
Proof.
  induction 1 as [|ds l [Hd _] Hl IH]; [constructor|]. constructor.
  - right. left. vm_compute. tauto.
  - apply Forall_app. split; auto. eapply Forall_impl; [|exact Hd]. intros; left; auto.
Qed.

Lemma Escape_shape w : Escape w -> exists i t, w = i :: t /\ (i = 0x1B \/ i = 0x9B) /\
  Forall TailChar t /\ t <> [].
Proof.
  destruct 1 as [i ps pr f Hi Hp Hpr Hf]. exists i, (ps ++ pr ++ [f]).
  split; [auto|]. split; [auto|]. split.
  - apply Forall_app. split. { eapply Forall_impl; [|exact Hp]. intros; right; left; auto. }
    apply Forall_app. split.
    + destruct Hpr as [|ds l [Hd _] Hl]; [constructor|]. apply Forall_app. split.
      * eapply Forall_impl; [|exact Hd]. intros; left; auto.
      * apply MoreParams_tail; auto.
    + constructor; [right; right; auto|constructor].
  - intros E. apply app_eq_nil in E. destruct E as [_ E]. apply app_eq_nil in E. destruct E. discriminate.
Qed.

Lemma TailChar_b r : TailChar r <->
  existsb (Z.eqb r) (map bv (lit digits) ++ map bv (lit punctuation) ++ map bv (lit finals)) = true.
Proof.
  unfold TailChar. rewrite !oneof_b, !existsb_app, !orb_true_iff. tauto.
Qed.

Lemma TailChar_range r : TailChar r -> 0x21 <= r <= 0x7E.
Proof.
  rewrite TailChar_b. intros H. rewrite existsb_exists in H. destruct H as (x & Hx & E).
  apply Z.eqb_eq in E. subst x. revert r Hx.
  assert (A : forallb (fun r => (0x21 <=? r) && (r <=? 0x7E))
    (map bv (lit digits) ++ map bv (lit punctuation) ++ map bv (lit finals)) = true)
    by (vm_compute; reflexivity).
  intros r Hx. rewrite forallb_forall in A. specialize (A r Hx). lia.
Qed.

(** ** Concatenation at a rune that cannot occur inside a sequence *)

Lemma no_cross (l1 : text) x l2 pre m rest : ~ TailChar (fst x) -> Escape (text_runes m) ->
  l1 ++ x :: l2 = pre ++ m ++ rest ->
  (exists r0, l1 = pre ++ m ++ r0 /\ rest = r0 ++ x :: l2) \/
  (exists p0, pre = l1 ++ p0 /\ x :: l2 = p0 ++ m ++ rest).
Proof.
  intros Hx Hm E. destruct (app_split _ _ _ _ E) as [(l & -> & El)|(l & -> & El)].
  - (* pre is inside l1 *)
    destruct (app_split _ _ _ _ El) as [(k & -> & Ek)|(k & -> & Ek)].
    + (* m = l ++ k, x :: l2 = k ++ rest *)
      destruct k as [|y k].
      * left. exists []. rewrite !app_nil_r. cbn [app] in Ek. auto.
      * cbn [app] in Ek. injection Ek as <- ->.
        destruct l as [|z l].
        { (* m starts at x *) right. exists []. rewrite !app_nil_r. split; reflexivity. }
        exfalso. unfold text_runes in Hm. cbn [app map] in Hm.
        apply Escape_shape in Hm. destruct Hm as (i & t & Et & _ & Ht & _). injection Et as _ <-.
        rewrite map_app in Ht. apply Forall_app in Ht. destruct Ht as [_ Ht].
        cbn [map] in Ht. inversion Ht; subst. contradiction.
    + left. exists k. auto.
  - right. exists l. auto.
Qed.

Lemma Scan_app l1 x l2 ms1 ms2 : ~ TailChar (fst x) ->
  Scan l1 ms1 -> Scan (x :: l2) ms2 -> Scan (l1 ++ x :: l2) (ms1 ++ ms2).
Proof.
  intros Hx H1 H2. induction H1 as [l Hno|pre m rest ms HF HS IH].
  - cbn [app]. remember (x :: l2) as l' eqn:El'. destruct H2 as [l' Hno'|pre m rest ms HF HS].
    + constructor. intros pre m rest E Hm. subst l'.
      destruct (no_cross _ _ _ _ _ _ Hx Hm E) as [(r0 & E1 & _)|(p0 & _ & E1)].
      * eapply Hno; eauto.
      * eapply Hno'; eauto.
    + rewrite app_assoc. constructor; auto. destruct HF as (A & B & C). split; [auto|]. split; [|auto].
      intros pre' m' rest' E Hm'. rewrite <- app_assoc in E. rewrite El' in E.
      destruct (no_cross _ _ _ _ _ _ Hx Hm' E) as [(r0 & E1 & _)|(p0 & -> & E1)].
      * exfalso. eapply Hno; eauto.
      * rewrite !app_length. rewrite <- El' in E1. specialize (B _ _ _ E1 Hm'). lia.
  - rewrite <- !app_assoc. cbn [app]. constructor; auto. destruct HF as (A & B & C).
    split; [auto|]. split.
    + intros pre' m' rest' E Hm'.
      assert (E' : (pre ++ m ++ rest) ++ x :: l2 = pre' ++ m' ++ rest')
        by (rewrite <- E, <- !app_assoc; reflexivity).
      destruct (no_cross _ _ _ _ _ _ Hx Hm' E') as [(r0 & E1 & _)|(p0 & -> & E1)].
      * eapply B; eauto.
      * rewrite !app_length. lia.
    + intros m' rest' E Hm'.
      assert (E' : (m ++ rest) ++ x :: l2 = [] ++ m' ++ rest')
        by (cbn [app]; rewrite <- E, <- !app_assoc; reflexivity).
      destruct (no_cross _ _ _ _ _ _ Hx Hm' E') as [(r0 & E1 & _)|(p0 & E0 & E1)].
      * cbn [app] in E1. eapply C; eauto.
      * symmetry in E0. apply app_eq_nil in E0. destruct E0 as [E0 _].
        apply app_eq_nil in E0. destruct E0 as [-> _]. apply Escape_nonempty in A. exfalso. apply A. reflexivity.
Qed.

(** A rune that cannot start a sequence either is skipped. *)
Lemma Scan_skip x l ms : ~ TailChar (fst x) -> fst x <> 0x1B -> fst x <> 0x9B ->
  Scan l ms -> Scan (x :: l) ms.
Proof.
  intros Hx H1 H2 H.
  assert (Hno : forall m rest, x :: l = m ++ rest -> ~ Escape (text_runes m)).
  { intros m rest E Hm. apply Escape_shape in Hm. destruct Hm as (i & t & Et & Hi & _).
    destruct m as [|y m]; [discriminate|]. cbn [app] in E. injection E as <- _.
    unfold text_runes in Et. cbn [map] in Et. injection Et as <- _. destruct Hi; contradiction. }
  destruct H as [l Hnone|pre m rest ms (A & B & C) HS].
  - constructor. intros pre m rest E Hm. destruct pre as [|y pre].
    + apply (Hno m rest E Hm).
    + cbn [app] in E. injection E as _ E. eapply Hnone; eauto.
  - change (x :: pre ++ m ++ rest) with ((x :: pre) ++ m ++ rest). constructor; auto.
    split; [auto|]. split; [|auto]. intros pre' m' rest' E Hm'. destruct pre' as [|y pre'].
    + exfalso. apply (Hno m' rest' E Hm').
    + cbn [app] in E. injection E as _ E. cbn [length]. apply le_n_S. eapply B; eauto.
Qed.

Lemma Scan_nil : Scan [] [].
Proof.
  constructor. intros pre m rest E Hm. destruct pre; [|discriminate]. destruct m; [|discriminate].
  apply Escape_nonempty in Hm. apply Hm. reflexivity.
Qed.

(** A text none of whose runes can start a sequence. *)
Lemma Scan_no_intro l : Forall (fun x => fst x <> 0x1B /\ fst x <> 0x9B) l -> Scan l [].
Proof.
  intros H. constructor. intros pre m rest E Hm. subst l.
  apply Forall_app in H. destruct H as [_ H]. apply Forall_app in H. destruct H as [H _].
  apply Escape_shape in Hm. destruct Hm as (i & t & Et & Hi & _).
  destruct m as [|y m]; [discriminate|]. unfold text_runes in Et. cbn [map] in Et. injection Et as <- _.
  inversion H; subst. destruct Hi; tauto.
Qed.

(** A sequence whose last rune can only be final, followed by anything. *)
Lemma Scan_hit m f rest ms : Escape (text_runes (m ++ [f])) ->
  ~ oneof digits (fst f) -> ~ oneof punctuation (fst f) ->
  Scan rest ms -> Scan ((m ++ [f]) ++ rest) ((m ++ [f]) :: ms).
Proof.
  intros Hm Hd Hp HS. apply (scan_next [] (m ++ [f]) rest ms); auto.
  split; [auto|]. split; [intros; simpl; lia|].
  intros m' rest' E Hm'. destruct (app_split _ _ _ _ E) as [(k & Ek & _)|(k & Ek & _)].
  - rewrite Ek, app_length. lia.
  - (* m' = (m ++ [f]) ++ k : f would be inside *)
    destruct k as [|y k]; [rewrite app_nil_r in Ek; subst; lia|]. exfalso. subst m'.
    unfold text_runes in Hm'. rewrite !map_app in Hm'. cbn [map] in Hm'.
    inversion Hm' as [i ps pr fin Hi Hps Hpr Hfin Heq]. clear Hm'.
    (* everything but the first and last rune is punctuation or digit *)
    assert (Hin : In (fst f) (ps ++ pr)).
    { destruct m as [|m0 m].
      - (* f would be the introducer *)
        exfalso. clear -Hm. apply Escape_length2 in Hm. simpl in Hm. lia.
      - cbn [map app] in Heq. injection Heq as _ Heq.
        rewrite app_assoc in Heq.
        replace (fst y :: map fst k) with (removelast (fst y :: map fst k) ++ [last (fst y :: map fst k) 0]) in Heq
          by (symmetry; apply app_removelast_last; congruence).
        rewrite !app_assoc in Heq. apply app_inj_tail in Heq. destruct Heq as [Heq _].
        rewrite Heq. rewrite !in_app_iff. left. right. simpl. auto. }
    apply in_app_or in Hin. destruct Hin as [Hin|Hin].
    + rewrite Forall_forall in Hps. auto.
    + assert (Hall : Forall (fun r => oneof digits r \/ r = 59) pr).
      { clear -Hpr. destruct Hpr as [|ds l [Hds _] Hl]; [constructor|]. apply Forall_app. split.
        - eapply Forall_impl; [|exact Hds]. auto.
        - induction Hl as [|d l [Hd _] Hl IH]; [constructor|]. constructor; auto.
          apply Forall_app. split; auto. eapply Forall_impl; [|exact Hd]. auto. }
      rewrite Forall_forall in Hall. destruct (Hall _ Hin) as [K|K]; [auto|].
      apply Hp. rewrite K. vm_compute. tauto.
Qed.
