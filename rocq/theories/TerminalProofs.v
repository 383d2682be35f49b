(** * TerminalProofs: what a terminal shows of measured and aligned text. *)
From Coq Require Import ZifyBool ZifyNat Strings.String.
From Verif Require Import GoBase Utf8 Utf8Proofs GraphemeSpec EscapeSpec TextSpec Runewidth ConditionSpec Width
  ScanProofs StringWidthProofs WidthProofs LocaleProofs AlignSpec AlignProofs RunewidthProofs Table TableContract TableOpsProofs TerminalSpec.
Local Open Scope Z_scope.

(** ** Text *)
Lemma stands_ground r : 0 <= r -> Stands r ->
  r <> 0x1B /\ r <> 0x9B /\ r <> 0x0A /\ r <> 0x0D /\ ~ r < 0x20 /\ ~ (0x7F <= r < 0xA0).
Proof.
  intros H0 H.
  assert (A : forallb (fun r => negb ((r <? 0x20) || (0x7F <=? r)) || match class r with CR | LF | Control => true | _ => false end)
                (zrange 0xA0) = true) by (vm_compute; reflexivity).
  rewrite forallb_forall in A.
  assert (K : ~ (r < 0x20 \/ 0x7F <= r < 0xA0)).
  { intros K. specialize (A r (zrange_in 0xA0 r ltac:(lia))).
    apply orb_true_iff in A. destruct A as [A|A]; [lia|].
    destruct H as [H|[H|[H|H]]]; rewrite H in A; discriminate. }
  lia.
Qed.

Lemma step_stands c r x st : 0 <= r -> Stands r -> step c (mkT Ground x st) r = mkT Ground (x + RuneWidth c r) st.
Proof.
  intros H0 H. destruct (stands_ground r H0 H) as (H1 & H2 & H3 & H4 & H5 & H6). unfold step. cbn [tMode tCol tStyle].
  destruct (Z.eqb_spec r 0x1B); [lia|]. destruct (Z.eqb_spec r 0x9B); [lia|].
  destruct (Z.eqb_spec r 0x0A); [lia|]. destruct (Z.eqb_spec r 0x0D); [lia|]. cbn [orb].
  destruct (Z.ltb_spec r 0x20); [lia|]. cbn [orb].
  destruct (Z.leb_spec 0x7F r); destruct (Z.ltb_spec r 0xA0); cbn [andb]; try lia; reflexivity.
Qed.

Lemma fold_stands c l : Forall (fun r => 0 <= r) l -> Forall Stands l -> forall x st,
  fold_left (step c) l (mkT Ground x st) = mkT Ground (x + zsum (map (RuneWidth c) l)) st.
Proof.
  induction l as [|r l IH]; intros H0 H x st.
  - cbn. f_equal. lia.
  - inversion H0; inversion H; subst. cbn [fold_left map]. rewrite step_stands by auto. rewrite IH by auto.
    f_equal. cbn [zsum fold_right map]. unfold zsum. lia.
Qed.

Lemma breaks_stands l a b : Stands a -> Stands b -> breaks (class a :: l) (class b) = true.
Proof.
  intros [H|[H|[H|H]]] [K|[K|[K|K]]]; rewrite H, K; reflexivity.
Qed.

Lemma swidth_stands c l : Reachable c -> Forall Stands l -> swidth c l = zsum (map (RuneWidth c) l).
Proof.
  intros Hc. induction l as [|r l IH] using rev_ind; intros H; [reflexivity|].
  apply Forall_app in H. destruct H as [H1 H2]. inversion H2; subst.
  rewrite swidth_app.
  - rewrite IH, swidth_single, map_app, zsum_app by (auto using Reachable_OK). cbn [map zsum fold_right]. lia.
  - destruct l as [|a l _] using rev_ind; [reflexivity|]. rewrite map_app, rev_app_distr. cbn [map rev app].
    apply Forall_app in H1. destruct H1 as [_ H1]. inversion H1; subst. apply breaks_stands; auto.
Qed.

Lemma stands_no_intro s : Forall Stands (runes s) -> Forall (fun r => ~ Introducer r) (runes s).
Proof.
  intros H. pose proof (runes_nonneg s) as H0. rewrite Forall_forall in *. intros r Hr.
  destruct (stands_ground r (H0 r Hr) (H r Hr)). unfold Introducer. lia.
Qed.

Lemma rawWidth_simple c s : Reachable c -> SimpleText s -> rawWidth c s = zsum (map (RuneWidth c) (runes s)).
Proof.
  intros Hc [Hv H]. unfold rawWidth. rewrite count_no_intro by (apply stands_no_intro; auto).
  rewrite StringWidth_swidth, swidth_stands by auto. lia.
Qed.

Lemma show_simple c s x st : Reachable c -> SimpleText s ->
  show c (mkT Ground x st) s = mkT Ground (x + rawWidth c s) st.
Proof.
  intros Hc [Hv H]. unfold show. rewrite fold_stands by (auto; apply runes_nonneg).
  rewrite rawWidth_simple by (try split; auto). reflexivity.
Qed.

(** ** Sequences *)
Lemma quiet_params l : Params l -> Forall (fun r => 0x20 <= r <= 0x3F) l.
Proof.
  assert (D : forall ds, Forall (oneof digits) ds -> Forall (fun r => 0x20 <= r <= 0x3F) ds).
  { intros ds. apply Forall_impl. intros r. unfold oneof. vm_compute (map bv (lit digits)). cbn [In]. lia. }
  assert (M : forall l, MoreParams l -> Forall (fun r => 0x20 <= r <= 0x3F) l).
  { induction 1 as [|ds l' [Hd _] _ IH]; [constructor|]. constructor; [lia|]. apply Forall_app. auto. }
  intros [|ds l' [Hd _] Hl]; [constructor|]. apply Forall_app; auto.
Qed.

Lemma fold_params c l : Forall (fun r => 0x20 <= r <= 0x3F) l -> forall acc x st,
  fold_left (step c) l (mkT (InCsi acc) x st) = mkT (InCsi (rev l ++ acc)) x st.
Proof.
  induction 1 as [|r l Hr Hl IH]; intros acc x st; [reflexivity|]. cbn [fold_left].
  unfold step at 2. cbn [tMode tCol tStyle].
  destruct (Z.leb_spec 0x20 r); [|lia]. destruct (Z.leb_spec r 0x3F); [|lia]. cbn [andb].
  rewrite IH. cbn [rev]. rewrite <- app_assoc. reflexivity.
Qed.

Lemma quiet_escseq e : Quiet e -> EscSequence e.
Proof.
  intros [ps params fin Hps Hpa Hf]. exists (x5b :: ps ++ params), fin. split; [reflexivity|].
  assert (F : oneof "mJKhl" (bv fin)) by exact Hf.
  unfold oneof in F. vm_compute (map bv (lit "mJKhl")) in F. split.
  - replace (map bv (x1b :: x5b :: (ps ++ params) ++ [fin]))
      with (0x1B :: map bv (x5b :: ps) ++ map bv params ++ [bv fin])
      by (cbn [map app]; rewrite !map_app, <- app_assoc; reflexivity).
    constructor; auto.
    + cbn [map]. constructor; [vm_compute; tauto|]. rewrite Forall_map. eapply Forall_impl; [|exact Hps].
      intros b. unfold oneof. vm_compute (map bv (lit ";?")). vm_compute (map bv (lit punctuation)). cbn [In]. tauto.
    + unfold oneof. vm_compute (map bv (lit finals)). cbn [In] in *. intuition lia.
  - unfold oneof. vm_compute (map bv (lit digits)). cbn [In] in *. intuition lia.
Qed.

Lemma runes_ascii_str s : ascii_str s -> runes s = map bv s.
Proof. intros H. unfold runes. rewrite decode_ascii_str by auto. rewrite map_map. reflexivity. Qed.

Lemma show_quiet c e : Quiet e -> exists st', forall x st, show c (mkT Ground x st) e = mkT Ground x (st' ++ st).
Proof.
  intros He. pose proof (EscSequence_ascii e (quiet_escseq e He)) as Ha.
  unfold show. rewrite runes_ascii_str by auto. destruct He as [ps params fin Hps Hpa Hf].
  unfold oneof in Hf. vm_compute (map bv (lit "mJKhl")) in Hf. cbn [In] in Hf.
  assert (HP : Forall (fun r => 0x20 <= r <= 0x3F) (map bv ps ++ map bv params)).
  { apply Forall_app. split; [|apply quiet_params; auto]. rewrite Forall_map. eapply Forall_impl; [|exact Hps].
    intros b. unfold oneof. vm_compute (map bv (lit ";?")). cbn [In]. lia. }
  exists (if bv fin =? 109 then [map bv ps ++ map bv params] else []). intros x st.
  cbn [map fold_left]. rewrite !map_app. cbn [map].
  change (step c (step c (mkT Ground x st) (bv x1b)) (bv x5b)) with (mkT (InCsi []) x st).
  rewrite fold_left_app, fold_params by exact HP.
  cbn [fold_left]. rewrite app_nil_r. generalize (map bv ps ++ map bv params). intros l.
  destruct Hf as [H|[H|[H|[H|[H|[]]]]]]; rewrite <- H; cbn; rewrite ?rev_involutive; reflexivity.
Qed.

(** ** Styled text *)
Lemma simple_not_joins s : SimpleText s -> ~ JoinsPrevious s /\ ~ JoinsNext s.
Proof.
  intros [_ H]. split.
  - intros (r & post & E & K). rewrite E in H. inversion H; subst.
    destruct H2 as [A|[A|[A|A]]]; rewrite A in K; intuition discriminate.
  - intros (pre & r & E & K). rewrite E in H. apply Forall_app in H. destruct H as [_ H]. inversion H; subst.
    destruct H2 as [A|[A|[A|A]]]; rewrite A in K; intuition discriminate.
Qed.

Lemma runes_valid_app a b : ValidUTF8 a -> runes (a ++ b) = runes a ++ runes b.
Proof. intros H. unfold runes. rewrite decode_valid_app, map_app by auto. reflexivity. Qed.

Lemma simple_app a b : SimpleText a -> SimpleText b -> SimpleText (a ++ b).
Proof.
  intros [Ha Sa] [Hb Sb]. split.
  - unfold ValidUTF8. rewrite decode_valid_app by auto. apply Forall_app; auto.
  - rewrite runes_valid_app by auto. apply Forall_app; auto.
Qed.

Lemma quiet_valid e : Quiet e -> ValidUTF8 e.
Proof.
  intros He. unfold ValidUTF8. rewrite decode_ascii_str by (apply EscSequence_ascii, quiet_escseq, He).
  rewrite Forall_map. apply Forall_forall. intros b _ K. injection K as K. pose proof (bv_range b). unfold RuneError in K. lia.
Qed.

Lemma quiet_class e l : Quiet e -> exists post, runes (e ++ l) = 0x1B :: post.
Proof.
  intros He. rewrite runes_valid_app by (apply quiet_valid; auto).
  rewrite runes_ascii_str by (apply EscSequence_ascii, quiet_escseq, He).
  destruct He. cbn [map app]. eexists. reflexivity.
Qed.

Lemma class_esc : class 0x1B = Control.
Proof. vm_compute. reflexivity. Qed.

Lemma styled_not_prev s : Styled s -> ~ JoinsPrevious s.
Proof.
  intros H (r & post & E & K). destruct H as [t Ht|t e s Ht He Hs].
  - apply (proj1 (simple_not_joins t Ht)). exists r, post. auto.
  - rewrite runes_valid_app in E by apply Ht. destruct (runes t) as [|r0 l] eqn:Er.
    + cbn [app] in E. destruct (quiet_class e s He) as (p & Ep). rewrite Ep in E. injection E as <- _.
      rewrite class_esc in K. intuition discriminate.
    + cbn [app] in E. injection E as -> _. apply (proj1 (simple_not_joins t Ht)). exists r, l. auto.
Qed.

Lemma styled_valid s : Styled s -> ValidUTF8 s.
Proof.
  induction 1 as [t [Ht _]|t e s [Ht _] He Hs IH]; auto. unfold ValidUTF8.
  rewrite decode_valid_app by auto. apply Forall_app. split; auto.
  rewrite decode_valid_app by (apply quiet_valid; auto). apply Forall_app. split; auto. apply quiet_valid; auto.
Qed.

Lemma quiet_runes_printable e : Quiet e -> exists post, runes e = 0x1B :: post /\ Forall (fun r => 0x20 <= r <= 0x7E) post.
Proof.
  intros He. pose proof (quiet_escseq e He) as (body & fin & Ee & HE & _).
  rewrite runes_ascii_str by (apply EscSequence_ascii, quiet_escseq, He).
  destruct (Escape_shape _ HE) as (i & t & E & _ & Ht & _). rewrite Ee in E |- *. cbn [map] in *. injection E as _ E.
  exists (map bv (body ++ [fin])). split; auto. rewrite E. eapply Forall_impl; [|exact Ht].
  intros r Hr. apply TailChar_range in Hr. lia.
Qed.

Lemma styled_not_next s : Styled s -> ~ JoinsNext s.
Proof.
  induction 1 as [t Ht|t e s Ht He Hs IH]; [apply simple_not_joins; auto|].
  intros (pre & r & E & K).
  destruct (runes s) as [|x l _] eqn:Er using rev_ind.
  - rewrite runes_valid_app in E by apply Ht. rewrite runes_valid_app in E by (apply quiet_valid; auto).
    rewrite Er, app_nil_r in E. destruct (quiet_runes_printable e He) as (post & Ep & HP). rewrite Ep in E.
    assert (H : r = 0x1B \/ 0x20 <= r <= 0x7E).
    { destruct (post) as [|y q _] using rev_ind.
      - apply app_inj_tail in E. destruct E as [_ <-]. auto.
      - rewrite app_comm_cons, app_assoc in E. apply app_inj_tail in E. destruct E as [_ <-].
        apply Forall_app in HP. destruct HP as [_ HP]. inversion HP; auto. }
    destruct H as [->|H]; [rewrite class_esc in K|rewrite class_printable in K by auto]; discriminate.
  - rewrite runes_valid_app in E by apply Ht. rewrite runes_valid_app in E by (apply quiet_valid; auto).
    rewrite Er, !app_assoc in E. apply app_inj_tail in E. destruct E as [_ <-]. apply IH. exists l, x. auto.
Qed.

Lemma show_app c t a b : ValidUTF8 a -> show c t (a ++ b) = show c (show c t a) b.
Proof. intros H. unfold show. rewrite runes_valid_app, fold_left_app by auto. reflexivity. Qed.

Lemma show_styled c s : Reachable c -> Styled s -> exists st', forall x st,
  show c (mkT Ground x st) s = mkT Ground (x + rawWidth c s) (st' ++ st).
Proof.
  intros Hc. induction 1 as [t Ht|t e s Ht He Hs (s2 & IH)].
  - exists []. intros. apply show_simple; auto.
  - destruct (show_quiet c e He) as (s1 & E1). exists (s2 ++ s1). intros x st.
    rewrite show_app by apply Ht. rewrite show_simple by auto. rewrite show_app by (apply quiet_valid; auto).
    rewrite E1, IH, <- app_assoc. f_equal.
    rewrite rawWidth_sequence by (auto using quiet_escseq, styled_not_prev). lia.
Qed.

Lemma styled_app a b : Styled a -> Styled b -> Styled (a ++ b).
Proof.
  induction 1 as [t Ht|t e s Ht He Hs IH]; intros Hb.
  - destruct Hb as [t' Ht'|t' e s Ht' He Hs].
    + constructor. apply simple_app; auto.
    + rewrite app_assoc. apply st_more; auto. apply simple_app; auto.
  - rewrite <- !app_assoc. apply st_more; auto.
Qed.

Lemma rawWidth_styled_app c a b : Reachable c -> Styled a -> Styled b ->
  rawWidth c (a ++ b) = rawWidth c a + rawWidth c b.
Proof.
  intros Hc Ha Hb.
  destruct (show_styled c (a ++ b) Hc (styled_app a b Ha Hb)) as (s1 & E1). specialize (E1 0 []).
  rewrite show_app in E1 by (apply styled_valid; auto).
  destruct (show_styled c a Hc Ha) as (s2 & E2). rewrite E2 in E1.
  destruct (show_styled c b Hc Hb) as (s3 & E3). rewrite E3 in E1.
  injection E1 as E1 _. lia.
Qed.

Lemma spaces_simple n : SimpleText (spaces n).
Proof.
  split.
  - unfold ValidUTF8. rewrite decode_ascii_str by apply spaces_ascii. rewrite Forall_map. apply Forall_forall.
    intros b _ K. injection K as K. pose proof (bv_range b). unfold RuneError in K. lia.
  - rewrite runes_spaces. apply Forall_forall. intros r H. apply repeat_spec in H. subst. left. apply class_space.
Qed.

Lemma styled_paddable a s : Styled s -> Paddable a s.
Proof. intros H. destruct a; cbn; auto using styled_not_prev, styled_not_next. Qed.

Lemma styled_align a c s w : 0 <= w < 65536 -> Styled s -> Styled (align a c s w).
Proof.
  intros Hw H. destruct (align_spaces a c s w Hw) as (l & r & -> & _).
  apply styled_app; [constructor; apply spaces_simple|]. apply styled_app; auto. constructor; apply spaces_simple.
Qed.

Lemma align_style a c s w x st : Reachable c -> 0 <= w < 65536 -> Styled s ->
  tStyle (show c (mkT Ground x st) (align a c s w)) = tStyle (show c (mkT Ground x st) s).
Proof.
  intros Hc Hw H. destruct (align_spaces a c s w Hw) as (l & r & -> & _).
  destruct (show_styled c s Hc H) as (s1 & E1).
  rewrite show_app by apply (spaces_simple l). rewrite show_simple by (auto using spaces_simple).
  rewrite show_app by (apply styled_valid; auto). rewrite !E1. rewrite show_simple by (auto using spaces_simple).
  reflexivity.
Qed.

Lemma styled_nonneg c s : Reachable c -> Styled s -> 0 <= rawWidth c s.
Proof.
  intros Hc. induction 1 as [t Ht|t e s Ht He Hs IH].
  2: rewrite rawWidth_sequence by (auto using quiet_escseq, styled_not_prev).
  all: rewrite rawWidth_simple by auto.
  all: assert (0 <= zsum (map (RuneWidth c) (runes t))); [|lia].
  all: induction (runes t) as [|r l IHl]; [reflexivity|]; cbn [map]; unfold zsum in *; cbn [fold_right];
    pose proof (Reachable_OK c Hc r); lia.
Qed.

(** ** Rows *)
Lemma show_concat c l : Reachable c -> Forall Styled l -> forall x st, exists st',
  show c (mkT Ground x st) (List.concat l) = mkT Ground (x + zsum (map (rawWidth c) l)) st'.
Proof.
  intros Hc. induction 1 as [|s l Hs Hl IH]; intros x st.
  - exists st. cbn. f_equal. lia.
  - cbn [List.concat map]. rewrite show_app by (apply styled_valid; auto).
    destruct (show_styled c s Hc Hs) as (s1 & ->). destruct (IH (x + rawWidth c s) (s1 ++ st)) as (s2 & ->).
    exists s2. f_equal. unfold zsum. cbn [fold_right]. lia.
Qed.

Section Rows.
Context {Item Val E : Type}.
Notation TSpec := (TableSpec Item Val E).

Lemma rows_shown c (spec : option TSpec) ops items t' rows cols sep :
  Reachable c -> Forall uint16_op ops ->
  Formats c (table_run (NewTable spec) ops) items t' rows ->
  Columns (tSpec (table_run (NewTable spec) ops)) = map Some cols ->
  Forall (fun col => exists a, colAlignment col = Some (align a c)) cols ->
  Forall (Forall (fun cell => Styled cell /\ rawWidth c cell < 65536)) rows -> Styled sep ->
  forall row, In row rows -> exists cells, AlignFormattedItem t' row = (cells, Ok cells)
    /\ List.length cells = List.length cols
    /\ forall n, exists st, show c home (List.concat (map (fun cell => cell ++ sep) (firstn n cells)))
        = mkT Ground (zsum (map (fun col => Width t' (colName col) + rawWidth c sep) (firstn n cols))) st.
Proof.
  intros Hc HU HF HC HA HR Hsep row Hin.
  destruct (run_table_range spec ops HU) as [Hm Hr0].
  pose proof (Formats_range c _ items t' rows Hm HF Hr0) as Hr.
  destruct (Formats_spec c _ items t' rows Hm HF) as (_ & Hs & _ & _ & HG).
  rewrite Forall_forall in HG, HR. destruct (HG row Hin) as (HL & Hn & Hw). specialize (HR row Hin).
  rewrite <- Hs in HL, Hn. destruct (Align_good t' row HL Hn) as (cells & E0 & HLc & Hcells).
  exists cells. split; auto. rewrite Hs, HC in HL, Hcells. rewrite map_length in HL. split; [congruence|].
  assert (Hcell : Forall2 (fun col cell => Styled cell /\ rawWidth c cell = Width t' (colName col)) cols cells).
  { assert (K : forall i col, nth_error cols i = Some col -> exists cell,
              nth_error cells i = Some cell /\ Styled cell /\ rawWidth c cell = Width t' (colName col)).
    { intros i col Hi. destruct (nth_error row i) as [s|] eqn:Ei.
      2:{ exfalso. apply nth_error_None in Ei. assert (nth_error cols i <> None) by congruence.
          apply nth_error_Some in H. lia. }
      assert (Hi' : nth_error (map Some cols) i = Some (Some col)) by (rewrite nth_error_map, Hi; reflexivity).
      specialize (Hcells i col s Hi' Ei).
      rewrite Forall_forall in HA. destruct (HA col (nth_error_In _ _ Hi)) as (a & Ha). rewrite Ha in Hcells.
      rewrite Forall_forall in HR. destruct (HR s (nth_error_In _ _ Ei)) as [HSs Hlt].
      assert (Hle : vwidth c s <= Width t' (colName col)).
      { apply Hw. rewrite HC. exists i, col, s. auto. }
      specialize (Hr (colName col)).
      exists (align a c s (Width t' (colName col))). split; auto. split; [apply styled_align; auto|].
      rewrite align_rawWidth by (auto using styled_paddable).
      assert (0 <= rawWidth c s) by (apply styled_nonneg; auto).
      assert (vwidth c s = rawWidth c s) by (unfold vwidth; unfold u16; apply Z.mod_small; lia). lia. }
    assert (HL' : List.length cells = List.length cols) by congruence. clear - K HL'.
    revert cells HL' K. induction cols as [|col cols IH]; intros cells HL' K.
    - destruct cells; [constructor|discriminate].
    - destruct cells as [|cell cells]; [discriminate|]. constructor.
      + destruct (K 0%nat col eq_refl) as (cell' & E1 & H). injection E1 as <-. exact H.
      + apply IH; [cbn in HL'; lia|]. intros i col' Hi. destruct (K (S i) col' Hi) as (cell' & E2 & H).
        exists cell'. auto. }
  intros n. assert (HF2 : Forall2 (fun col cell => Styled cell /\ rawWidth c cell = Width t' (colName col)) (firstn n cols) (firstn n cells)).
  { clear - Hcell. revert n. induction Hcell; intros [|n]; cbn; constructor; auto. }
  assert (K : Forall Styled (map (fun cell => cell ++ sep) (firstn n cells))
    /\ map (rawWidth c) (map (fun cell => cell ++ sep) (firstn n cells))
       = map (fun col => Width t' (colName col) + rawWidth c sep) (firstn n cols)).
  { clear - HF2 Hc Hsep. induction HF2 as [|col cell cs ss [H1 H2] _ [IH1 IH2]]; [split; [constructor|reflexivity]|].
    split; [constructor; auto using styled_app|]. cbn [map]. rewrite IH2. f_equal.
    rewrite rawWidth_styled_app by auto. lia. }
  destruct K as [K1 K2].
  destruct (show_concat c _ Hc K1 0 []) as (st & Est). exists st. unfold home. rewrite Est, K2. f_equal.
Qed.
End Rows.

(** ** Which attribute sequences measure nothing *)
Definition isdig (r : Z) : bool := (48 <=? r) && (r <=? 57).
Lemma digit_b r : oneof digits r <-> isdig r = true.
Proof. unfold oneof, isdig. vm_compute (map bv (lit digits)). cbn [In]. lia. Qed.

Fixpoint runs_ok (k : nat) (l : list Z) : Prop :=
  match l with
  | [] => True
  | r :: l => if isdig r then (k < 4)%nat /\ runs_ok (S k) l else runs_ok 0 l
  end.

Lemma runs_ok_digits ds : forall k post, Forall (oneof digits) ds -> (k <= 4)%nat -> runs_ok k (ds ++ post) ->
  (k + List.length ds <= 4)%nat.
Proof.
  induction ds as [|d ds IH]; intros k post Hd Hk H; [cbn; lia|]. inversion Hd as [|? ? H1 H2]; subst.
  cbn [app runs_ok] in H. apply digit_b in H1. rewrite H1 in H. destruct H as [H3 H4].
  specialize (IH (S k) post H2 ltac:(lia) H4). cbn [List.length]. lia.
Qed.

Lemma runs_ok_short l : forall k pre ds post, runs_ok k l -> (k <= 4)%nat -> l = pre ++ ds ++ post ->
  Forall (oneof digits) ds -> (List.length ds <= 4)%nat.
Proof.
  induction l as [|r l IH]; intros k pre ds post H Hk E Hd.
  - symmetry in E. apply app_eq_nil in E. destruct E as [_ E]. apply app_eq_nil in E. destruct E as [-> _]. cbn. lia.
  - destruct pre as [|x pre].
    + cbn [app] in E. rewrite E in H. pose proof (runs_ok_digits ds k post Hd Hk H). lia.
    + injection E as -> E. cbn [runs_ok] in H. destruct (isdig x).
      * destruct H as [H1 H2]. eapply (IH (S k)); eauto; lia.
      * eapply (IH 0%nat); eauto; lia.
Qed.

Lemma runs_ok_app ds l : forall k, Forall (oneof digits) ds -> (k + List.length ds <= 4)%nat ->
  (forall j, runs_ok j l) -> runs_ok k (ds ++ l).
Proof.
  induction ds as [|d ds IH]; intros k Hd Hk Hl; [apply Hl|]. inversion Hd as [|? ? H1 H2]; subst.
  cbn [app runs_ok List.length] in *. apply digit_b in H1. rewrite H1. split; [lia|]. apply IH; auto. lia.
Qed.

Lemma runs_ok_more l : MoreParams l -> forall j, runs_ok j l.
Proof.
  induction 1 as [|ds l [Hd HL] Hl IH]; intros j; [exact Logic.I|]. cbn [runs_ok].
  change (isdig 59) with false. cbn iota. apply runs_ok_app; auto.
Qed.

Lemma runs_ok_params l : Params l -> runs_ok 0 l.
Proof. intros [|ds l' [Hd HL] Hl]; [exact Logic.I|]. apply runs_ok_app; [auto|lia|]. apply runs_ok_more; auto. Qed.

Lemma runs_ok_punct ps l : Forall (oneof punctuation) ps -> runs_ok 0 l -> runs_ok 0 (ps ++ l).
Proof.
  intros H Hl. induction H as [|p ps Hp Hps IH]; [auto|]. cbn [app runs_ok].
  replace (isdig p) with false; auto. unfold oneof in Hp. vm_compute (map bv (lit punctuation)) in Hp. cbn [In] in Hp.
  unfold isdig. lia.
Qed.

Lemma more_chars l : MoreParams l -> Forall (fun r => oneof "0123456789;" r) l.
Proof.
  induction 1 as [|ds l [Hd _] _ IH]; [constructor|]. constructor; [vm_compute; tauto|]. apply Forall_app. split; auto.
  eapply Forall_impl; [|exact Hd]. intros r. unfold oneof. vm_compute (map bv (lit digits)).
  vm_compute (map bv (lit "0123456789;")). cbn [In]. tauto.
Qed.
Lemma params_chars l : Params l -> Forall (fun r => oneof "0123456789;" r) l.
Proof.
  intros [|ds l' [Hd _] Hl]; [constructor|]. apply Forall_app. split; [|apply more_chars; auto].
  eapply Forall_impl; [|exact Hd]. intros r. unfold oneof. vm_compute (map bv (lit digits)).
  vm_compute (map bv (lit "0123456789;")). cbn [In]. tauto.
Qed.

Lemma escape_short p : Forall (fun b => oneof "0123456789;:" (bv b)) p ->
  Escape (map bv (x1b :: x5b :: p ++ [x6d])) -> ShortNumbers p.
Proof.
  intros Hp HE. remember (map bv (x1b :: x5b :: p ++ [x6d])) as w eqn:Ew. destruct HE as [i ps params fin Hi Hps Hpa Hf].
  cbn [map] in Ew. rewrite map_app in Ew. cbn [map] in Ew. injection Ew as _ Ew.
  assert (E1 : ps ++ params = 0x5B :: map bv p).
  { rewrite app_assoc in Ew. change (bv x5b :: map bv p ++ [bv x6d]) with ((0x5B :: map bv p) ++ [bv x6d]) in Ew.
    apply app_inj_tail in Ew. tauto. }
  destruct ps as [|q ps].
  { exfalso. cbn [app] in E1. pose proof (params_chars params Hpa) as K. rewrite E1 in K. inversion K as [|? ? K1 _].
    revert K1. unfold oneof. vm_compute (map bv (lit "0123456789;")). cbn [In]. lia. }
  cbn [app] in E1. injection E1 as _ E1. inversion Hps as [|? ? _ Hps']; subst.
  pose proof (runs_ok_punct ps params Hps' (runs_ok_params params Hpa)) as HK. rewrite E1 in HK.
  split.
  - assert (HC : Forall (fun r => oneof "0123456789;" r \/ oneof punctuation r) (map bv p)).
    { rewrite <- E1. apply Forall_app. split.
      - eapply Forall_impl; [|exact Hps']. auto.
      - eapply Forall_impl; [|apply params_chars; exact Hpa]. auto. }
    rewrite Forall_map in HC. rewrite Forall_forall in *. intros b Hb. specialize (HC b Hb). specialize (Hp b Hb).
    revert HC Hp. unfold oneof. vm_compute (map bv (lit "0123456789;")). vm_compute (map bv (lit "0123456789;:")).
    vm_compute (map bv (lit punctuation)). cbn [In]. lia.
  - intros pre ds post E2 Hd. rewrite E2, !map_app in HK. rewrite <- (map_length bv).
    eapply (runs_ok_short _ 0 (map bv pre) (map bv ds) (map bv post)); [exact HK|lia|reflexivity|]. rewrite Forall_map. exact Hd.
Qed.

Lemma short_tail b p : ShortNumbers (b :: p) -> ShortNumbers p.
Proof.
  intros [H1 H2]. inversion H1; subst. split; auto. intros pre ds post E Hd. apply (H2 (b :: pre) ds post); auto.
  cbn. congruence.
Qed.
Lemma short_split p : ShortNumbers p -> exists ds more, p = ds ++ more /\ Digits0 (map bv ds) /\ MoreParams (map bv more).
Proof.
  induction p as [|b p IH]; intros H.
  - exists [], []. split; [reflexivity|]. split; [split; [constructor|cbn; lia]|constructor].
  - destruct (IH (short_tail b p H)) as (ds & more & E & [Hd HL] & Hm). destruct H as [H1 H2].
    inversion H1 as [|? ? Hb _]; subst. destruct (isdig (bv b)) eqn:D.
    + apply digit_b in D. exists (b :: ds), more. split; auto. split; auto.
      split; [cbn; constructor; auto|]. rewrite map_length. apply (H2 [] (b :: ds) more); auto.
      constructor; auto. rewrite Forall_map in Hd. exact Hd.
    + exists [], (b :: ds ++ more). split; auto. split; [split; [constructor|cbn; lia]|].
      cbn [map]. rewrite map_app.
      assert (E : bv b = 59).
      { revert Hb D. unfold oneof, isdig. vm_compute (map bv (lit "0123456789;")). cbn [In]. lia. }
      rewrite E. constructor; auto. split; auto.
Qed.

Lemma short_params p : ShortNumbers p -> exists ps params, p = ps ++ params
  /\ Forall (fun b => oneof ";?" (bv b)) ps /\ Params (map bv params).
Proof.
  induction p as [|b p IH]; intros H; [exists [], []; split; [reflexivity|split; constructor]|].
  destruct (isdig (bv b)) eqn:D.
  - destruct (short_split (b :: p) H) as (ds & more & E & [Hd HL] & Hm).
    exists [], (b :: p). split; auto. split; [constructor|]. rewrite E, map_app. constructor; auto. split; auto.
    split; auto. destruct ds as [|d ds]; [|cbn; lia]. exfalso. cbn [app] in E. subst more.
    cbn [map] in Hm. inversion Hm as [|? ? ? ? E1]. rewrite <- E1 in D. discriminate.
  - destruct (IH (short_tail b p H)) as (ps & params & E & H1 & H2). exists (b :: ps), params.
    split; [cbn; congruence|]. split; auto. constructor; auto. destruct H as [H _]. inversion H as [|? ? Hb _]; subst.
    revert Hb D. unfold oneof, isdig. vm_compute (map bv (lit "0123456789;")). vm_compute (map bv (lit ";?")). cbn [In]. lia.
Qed.

Lemma short_quiet p : ShortNumbers p -> Quiet (x1b :: x5b :: p ++ [x6d]).
Proof.
  intros H. destruct (short_params p H) as (ps & params & -> & H1 & H2). apply quiet; auto. vm_compute. tauto.
Qed.

Lemma quiet_zero c e : Reachable c -> Quiet e -> rawWidth c e = 0.
Proof.
  intros Hc He. pose proof (rawWidth_sequence c [] e [] Hc (quiet_escseq e He)) as K. cbn [app] in K. rewrite app_nil_r in K.
  rewrite K; [reflexivity|]. intros (r & post & E & _). discriminate.
Qed.

Lemma esc_width c : Reachable c -> RuneWidth c 0x1B = 0.
Proof. intros Hc. destruct (Reachable_width c Hc) as (ea & st & ->). destruct ea, st; vm_compute; reflexivity. Qed.

Lemma StringWidth_esc c s : Reachable c -> Forall (fun b => 0x20 <= bv b <= 0x7E) s ->
  StringWidth c (x1b :: s) = slen s.
Proof.
  intros Hc H. change (x1b :: s) with ([x1b] ++ s). rewrite StringWidth_app.
  - assert (E1 : StringWidth c [x1b] = 0).
    { rewrite StringWidth_swidth. change (runes [x1b]) with [0x1B]. rewrite swidth_single by (apply Reachable_OK; auto).
      apply esc_width; auto. }
    rewrite E1. pose proof (rawWidth_printable c s Hc H) as K. unfold rawWidth in K. rewrite count_no_intro in K; [lia|].
    rewrite printable_runes by auto. rewrite Forall_map. eapply Forall_impl; [|exact H]. unfold Introducer. cbn. lia.
  - apply decode_ascii_app. constructor; [reflexivity|constructor].
  - intros r l _. change (runes [x1b]) with [0x1B]. cbn [map rev app]. rewrite class_esc. cbn. destruct (class r); reflexivity.
Qed.

(** One introducer, at the start: at most one sequence is found, a prefix. *)
Lemma one_intro_zero c s : Reachable c -> Forall (fun b => 0x20 <= bv b <= 0x7E) s -> s <> [] ->
  rawWidth c (x1b :: s) = 0 -> Escape (map bv (x1b :: s)).
Proof.
  intros Hc Hs Hne H0. unfold rawWidth in H0. rewrite StringWidth_esc in H0 by auto.
  assert (Ha : ascii_str (x1b :: s)).
  { constructor; [reflexivity|]. eapply Forall_impl; [|exact Hs]. cbn. lia. }
  destruct (Scan_exists_decode (x1b :: s)) as (ms & HS). rewrite (count_eq _ ms HS) in H0.
  rewrite (decode_ascii_str _ Ha) in HS.
  assert (Hpos : 0 < slen s) by (destruct s; [congruence|unfold slen; cbn [List.length]; lia]).
  remember (map (fun b => (bv b, 1)) (x1b :: s)) as d eqn:Ed.
  assert (Hlen : forall a m b, d = a ++ m ++ b -> text_bytes m = slen m).
  { intros a m b E. unfold text_bytes, slen.
    assert (K : Forall (fun x => snd x = 1) m).
    { assert (K : Forall (fun x : Z * Z => snd x = 1) d) by (rewrite Ed; apply Forall_map, Forall_forall; reflexivity).
      rewrite E in K. apply Forall_app in K. destruct K as [_ K]. apply Forall_app in K. tauto. }
    clear - K. induction K as [|x l Hx Hl IH]; [reflexivity|]. cbn [map List.length]. unfold zsum in *. cbn [fold_right]. lia. }
  destruct HS as [d Hno|pre m rest ms HF HS].
  - cbn in H0. lia.
  - destruct HF as (HE & _ & _). destruct (Escape_shape _ HE) as (i & t & Et & Hi & _ & Htne).
    assert (Hpre : pre = []).
    { destruct pre as [|x pre]; [reflexivity|]. exfalso. cbn [map app] in Ed. injection Ed as _ Ed.
      assert (K : In i (map fst (pre ++ m ++ rest))).
      { rewrite !map_app. apply in_or_app. right. apply in_or_app. left. unfold text_runes in Et. rewrite Et. left. auto. }
      rewrite Ed, map_map in K. apply in_map_iff in K. destruct K as (b & <- & Hb).
      rewrite Forall_forall in Hs. specialize (Hs b Hb). cbn [fst] in Hi. lia. }
    subst pre. cbn [app] in *. pose proof (Hlen [] m rest eq_refl) as Hm.
    assert (Hms : ms = []).
    { destruct HS as [|pre' m' rest' ms' (HE' & _ & _) _]; [reflexivity|]. exfalso.
      destruct (Escape_shape _ HE') as (i' & t' & Et' & Hi' & _).
      destruct m as [|x m]; [discriminate|]. cbn [map app] in Ed. injection Ed as _ Ed.
      assert (K : In i' (map fst (m ++ pre' ++ m' ++ rest'))).
      { rewrite !map_app. apply in_or_app. right. apply in_or_app. right. apply in_or_app. left.
        unfold text_runes in Et'. rewrite Et'. left. auto. }
      rewrite Ed, map_map in K. apply in_map_iff in K. destruct K as (b & <- & Hb).
      rewrite Forall_forall in Hs. specialize (Hs b Hb). cbn [fst] in Hi'. lia. }
    subst ms. unfold escape_cells in H0. cbn [map] in H0. unfold zsum in H0. cbn [fold_right] in H0. rewrite Hm in H0.
    assert (HL : List.length (m ++ rest) = S (List.length s)) by (rewrite Ed; cbn [map List.length]; rewrite map_length; auto).
    rewrite app_length in HL. unfold slen in *.
    destruct rest as [|x rest]; [|cbn [List.length] in HL; lia]. rewrite app_nil_r in Ed. subst m.
    unfold text_runes in HE. rewrite map_map in HE. exact HE.
Qed.

Lemma attribute_zero c p : Reachable c -> Forall (fun b => oneof "0123456789;:" (bv b)) p ->
  (rawWidth c (x1b :: x5b :: p ++ [x6d]) = 0 <-> ShortNumbers p).
Proof.
  intros Hc Hp. split.
  - intros H. apply escape_short; auto. apply (one_intro_zero c); auto; [|discriminate].
    constructor; [vm_compute; split; discriminate|]. apply Forall_app. split.
    + eapply Forall_impl; [|exact Hp]. intros b. unfold oneof. vm_compute (map bv (lit "0123456789;:")). cbn [In]. lia.
    + constructor; [vm_compute; split; discriminate|constructor].
  - intros H. apply quiet_zero; auto. apply short_quiet; auto.
Qed.

Lemma measured c s x st : Reachable c -> Styled s -> rawWidth c s < 65536 ->
  exists st', show c (mkT Ground x st) s = mkT Ground (x + vwidth c s) (st' ++ st).
Proof.
  intros Hc Hs Hw. destruct (show_styled c s Hc Hs) as (st' & E1). exists st'. rewrite E1. f_equal. f_equal.
  pose proof (styled_nonneg c s Hc Hs). unfold vwidth, u16. symmetry. apply Z.mod_small. lia.
Qed.

Lemma aligned_shown a c s w x st : Reachable c -> Styled s -> rawWidth c s < 65536 -> 0 <= w < 65536 ->
  tMode (show c (mkT Ground x st) (align a c s w)) = Ground
  /\ tCol (show c (mkT Ground x st) (align a c s w)) = Z.max w (tCol (show c (mkT Ground 0 st) s)) + x
  /\ tStyle (show c (mkT Ground x st) (align a c s w)) = tStyle (show c (mkT Ground x st) s).
Proof.
  intros Hc Hs Hr Hw. destruct (show_styled c _ Hc (styled_align a c s w Hw Hs)) as (s1 & E1).
  split; [rewrite E1; reflexivity|]. split; [|apply align_style; auto].
  destruct (show_styled c s Hc Hs) as (s2 & E2). rewrite E1, E2. cbn [tCol].
  rewrite align_rawWidth by (auto using styled_paddable). pose proof (styled_nonneg c s Hc Hs).
  assert (vwidth c s = rawWidth c s) by (unfold vwidth, u16; apply Z.mod_small; lia). lia.
Qed.
