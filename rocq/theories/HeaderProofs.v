(** * HeaderProofs: proofs about what a header shows (C102). *)
From Coq Require Import ZifyBool ZifyNat.
From Verif Require Import GoBase Utf8 Utf8Proofs GraphemeSpec Runewidth ConditionSpec StringWidthProofs Width TextSpec AlignSpec WidthProofs WidthTheory Table AlignProofs AlignTheory TableContract CacheProofs TableOpsProofs ReadSpec ReadProofs HeaderSpec.
Local Open Scope Z_scope.

Lemma trimmed_nil : Trimmed [].
Proof. split; [discriminate|]. intros u H. destruct u; discriminate. Qed.

Lemma lead l : forall l' (s s' : str), (forall u, s <> space :: u) -> (forall u, s' <> space :: u) ->
  s <> [] -> s' <> [] ->
  repeat space l ++ s = repeat space l' ++ s' -> s = s'.
Proof.
  induction l as [|l IH]; intros l' s s' Hs Hs' Hn Hn' H; destruct l' as [|l']; cbn [repeat app] in H; auto.
  - exfalso. apply (Hs _ H).
  - exfalso. symmetry in H. apply (Hs' _ H).
  - injection H as H. eauto.
Qed.
Lemma trail r : forall r' (s s' : str), (forall u, s <> u ++ [space]) -> (forall u, s' <> u ++ [space]) ->
  s ++ repeat space r = s' ++ repeat space r' -> s = s'.
Proof.
  induction r as [|r IH]; intros r' s s' Hs Hs' H; destruct r' as [|r'].
  - cbn in H. rewrite !app_nil_r in H. auto.
  - exfalso. cbn [repeat] in H. rewrite app_nil_r, repeat_cons, app_assoc in H. apply (Hs _ H).
  - exfalso. cbn [repeat] in H. rewrite app_nil_r, repeat_cons, app_assoc in H. symmetry in H. apply (Hs' _ H).
  - cbn [repeat] in H. rewrite !repeat_cons, !app_assoc in H. apply app_inj_tail in H. destruct H as [H _]. eauto.
Qed.
Lemma only_spaces n l (s : str) r : repeat space n = repeat space l ++ s ++ repeat space r -> Trimmed s -> s = [].
Proof.
  intros H [HT _]. destruct s as [|b s]; auto. exfalso.
  assert (In b (repeat space n)) by (rewrite H, in_app_iff; right; left; reflexivity).
  apply repeat_spec in H0. subst b. apply (HT _ eq_refl).
Qed.

(** What is shown is one text. *)
Lemma shows_one cell s s' : Shows cell s -> Shows cell s' -> s = s'.
Proof.
  intros (HT & l & r & H) (HT' & l' & r' & H').
  destruct s as [|b s].
  { symmetry. apply (only_spaces (l + r) l' s' r'); auto. rewrite <- H', H. cbn [app]. apply repeat_app. }
  destruct s' as [|b' s'].
  { apply (only_spaces (l' + r') l (b :: s) r); auto. rewrite <- H, H'. cbn [app]. apply repeat_app. }
  destruct HT as [HT1 HT2], HT' as [HT1' HT2'].
  apply (trail r r'); auto. apply (lead l l').
  - intros u K. apply (HT1 s). injection K as -> _. reflexivity.
  - intros u K. apply (HT1' s'). injection K as -> _. reflexivity.
  - discriminate.
  - discriminate.
  - congruence.
Qed.

Section T.
Context {Item Val E : Type}.
Notation Column := (Column Item Val E).

Definition shown_text (t : Table Item Val E) (col : Column) : str :=
  if Width t (colName col) =? 0 then colTitle col
  else header_text (Width t (colName col)) (colTitle col) (colShortTitle col).

Lemma shown_cases (P : str -> Prop) t (col : Column) : P (colTitle col) -> P (colShortTitle col) -> P [] -> P (shown_text t col).
Proof. intros. unfold shown_text. destruct (_ =? 0); auto. apply header_text_cases; auto. Qed.

Lemma cell_shows c t (col : Column) : 0 <= Width t (colName col) < 65536 ->
  Trimmed (colTitle col) -> Trimmed (colShortTitle col) -> Shows (padColumnHeader c t col) (shown_text t col).
Proof.
  intros Hw H1 H2. split; [apply shown_cases; auto using trimmed_nil|].
  unfold shown_text. destruct (Z.eqb_spec (Width t (colName col)) 0) as [e|n].
  - exists 0%nat, 0%nat. cbn. rewrite app_nil_r. apply header_zero. exact e.
  - rewrite header_cell by lia.
    destruct (center_spaces c (header_text (Width t (colName col)) (colTitle col) (colShortTitle col)) (Width t (colName col)) Hw)
      as (l & r & K & _). rewrite K. exists (Z.to_nat l), (Z.to_nat r). reflexivity.
Qed.

Lemma cell_without x c t (col : Column) : 0 <= Width t (colName col) < 65536 -> x <> space ->
  ~ In x (colTitle col) -> ~ In x (colShortTitle col) -> ~ In x (padColumnHeader c t col).
Proof.
  intros Hw Hx H1 H2. assert (K : ~ In x (shown_text t col)) by (apply shown_cases; auto).
  unfold shown_text in K. destruct (Z.eqb_spec (Width t (colName col)) 0) as [e|n].
  - rewrite header_zero by exact e. exact K.
  - rewrite header_cell by lia.
    destruct (center_spaces c (header_text (Width t (colName col)) (colTitle col) (colShortTitle col)) (Width t (colName col)) Hw)
      as (l & r & Q & _). rewrite Q. unfold spaces.
    rewrite !in_app_iff. intros [I|[I|I]]; [|auto|]; apply repeat_spec in I; congruence.
Qed.

Lemma heading_max (seen : Z -> Prop) w title short : IsMax seen w -> (forall v, seen v -> 0 <= v) ->
  Heading seen title short (if w =? 0 then title else header_text w title short).
Proof.
  intros [Hin Hmax] Hp. pose proof (Hp _ Hin) as H0. unfold header_text. split.
  - intros K. rewrite (K _ Hin). reflexivity.
  - intros v Hv Hl. specialize (Hmax _ Hv). destruct (w =? 0); auto. destruct (Z.leb_spec (slen title) w); auto. lia.
  - intros v Hv Hpos Hl K. specialize (Hmax _ Hv). specialize (K _ Hin).
    destruct (Z.eqb_spec w 0); [lia|]. destruct (Z.leb_spec (slen title) w); [lia|].
    destruct (Z.leb_spec (slen short) w); auto. lia.
  - intros v Hv Hpos K. specialize (Hmax _ Hv). specialize (K _ Hin).
    destruct (Z.eqb_spec w 0); [lia|]. destruct (Z.leb_spec (slen title) w); [lia|].
    destruct (Z.leb_spec (slen short) w); auto. lia.
Qed.

Lemma split_cells x sep (f : Column -> str) cols : In x sep -> x <> x0a -> Forall (fun col => ~ In x (f col)) cols ->
  split sep 0 (concat (map (fun col => f col ++ sep) cols) ++ [x0a]) = map f cols ++ [[x0a]].
Proof.
  intros Hi Hn. induction cols as [|col cols IH]; intros HF; cbn [map concat app].
  - apply (split_last x); auto. intros [K|[]]; congruence.
  - inversion HF; subst. rewrite <- !app_assoc. rewrite (split_first x) by auto. rewrite IH by auto. reflexivity.
Qed.

Notation cols0 spec := (match spec with None => [] | Some s => Columns s end).

Lemma shown_nonneg (cs : list (option Column)) ops n v : Forall uint16_op ops -> Shown cs ops n v -> 0 <= v.
Proof.
  intros HU H. destruct H as [|before l after w -> Hin|]; [lia| |].
  - apply Forall_app in HU. destruct HU as [_ HU]. inversion HU; subst. cbn in H1. rewrite Forall_forall in H1.
    apply H1 in Hin. cbn in Hin. lia.
  - unfold vwidth, u16. apply Z.mod_pos_bound. lia.
Qed.

Lemma header_reads c (spec : option (TableSpec Item Val E)) ops cols x sep line :
  Forall uint16_op ops -> let t := table_run (NewTable spec) ops in
  Columns (tSpec t) = map Some cols -> Marks x sep ->
  Forall (fun col : Column => Trimmed (colTitle col) /\ Trimmed (colShortTitle col) /\ ~ In x (colTitle col) /\ ~ In x (colShortTitle col)) cols ->
  FormatHeader c t sep = Ok line :> outcome E str ->
  exists cells, split sep 0 line = cells ++ [[x0a]]
    /\ Forall2 (fun (col : Column) cell => exists s, Shows cell s
         /\ Heading (Shown (cols0 spec) ops (colName col)) (colTitle col) (colShortTitle col) s) cols cells.
Proof.
  intros HU t HC (Hi & Hx & Hnl) HT HL. destruct (run_table_range spec ops HU) as [_ Hr]. fold t in Hr.
  rewrite (header_line c t sep cols HC) in HL. injection HL as <-.
  exists (map (padColumnHeader c t) cols). split.
  - apply (split_cells x); auto; [intros ->; auto|].
    eapply Forall_impl; [|exact HT]. cbn beta. intros col (_ & _ & H1 & H2). apply cell_without; auto.
  - clear HC. induction HT as [|col cols (H1 & H2 & _) HT IH]; cbn [map]; constructor; auto.
    exists (shown_text t col). split; [apply cell_shows; auto|].
    unfold shown_text. apply heading_max; [apply history_max; exact HU|]. intros v. apply shown_nonneg. exact HU.
Qed.

(** The first of the titles that fits. *)
Lemma ascii_best c t (col : Column) : Reachable c -> 0 < Width t (colName col) < 65536 ->
  Forall (fun b => 0x20 <= bv b <= 0x7E) (colTitle col) -> Forall (fun b => 0x20 <= bv b <= 0x7E) (colShortTitle col) ->
  slen (colTitle col) < 65536 -> slen (colShortTitle col) < 65536 ->
  Trimmed (colTitle col) -> Trimmed (colShortTitle col) ->
  Shows (padColumnHeader c t col) (first_fitting (vwidth c) (Width t (colName col)) (colTitle col) (colShortTitle col)).
Proof.
  intros Hc Hw F1 F2 L1 L2 T1 T2. pose proof (cell_shows c t col ltac:(lia) T1 T2) as K.
  unfold shown_text, header_text in K. destruct (Z.eqb_spec (Width t (colName col)) 0); [lia|].
  unfold first_fitting. rewrite (proj2 (ascii_width c _ Hc F1) L1), (proj2 (ascii_width c _ Hc F2) L2). exact K.
Qed.

(** What is shown fits. *)
Lemma shown_fits c t (col : Column) s : Reachable c -> 0 < Width t (colName col) < 65536 ->
  (forall s, s = colTitle col \/ s = colShortTitle col ->
     Trimmed s /\ ~ In 0x9B (runes s) /\ ((exists st, Behaves c false st) \/ ValidUTF8 s)) ->
  Shows (padColumnHeader c t col) s ->
  vwidth c s <= Width t (colName col) /\ (s = [] \/ s = colTitle col \/ s = colShortTitle col)
  /\ (s <> colTitle col -> Width t (colName col) < slen (colTitle col)).
Proof.
  intros Hc Hw HT HS.
  assert (s = shown_text t col) as ->.
  { apply (shows_one (padColumnHeader c t col)); auto. apply cell_shows; [lia|apply HT; auto|apply HT; auto]. }
  unfold shown_text. destruct (Z.eqb_spec (Width t (colName col)) 0); [lia|]. set (w := Width t (colName col)) in *.
  split; [|split].
  - assert (Hs : ~ In 0x9B (runes (header_text w (colTitle col) (colShortTitle col)))
      /\ ((exists st, Behaves c false st) \/ ValidUTF8 (header_text w (colTitle col) (colShortTitle col)))).
    { apply header_text_cases; [apply HT; auto|apply HT; auto|]. split; [auto|right; constructor]. }
    destruct Hs as [H9 HB].
    assert (HL : StringWidth c (header_text w (colTitle col) (colShortTitle col)) <= w).
    { eapply Z.le_trans; [|apply (header_text_len w (colTitle col) (colShortTitle col)); lia].
      destruct HB as [(st & HB)|HV]; [eapply StringWidth_plain_bytes; eauto|apply StringWidth_valid_bytes; auto]. }
    rewrite vwidth_exact by (auto || lia). pose proof (no_underflow c _ Hc H9). lia.
  - apply header_text_cases; auto.
  - unfold header_text. destruct (Z.leb_spec (slen (colTitle col)) w); [congruence|]. intros _. assumption.
Qed.

(** Once shown, a title stays. *)
Lemma title_stays c c' (spec : option (TableSpec Item Val E)) ops ops' (col : Column) :
  Forall uint16_op (ops ++ ops') -> Trimmed (colTitle col) -> Trimmed (colShortTitle col) ->
  let t := table_run (NewTable spec) ops in let t' := table_run (NewTable spec) (ops ++ ops') in
  0 < Width t (colName col) ->
  (Shows (padColumnHeader c t col) (colTitle col) -> colTitle col <> colShortTitle col -> colTitle col <> [] ->
     Shows (padColumnHeader c' t' col) (colTitle col))
  /\ (Shows (padColumnHeader c' t' col) [] -> Shows (padColumnHeader c t col) []).
Proof.
  intros HU T1 T2 t t' Hw. pose proof (history_mono spec ops ops' (colName col) HU) as HM. fold t t' in HM.
  destruct (run_table_range spec _ HU) as [_ Hr']. fold t' in Hr'.
  assert (HU0 : Forall uint16_op ops) by (apply Forall_app in HU; tauto).
  destruct (run_table_range spec _ HU0) as [_ Hr]. fold t in Hr.
  pose proof (cell_shows c t col (Hr _) T1 T2) as S1. pose proof (cell_shows c' t' col (Hr' _) T1 T2) as S2.
  unfold shown_text, header_text in S1, S2.
  destruct (Z.eqb_spec (Width t (colName col)) 0); [lia|]. destruct (Z.eqb_spec (Width t' (colName col)) 0); [lia|].
  split.
  - intros HS Hne Hn. pose proof (shows_one _ _ _ S1 HS) as K.
    destruct (Z.leb_spec (slen (colTitle col)) (Width t (colName col))).
    + destruct (Z.leb_spec (slen (colTitle col)) (Width t' (colName col))); [exact S2|lia].
    + exfalso. destruct (_ <=? _); congruence.
  - intros HS. pose proof (shows_one _ _ _ S2 HS) as K.
    destruct (Z.leb_spec (slen (colTitle col)) (Width t' (colName col))) as [Q|Q].
    + rewrite K in *. destruct (Z.leb_spec (slen (@nil byte)) (Width t (colName col))); [exact S1|].
      cbn in H; lia.
    + destruct (Z.leb_spec (slen (colTitle col)) (Width t (colName col))); [lia|].
      destruct (Z.leb_spec (slen (colShortTitle col)) (Width t' (colName col))) as [R|R].
      * rewrite K in *. destruct (Z.leb_spec (slen (@nil byte)) (Width t (colName col))); exact S1.
      * destruct (Z.leb_spec (slen (colShortTitle col)) (Width t (colName col))); [lia|]. exact S1.
Qed.
End T.
