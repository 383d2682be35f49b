(** * EndsProofs: how calls of a table's methods can end. *)
From Verif Require Import GoBase Runewidth Width AlignSpec Table Merge TableContract TableOpsProofs MergeSpec MergeLayout MergeRender MergeSearch MergeTheory
  FaultSpec FaultProofs AlikeSpec AlikeProofs EndsSpec.
From Coq Require Import ZifyBool ZifyNat.
Local Open Scope Z_scope.

Section Types.
Context {Item Val E : Type}.
Notation Tab := (Table Item Val E).
Notation Col := (Column Item Val E).

(** ** nil columns *)
Lemma header_nil c sep (t : Tab) cols : In None cols -> forall acc, formatHeader_loop (E := E) c t cols sep acc = Panic NilDereference.
Proof. induction cols as [|[col|] cols IH]; intros Hin acc; [destruct Hin| |reflexivity]. destruct Hin as [|Hin]; [discriminate|]. cbn [formatHeader_loop]. apply IH, Hin. Qed.
Lemma header_ok c sep (t : Tab) cols : ~ In None cols -> forall acc, exists s, formatHeader_loop (E := E) c t cols sep acc = Ok s.
Proof.
  induction cols as [|[col|] cols IH]; intros Hn acc; cbn [formatHeader_loop]; [eauto| |exfalso; apply Hn; left; reflexivity].
  apply IH. intros Hin. apply Hn. right. exact Hin.
Qed.
Lemma header_ends c sep (t : Tab) :
  (In None (Columns (tSpec t)) -> FormatHeader (E := E) c t sep = Panic NilDereference)
  /\ (~ In None (Columns (tSpec t)) -> exists s, FormatHeader (E := E) c t sep = Ok s).
Proof. split; intros Hn; [apply header_nil|apply header_ok]; exact Hn. Qed.

Lemma total_nil (t : Tab) cols : In None cols -> forall w, tableWidth_loop (E := E) t cols w = Panic NilDereference.
Proof. induction cols as [|[col|] cols IH]; intros Hin w; [destruct Hin| |reflexivity]. destruct Hin as [|Hin]; [discriminate|]. cbn [tableWidth_loop]. apply IH, Hin. Qed.
Lemma total_ok (t : Tab) cols : ~ In None cols -> forall w, exists s, tableWidth_loop (E := E) t cols w = Ok s.
Proof.
  induction cols as [|[col|] cols IH]; intros Hn w; cbn [tableWidth_loop]; [eauto| |exfalso; apply Hn; left; reflexivity].
  apply IH. intros Hin. apply Hn. right. exact Hin.
Qed.
Lemma total_ends (t : Tab) margin :
  (In None (Columns (tSpec t)) -> TableWidth (E := E) t margin = Panic NilDereference)
  /\ (~ In None (Columns (tSpec t)) -> exists w, TableWidth (E := E) t margin = Ok w).
Proof. split; intros Hn; [apply total_nil|apply total_ok]; exact Hn. Qed.

Definition aligned_cell (t : Tab) (col : Col) (s : str) : str :=
  match colAlignment col with None => s | Some al => al s (Width t (colName col)) end.
Lemma align_prefix (t : Tab) post pre : forall done todo, (length pre <= length todo)%nat ->
  alignFormatted_loop t (map Some pre ++ None :: post) done todo
  = (done ++ map (fun x => aligned_cell t (fst x) (snd x)) (combine pre todo) ++ skipn (length pre) todo, Panic NilDereference).
Proof.
  induction pre as [|col pre IH]; intros done todo Hl; [reflexivity|].
  destruct todo as [|s todo]; cbn [length] in Hl; [lia|]. cbn [map app alignFormatted_loop].
  replace (match colAlignment col with None => _ | Some al => _ end)
    with (alignFormatted_loop t (map Some pre ++ None :: post) (done ++ [aligned_cell t col s]) todo)
    by (unfold aligned_cell; destruct (colAlignment col); reflexivity).
  rewrite IH by lia. cbn [combine map fst snd length skipn app]. rewrite <- app_assoc. reflexivity.
Qed.
Lemma align_nil (t : Tab) pre post formatted : Columns (tSpec t) = map Some pre ++ None :: post ->
  length formatted = length (Columns (tSpec t)) ->
  exists cells, AlignFormattedItem t formatted = (cells ++ skipn (length pre) formatted, Panic NilDereference)
    /\ length cells = length pre
    /\ forall i col s, nth_error pre i = Some col -> nth_error formatted i = Some s ->
       nth_error cells i = Some (match colAlignment col with None => s | Some al => al s (Width t (colName col)) end).
Proof.
  intros HC HL. exists (map (fun x => aligned_cell t (fst x) (snd x)) (combine pre formatted)).
  unfold AlignFormattedItem, ColumnCount, slen. rewrite <- HL, Z.eqb_refl. cbn [negb]. rewrite HC in HL. rewrite app_length, map_length in HL. cbn [length] in HL.
  rewrite HC, align_prefix by lia. split; [reflexivity|]. split; [rewrite map_length, combine_length; lia|].
  clear HC HL. revert formatted. induction pre as [|a pre IH]; intros formatted i col s Hc Hs; [destruct i; discriminate|].
  destruct formatted as [|b formatted]; [destruct i; discriminate|]. destruct i as [|i]; [injection Hc as ->; injection Hs as ->; reflexivity|].
  cbn [combine map nth_error fst snd] in *. eauto.
Qed.
Lemma align_panics (t : Tab) formatted p : snd (AlignFormattedItem t formatted) = Panic p ->
  p = NilDereference /\ In None (Columns (tSpec t)) /\ length formatted = length (Columns (tSpec t)).
Proof.
  unfold AlignFormattedItem, ColumnCount, slen. destruct (Z.eqb_spec (Z.of_nat (length formatted)) (Z.of_nat (length (Columns (tSpec t))))) as [HL|]; cbn [negb snd]; [|discriminate].
  apply Nat2Z.inj in HL. intros HP.
  enough (G : forall cols done todo, length todo = length cols -> snd (alignFormatted_loop t cols done todo) = Panic p -> p = NilDereference /\ In None cols).
  { destruct (G _ _ _ HL HP). auto. }
  clear HP HL. induction cols as [|[col|] cols IH]; intros done [|s todo] HL HP; cbn [length alignFormatted_loop snd] in *; try discriminate.
  - destruct (colAlignment col); destruct (IH _ _ (eq_add_S _ _ HL) HP); auto using in_cons.
  - split; [congruence|left; reflexivity].
Qed.

(** ** A nil map *)
Lemma nil_frozen (t : Tab) x : columnWidth t = None -> fst (perform t x) = t.
Proof.
  intros Hn. destruct x; cbn [perform]; try reflexivity.
  - rewrite (update_nil t widths Hn). reflexivity.
  - unfold FormatItem. generalize (@nil str). induction (Columns (tSpec t)) as [|[col|] cols IH]; intros done; cbn [formatItem_loop]; try reflexivity.
    destruct (colGetter col) as [g|]; [|reflexivity]. destruct (getValue g item) as [v| |]; try reflexivity. destruct (getFormat g item v) as [s| |]; try reflexivity.
    unfold raise_width. rewrite Hn. destruct (_ >? _); [reflexivity|apply IH].
  - destruct (AlignFormattedItem t formatted). reflexivity.
Qed.
Lemma nil_answers (t : Tab) xs : columnWidth t = None -> answers t xs = map (fun x => snd (perform t x)) xs.
Proof.
  intros Hn. induction xs as [|x xs IH]; [reflexivity|]. cbn [answers map]. rewrite <- IH.
  pose proof (nil_frozen t x Hn) as F. destruct (perform t x) as [t' a]. cbn [fst] in F. subst t'. reflexivity.
Qed.

Lemma sees_map (t : Tab) cols : columnWidth t = None -> Sees cols t (with_map t).
Proof. intros Hn. split; [reflexivity|]. intros col _. unfold Width. rewrite Hn. reflexivity. Qed.

Lemma raise_map (t : Tab) k w : columnWidth t = None ->
  raise_width (E := E) t k w = (t, Panic NilMapWrite) \/ (raise_width (E := E) t k w = (t, Ok tt) /\ raise_width (E := E) (with_map t) k w = (with_map t, Ok tt)).
Proof. intros Hn. unfold raise_width. rewrite Hn. cbn [wread with_map columnWidth]. unfold wempty. destruct (w >? 0); [left|right]; auto. Qed.

(** A call on a table without a map panics for this reason, or is the call on the table with an empty one. *)
Lemma map_step (t : Tab) x : columnWidth t = None ->
  panicked (snd (perform t x)) = Some NilMapWrite
  \/ (snd (perform t x) = snd (perform (with_map t) x) /\ fst (perform (with_map t) x) = with_map t).
Proof.
  intros Hn. destruct x; cbn [perform].
  - induction widths as [|[k w] l IH]; [right; split; reflexivity|]. cbn [UpdateWidth].
    destruct (raise_map t k w Hn) as [-> | [-> ->]]; [left; reflexivity|exact IH].
  - right. split; [|reflexivity]. unfold Width. rewrite Hn. reflexivity.
  - unfold FormatItem. change (Columns (tSpec (with_map t))) with (Columns (tSpec t)). generalize (@nil str).
    induction (Columns (tSpec t)) as [|[col|] cols IH]; intros done; cbn [formatItem_loop]; try (right; split; reflexivity).
    destruct (colGetter col) as [g|]; [|right; split; reflexivity]. destruct (getValue g item) as [v| |]; try (right; split; reflexivity).
    destruct (getFormat g item v) as [s| |]; try (right; split; reflexivity).
    destruct (raise_map t (colName col) (vwidth c s) Hn) as [-> | [-> ->]]; [left; reflexivity|apply IH].
  - right. split; reflexivity.
  - right. unfold AlignFormattedItem. change (tSpec (with_map t)) with (tSpec t). rewrite (on_align _ t (with_map t) [] formatted (sees_map t _ Hn)).
    destruct (negb _); [split; reflexivity|]. destruct (alignFormatted_loop (with_map t) _ _ _). split; reflexivity.
  - right. split; [|reflexivity]. unfold FormatHeader. cbn [snd]. f_equal. apply on_header, sees_map, Hn.
  - right. split; [|reflexivity]. unfold TableWidth. cbn [snd]. f_equal. apply on_total, sees_map, Hn.
  - right. split; [|reflexivity]. cbn [snd]. f_equal. apply on_merge, sees_map, Hn.
Qed.

Lemma map_until (t : Tab) xs : columnWidth t = None ->
  exists k, firstn k (answers t xs) = firstn k (answers (with_map t) xs)
    /\ ((length xs <= k)%nat \/ exists x, nth_error xs k = Some x /\ panicked (snd (perform t x)) = Some NilMapWrite).
Proof.
  intros Hn. induction xs as [|x xs IH]; [exists 0%nat; split; [reflexivity|left; auto]|].
  destruct (map_step t x Hn) as [HP|[HA HS]]; [exists 0%nat; split; [reflexivity|right; exists x; split; [reflexivity|exact HP]]|].
  destruct IH as (k & HK & HR). exists (S k). cbn [answers].
  pose proof (nil_frozen t x Hn) as F. destruct (perform t x) as [t1 a1]. destruct (perform (with_map t) x) as [t2 a2]. cbn [fst snd] in *. subst t1 t2 a2.
  cbn [firstn length nth_error]. rewrite HK. split; [reflexivity|]. destruct HR as [HR|HR]; [left; lia|right; exact HR].
Qed.

(** ** Merging *)
Lemma lines_writes ok (f : Z -> outcome E str) ls : forall k acc,
  (stop (lines_loop ok f ls k acc) = Panicked WriteFailed /\ exists i, ok i = false) \/ lines_loop ok f ls k acc = lines_loop (fun _ => true) f ls k acc.
Proof.
  induction ls as [|l ls IH]; intros k acc; [right; reflexivity|]. cbn [lines_loop]. destruct (f l) as [s| |]; [|right; reflexivity..].
  destruct (ok k) eqn:Ek; [apply IH|left; eauto].
Qed.
Lemma merge_writes m fuel c (t : Tab) items ok maxWidth sep compact :
  (stop (merge m fuel c t ok items maxWidth sep compact) = Panicked WriteFailed /\ exists i, ok i = false)
  \/ merge m fuel c t ok items maxWidth sep compact = merge m fuel c t (fun _ => true) items maxWidth sep compact.
Proof.
  destruct m; unfold merge, MergeRowsHorizontal, MergeRowsVertical;
    (destruct (initialGroupCount t maxWidth sep); [|right; reflexivity|right; reflexivity]);
    (destruct compact; [|apply lines_writes]);
    (match goal with |- context[match ?x with Some _ => _ | None => _ end] =>
       destruct x as [[[extra cw]|e|p]|]; [|right; reflexivity|right; reflexivity|right; reflexivity] end);
    destruct (extra >? 0); apply lines_writes.
Qed.

Section Merge.
Context (t : Tab) (cols : list Col) (items : FormattedItemList E) (n : nat).
Hypothesis HC : Columns (tSpec t) = map Some cols.
Hypothesis HN : fiLen items = Z.of_nat n.
Hypothesis HE : forall i e, fiGet items i <> Err e.

Definition row_of (i : nat) : list str := match fiGet items (Z.of_nat i) with Ok row => row | _ => [] end.
Definition fail_of (i : nat) : option panic_reason :=
  if (i <? n)%nat then
    match fiGet items (Z.of_nat i) with
    | Ok row => if (length row <? length cols)%nat then Some IndexOutOfRange else None
    | Panic p => Some p
    | Err _ => None
    end
  else None.
Lemma rows_faulty : Faulty t cols items (map row_of (seq 0 n)) fail_of.
Proof.
  split; [exact HC|unfold slen; rewrite map_length, seq_length; exact HN|]. intros i row Hi.
  assert (Hl : (i < n)%nat) by (assert (K : nth_error (map row_of (seq 0 n)) i <> None) by congruence; apply nth_error_Some in K; rewrite map_length, seq_length in K; exact K).
  apply (nth_error_nth _ _ []) in Hi. rewrite (nth_indep _ [] (row_of 0)) in Hi by (rewrite map_length, seq_length; exact Hl). rewrite map_nth, seq_nth in Hi by exact Hl. cbn [Nat.add] in Hi. subst row. unfold fail_of, row_of. destruct (Nat.ltb_spec i n); [|lia].
  destruct (fiGet items (Z.of_nat i)) as [r|e|p] eqn:Eg; [|exfalso; exact (HE _ _ Eg)|left; reflexivity].
  destruct (Nat.ltb_spec (length r) (length cols)); [right; eauto|auto].
Qed.
Lemma fail_of_fault i p : fail_of i = Some p ->
  (exists i, 0 <= i < fiLen items /\ fiGet items i = Panic p)
  \/ (p = IndexOutOfRange /\ exists i row, 0 <= i < fiLen items /\ fiGet items i = Ok row /\ (length row < length cols)%nat).
Proof.
  unfold fail_of. destruct (Nat.ltb_spec i n) as [Hl|]; [|discriminate].
  destruct (fiGet items (Z.of_nat i)) as [r|e|q] eqn:Eg; [|discriminate|].
  - destruct (Nat.ltb_spec (length r) (length cols)) as [Hs|]; [|discriminate]. intros Hp. injection Hp as <-. right. split; [reflexivity|].
    exists (Z.of_nat i), r. split; [lia|auto].
  - intros Hp. injection Hp as ->. left. exists (Z.of_nat i). split; [lia|exact Eg].
Qed.
Lemma first_fault {A} (line : list (nat * A)) :
  faultless fail_of line \/ exists before i row after p, line = before ++ (i, row) :: after /\ faultless fail_of before /\ fail_of i = Some p.
Proof.
  induction line as [|[i row] line [IH|IH]]; [left; constructor| |].
  - destruct (fail_of i) as [p|] eqn:Ef; [right; exists [], i, row, line, p; repeat split; [constructor|exact Ef]|left; constructor; auto].
  - destruct (fail_of i) as [p|] eqn:Ef; [right; exists [], i, row, line, p; repeat split; [constructor|exact Ef]|].
    destruct IH as (before & j & r & after & p & -> & Hb & Hj). right. exists ((i, row) :: before), j, r, after, p. repeat split; [constructor; auto|exact Hj].
Qed.
Lemma first_fault_line {A} (lines : list (list (nat * A))) :
  Forall (faultless fail_of) lines \/ exists pre before i row after post p, lines = pre ++ (before ++ (i, row) :: after) :: post
    /\ Forall (faultless fail_of) pre /\ faultless fail_of before /\ fail_of i = Some p.
Proof.
  induction lines as [|line lines IH]; [left; constructor|]. destruct (first_fault line) as [HF|(before & i & row & after & p & -> & Hb & Hi)].
  - destruct IH as [IH|(pre & before & i & row & after & post & p & -> & Hp & Hb & Hi)]; [left; constructor; auto|].
    right. exists (line :: pre), before, i, row, after, post, p. repeat split; auto.
  - right. exists [], before, i, row, after, lines, p. repeat split; auto.
Qed.

Lemma fault_merge m fuel c maxWidth sep compact p : reckoned t cols sep mod 65536 <> 0 ->
  stop (merge m fuel c t (fun _ => true) items maxWidth sep compact) = Panicked p -> exists i, fail_of i = Some p.
Proof.
  intros Hr. set (rows := map row_of (seq 0 n)). assert (HL : length rows = n) by (unfold rows; rewrite map_length, seq_length; reflexivity).
  pose proof rows_faulty as HF. fold rows in HF.
  pose proof (estimate_pos t cols sep maxWidth) as Hp. destruct (Z_of_nat_complete (estimate t cols sep maxWidth) ltac:(lia)) as [g Hg]. symmetry in Hg.
  assert (PL : stop (merge m fuel c t (fun _ => true) items maxWidth sep false) = Panicked p -> exists i, fail_of i = Some p).
  { assert (LO : Layout m g (numbered rows) (layout_lines m g (numbered rows))) by (apply layout_ok; lia).
    destruct (plain_fault HF m fuel maxWidth sep g _ Hr Hg LO (c := c)) as [P1 P2].
    destruct (first_fault_line (layout_lines m g (numbered rows))) as [HA|(pre & before & i & row & after & post & q & Hl & H1 & H2 & H3)].
    - rewrite (P1 HA). discriminate.
    - rewrite (P2 _ _ _ _ _ _ _ Hl H1 H2 H3). cbn [stop]. intros Hq. injection Hq as <-. eauto. }
  destruct compact; [|exact PL].
  destruct (first_fault (numbered rows)) as [HA|(before & b & row & after & q & Hnr & _ & Hb)].
  - assert (PR : Printable t cols items rows).
    { split; [exact HC|split; [exact (fa_len _ _ _ _ _ HF)|]|].
      - intros i row Hi. pose proof (fa_get _ _ _ _ _ HF i row Hi) as K.
        assert (Hf : fail_of i = None).
        { unfold faultless in HA. rewrite Forall_forall in HA. specialize (HA (i, row)). apply HA. eapply nth_error_In. rewrite numbered_nth, Hi. reflexivity. }
        rewrite Hf in K. apply K.
      - rewrite Forall_forall. intros row Hin. apply In_nth_error in Hin. destruct Hin as [i Hi]. pose proof (fa_get _ _ _ _ _ HF i row Hi) as K.
        assert (Hf : fail_of i = None).
        { unfold faultless in HA. rewrite Forall_forall in HA. specialize (HA (i, row)). apply HA. eapply nth_error_In. rewrite numbered_nth, Hi. reflexivity. }
        rewrite Hf in K. apply K. }
    intros HP. destruct (merge_stops PR m fuel maxWidth sep true Hr (c := c)) as [K|[_ K]]; rewrite K in HP; discriminate.
  - destruct fuel as [|fuel].
    { destruct m; unfold merge, MergeRowsHorizontal, MergeRowsVertical; rewrite (estimate_ok t cols maxWidth sep HC);
        (destruct (Z.eqb_spec (reckoned t cols sep mod 65536) 0); [lia|]); cbn; discriminate. }
    assert (Hbl : (b < length rows)%nat).
    { unfold fail_of in Hb. destruct (Nat.ltb_spec b n); [lia|discriminate]. }
    destruct (compact_fault HF m (S fuel) maxWidth sep g b Hr ltac:(lia) Hg Hbl ltac:(congruence) (c := c)) as [C1 C2].
    rewrite (worth_spec m rows (S g)) in C1, C2 by lia. destruct (worth_b m (length rows) (S g)).
    + destruct (C1 eq_refl) as (p' & HQ & ->). cbn [stop]. intros Hq. injection Hq as <-. destruct HQ as (i & _ & Hi). eauto.
    + rewrite C2 by discriminate. exact PL.
Qed.
End Merge.

Lemma merge_ends m fuel c (t : Tab) cols items ok maxWidth sep compact p : Columns (tSpec t) = map Some cols ->
  0 <= fiLen items -> (forall i e, fiGet items i <> Err e) ->
  stop (merge m fuel c t ok items maxWidth sep compact) = Panicked p -> MergeFault t cols ok items sep p.
Proof.
  intros HC Hn HE HP. destruct (merge_writes m fuel c t items ok maxWidth sep compact) as [[HW [k Hk]]|HW].
  - rewrite HW in HP. injection HP as <-. right. left. eauto.
  - rewrite HW in HP. destruct (Z.eq_dec (reckoned t cols sep mod 65536) 0) as [Hr|Hr].
    + left. split; [|exact Hr]. assert (K : stop (merge m fuel c t (fun _ => true) items maxWidth sep compact) = Panicked DivideByZero).
      { destruct m; unfold merge, MergeRowsHorizontal, MergeRowsVertical; rewrite (estimate_ok t cols maxWidth sep HC); rewrite Hr; reflexivity. }
      congruence.
    + destruct (Z_of_nat_complete _ Hn) as [n HN]. destruct (fault_merge t cols items n HC HN HE m fuel c maxWidth sep compact p Hr HP) as [i Hi].
      right. right. exact (fail_of_fault cols items n HN i p Hi).
Qed.

(** ** Tables made by NewTable *)
Lemma first_in {A B C} (f : option A -> outcome E B) l pre vs (p : panic_reason) : ~ In None l -> FirstFailure (C := C) f l pre vs (Panic p) ->
  exists a, In (Some a) l /\ f (Some a) = Panic p.
Proof.
  intros Hn (o & post & -> & _ & [(e & _ & K)|(q & K & Hq)]); [discriminate|]. injection Hq as ->.
  destruct o as [a|]; [|exfalso; apply Hn, in_or_app; right; left; reflexivity]. exists a. split; [apply in_or_app; right; left; reflexivity|exact K].
Qed.
Lemma all_some (cols : list (option Col)) : ~ In None cols -> exists cs, cols = map Some cs.
Proof.
  induction cols as [|[col|] cols IH]; intros Hn; [exists []; reflexivity| |exfalso; apply Hn; left; reflexivity].
  destruct IH as [cs ->]; [intros Hin; apply Hn; right; exact Hin|]. exists (col :: cs). reflexivity.
Qed.
Lemma basic_panics (t : Tab) item sep p : ~ In None (Columns (tSpec t)) -> FormatItemBasic t item sep = Panic p ->
  exists col, In (Some col) (Columns (tSpec t)) /\ basic_cell item (Some col) = Panic p.
Proof.
  unfold FormatItemBasic. intros Hn. generalize 0 (@nil byte). induction (Columns (tSpec t)) as [|[col|] cols IH]; intros i acc HP; cbn [formatItemBasic_loop] in HP; [discriminate| |exfalso; apply Hn; left; reflexivity].
  destruct (colGetter col) as [g|] eqn:Eg.
  - destruct (getValueString g (colName col) item) as [s|e|q] eqn:Es; cbn [obind] in HP; [|discriminate|].
    + destruct (IH ltac:(intros Hin; apply Hn; right; exact Hin) _ _ HP) as (cl & H1 & H2). exists cl. split; [right; exact H1|exact H2].
    + exists col. split; [left; reflexivity|]. cbn [basic_cell]. rewrite Eg, Es. exact HP.
  - exists col. split; [left; reflexivity|]. cbn [basic_cell]. rewrite Eg. exact HP.
Qed.
Lemma call_ends (t : Tab) x p : columnWidth t <> None -> ~ In None (Columns (tSpec t)) -> ProperCall x ->
  panicked (snd (perform t x)) = Some p -> CallFault t x p.
Proof.
  intros Hm Hn Hx HP. destruct x; cbn [perform] in HP.
  - destruct (update_spec widths t Hm) as (t' & K & _). rewrite K in HP. discriminate.
  - discriminate.
  - destruct (FormatItem c t item) as [t' out] eqn:EF. cbn in HP. destruct out as [vs|e|q]; try discriminate. cbn in HP. injection HP as ->.
    destruct (FormatItem_fails c t item t' (Panic p) Hm EF ltac:(discriminate)) as (pre & vs & HF & _). exact (first_in _ _ _ _ _ Hn HF).
  - cbn in HP. destruct (FormatItemBasic t item sep) as [s|e|q] eqn:EB; try discriminate. injection HP as ->. exact (basic_panics t item sep p Hn EB).
  - destruct (AlignFormattedItem t formatted) as [sl r] eqn:EA. cbn in HP. destruct r as [|e|q]; try discriminate. injection HP as ->.
    destruct (align_panics t formatted p) as (_ & Hin & _); [rewrite EA; reflexivity|]. exact (Hn Hin).
  - cbn in HP. destruct (header_ends c sep t) as [_ K]. destruct (K Hn) as [s Hs]. rewrite Hs in HP. discriminate.
  - cbn in HP. destruct (total_ends t margin) as [_ K]. destruct (K Hn) as [s Hs]. rewrite Hs in HP. discriminate.
  - destruct (all_some _ Hn) as [cs HC]. exists cs. split; [exact HC|]. destruct Hx as [Hx1 Hx2]. cbn in HP.
    destruct (stop (merge m fuel c t writeOK items maxWidth sep compact)) as [| |q|] eqn:ES; try discriminate. injection HP as ->.
    exact (merge_ends _ _ _ _ _ _ _ _ _ _ _ HC Hx1 Hx2 ES).
Qed.
Lemma made_ends (spec : option (TableSpec Item Val E)) ops x p : let t := table_run (NewTable spec) ops in ~ In None (Columns (tSpec t)) -> ProperCall x ->
  panicked (snd (perform t x)) = Some p -> CallFault t x p.
Proof. intros t. apply call_ends. apply run_nonnil. Qed.
End Types.
