(** * MeasuredProofs: proofs about runs in which every measurement may return
    anything. *)
From Verif Require Import GoBase Runewidth Width ConditionSpec AlignSpec Table TableContract TableOpsProofs Merge MergeSpec MergeLayout MergeRender MergeSearch ReadSpec ReadProofs Cached CachedSpec CachedProofs MeasuredSpec.
From Coq Require Import ZifyBool ZifyNat.
Local Open Scope Z_scope.

(** ** All results of a program *)
Fixpoint always {A} (p : prog A) (Q : A -> Prop) : Prop :=
  match p with
  | Ret a => Q a
  | Call s k => forall w, 0 <= w < 65536 -> always (k w) Q
  end.
Fixpoint alwaysW {A} (ok : nat -> bool) (n : nat) (p : wprog A) (Q : list str -> A -> Prop) : Prop :=
  match p with
  | WRet a => Q [] a
  | WCall s k => forall w, 0 <= w < 65536 -> alwaysW ok n (k w) Q
  | Write txt k => alwaysW ok (S n) (k (ok n)) (fun out => Q (if ok n then txt :: out else out))
  end.

Lemma always_may {A} (p : prog A) Q : always p Q -> forall a, may p a -> Q a.
Proof. intros HA a Ha. induction Ha as [a|s k w a Hw Ha IH]; [exact HA|]. apply IH, HA, Hw. Qed.
Lemma may_always {A} (p : prog A) (Q : A -> Prop) : (forall a, may p a -> Q a) -> always p Q.
Proof.
  induction p as [a|s k IH]; intros HQ; [apply HQ; constructor|]. intros w Hw. apply IH. intros a Ha. apply HQ. econstructor; eassumption.
Qed.
Lemma always_unsure {A} ok (p : wprog A) n out a : unsure ok n p out a -> forall Q : list str -> A -> Prop, alwaysW ok n p Q -> Q out a.
Proof.
  induction 1 as [n a|n s k w out a Hw Hu IH|n txt k out a Hu IH]; intros Q HQ; [exact HQ|apply IH, HQ, Hw|].
  exact (IH _ HQ).
Qed.
Lemma always_mono {A} (p : prog A) (Q R : A -> Prop) : (forall a, Q a -> R a) -> always p Q -> always p R.
Proof. intros HQ. induction p as [a|s k IH]; cbn; [apply HQ|]. intros K w Hw. apply IH, K, Hw. Qed.
Lemma alwaysW_mono {A} ok (p : wprog A) : forall n (Q R : list str -> A -> Prop), (forall o a, Q o a -> R o a) -> alwaysW ok n p Q -> alwaysW ok n p R.
Proof.
  induction p as [a|s k IH|txt k IH]; intros n Q R HQ; cbn; [apply HQ| |].
  - intros K w Hw. eapply IH; [exact HQ|]. apply K, Hw.
  - apply IH. intros o a. apply HQ.
Qed.
Lemma always_bind {A B} (p : prog A) (f : A -> prog B) Q : always p (fun a => always (f a) Q) -> always (bind p f) Q.
Proof. induction p as [a|s k IH]; cbn; [auto|]. intros K w Hw. apply IH, K, Hw. Qed.
Lemma alwaysW_first {A B} ok n (p : prog A) (f : A -> wprog B) Q : always p (fun a => alwaysW ok n (f a) Q) -> alwaysW ok n (first p f) Q.
Proof. induction p as [a|s k IH]; cbn; [auto|]. intros K w Hw. apply IH, K, Hw. Qed.

(** Results that are Ok and satisfy [Q]. *)
Definition good {E A} (Q : A -> Prop) (o : outcome E A) : Prop := exists a, o = Ok a /\ Q a.
Lemma always_pbind {E A B} (p : prog (outcome E A)) (f : A -> prog (outcome E B)) Q R :
  always p (good Q) -> (forall a, Q a -> always (f a) R) -> always (pbind p f) R.
Proof.
  intros HA HB. unfold pbind. apply always_bind. eapply always_mono; [|exact HA]. intros o (a & -> & Ha). apply HB, Ha.
Qed.
Lemma always_pmap {E A B} (f : A -> prog (outcome E B)) (Q : A -> B -> Prop) l :
  (forall a, In a l -> always (f a) (good (Q a))) -> always (pmap f l) (good (Forall2 Q l)).
Proof.
  induction l as [|a l IH]; intros HF; [exists []; split; [reflexivity|constructor]|]. cbn [pmap].
  eapply always_pbind; [apply HF; left; reflexivity|]. intros b Hb.
  eapply always_pbind; [apply IH; intros x Hx; apply HF; right; exact Hx|]. intros bs Hbs.
  exists (b :: bs). split; [reflexivity|]. constructor; assumption.
Qed.

(** ** Alignments *)
Lemma spaces_0 : spaces 0 = [].
Proof. reflexivity. Qed.
Lemma alignP_always a s n : 0 <= n < 65536 -> always (alignP a s n) (fun x => exists k, 0 <= k <= n /\ PaddedBy a k s x).
Proof.
  intros Hn. assert (R : forall w, 0 <= w < 65536 -> w < n -> u16 (n - w) = n - w) by (intros w Hw L; unfold u16; apply Z.mod_small; lia).
  destruct a; cbn [alignP alignLeftP alignRightP alignCenterP always PaddedBy]; intros w Hw;
    (destruct (Z.geb_spec w n) as [L|L]; [exists 0; split; [lia|]; cbn; rewrite ?app_nil_r; reflexivity|]);
    rewrite (R w Hw L); exists (n - w); (split; [lia|]).
  - reflexivity.
  - reflexivity.
  - cbv zeta. unfold spaces. rewrite Z.quot_div_nonneg by lia. f_equal; [|f_equal]; f_equal; f_equal.
    + replace (n - w + 1) with (n - w - 1 + 1 * 2) by lia. rewrite Z.div_add by lia. reflexivity.
    + Z.div_mod_to_equations. lia.
Qed.

Theorem align_may a s n x : 0 <= n < 65536 -> (may (alignP a s n) x <-> exists k, 0 <= k <= n /\ PaddedBy a k s x).
Proof.
  intros Hn. split; [apply (always_may _ _ (alignP_always a s n Hn))|]. intros (k & Hk & HP).
  destruct a; cbn [alignP alignLeftP alignRightP alignCenterP PaddedBy] in *;
    (apply may_call with (n - k); [lia|]);
    (destruct (Z.geb_spec (n - k) n) as [L|L]; [assert (k = 0) by lia; subst k; cbn in HP; rewrite ?app_nil_r in HP; subst x; constructor|]);
    replace (u16 (n - (n - k))) with k by (unfold u16; rewrite Z.mod_small; lia).
  - subst x. constructor.
  - subst x. constructor.
  - cbv zeta. unfold spaces. rewrite Z.quot_div_nonneg by lia.
    replace (k - ((k - 1) / 2 + 1)) with (k / 2) by (Z.div_mod_to_equations; lia).
    replace ((k - 1) / 2 + 1) with ((k + 1) / 2) by (replace (k + 1) with (k - 1 + 1 * 2) by lia; rewrite Z.div_add by lia; reflexivity).
    subst x. constructor.
Qed.

Section Types.
Context {Item Val E : Type}.

(** ** FormatItem *)
Lemma wread_wset m k v n : wread (Some (wset m k v)) n = if str_eqb n k then v else wread (Some m) n.
Proof. reflexivity. Qed.

Lemma format_always (item : Item) : forall (cols : list (option (PColumn Item Val E))) row (t : PTable Item Val E) mp done,
  Forall2 (fun oc s => exists col g v, oc = Some col /\ pcGetter col = Some g
    /\ pgValue g item = Ret (Ok v) /\ pgFormat g item v = Ret (Ok s)) cols row ->
  ptWidth t = Some mp ->
  always (formatItemP_loop t cols item done) (fun r => snd r = Ok (done ++ row) /\ Grows t (fst r)).
Proof.
  induction cols as [|oc cols IH]; intros row t mp done HF Hm.
  - inversion HF; subst. cbn. rewrite app_nil_r. split; [reflexivity|]. split; [reflexivity|]. split; [eauto|]. intros n. lia.
  - inversion HF as [|? s ? row' (col & g & v & -> & Hg & Hv & Hf) HF']; subst. cbn [formatItemP_loop]. rewrite Hg, Hv. cbn [bind]. rewrite Hf. cbn [bind always].
    intros w Hw. unfold raiseP. rewrite Hm. destruct (Z.gtb_spec w (widthP t (pcName col))) as [L|L].
    + eapply always_mono; [|apply (IH row' {| ptColumns := ptColumns t; ptWidth := Some (wset mp (pcName col) w) |} (wset mp (pcName col) w) (done ++ [s]) HF' eq_refl)].
      intros r [-> (H1 & H2 & H3)]. rewrite <- app_assoc. split; [reflexivity|]. split; [exact H1|]. split; [exact H2|].
      intros n. specialize (H3 n). unfold widthP in *. cbn [ptWidth] in H3. rewrite wread_wset in H3. rewrite Hm in *.
      destruct (CacheProofs.str_eqb_spec n (pcName col)) as [En|_]; [|lia]. rewrite En in *. lia.
    + eapply always_mono; [|apply (IH row' t mp (done ++ [s]) HF' Hm)]. intros r [-> H1]. rewrite <- app_assoc. split; [reflexivity|exact H1].
Qed.

Theorem format_may (t : PTable Item Val E) item row r : ptWidth t <> None -> Quiet t item row -> may (formatItemP t item) r ->
  snd r = Ok row /\ Grows t (fst r).
Proof.
  intros Hm HQ Hr. destruct (ptWidth t) as [mp|] eqn:Em; [|congruence].
  exact (always_may _ _ (format_always item (ptColumns t) row t mp [] HQ Em) r Hr).
Qed.

(** ** AlignFormattedItem *)
Lemma align_always (t : PTable Item Val E) : forall cols als todo done,
  Forall2 (fun a col => pcAlignment col = Some (alignP a)) als cols -> length todo = length cols ->
  (forall col, In col cols -> 0 <= widthP t (pcName col) < 65536) ->
  always (alignItemP_loop t (map Some cols) done todo)
    (fun r => exists xs, CellsMay als (recordedP t cols) todo xs /\ fst r = done ++ xs /\ snd r = Ok (done ++ xs)).
Proof.
  induction cols as [|col cols IH]; intros als todo done HA Hl HW.
  - inversion HA; subst. destruct todo; [|discriminate Hl]. exists []. split; [constructor|]. split; reflexivity.
  - inversion HA as [|a ? als' ? Ha HA']; subst. destruct todo as [|s todo]; [discriminate Hl|]. cbn [map alignItemP_loop]. rewrite Ha.
    apply always_bind. eapply always_mono; [|exact (alignP_always a s _ (HW col (or_introl eq_refl)))]. intros x (n & Hn & Hx).
    eapply always_mono; [|apply (IH als' todo (done ++ [x]) HA'); [cbn in Hl; lia|intros c Hc; apply HW; right; exact Hc]].
    intros r (xs & Hxs & -> & ->). exists (x :: xs). rewrite <- app_assoc. split; [econstructor; eassumption|]. split; reflexivity.
Qed.
Theorem align_item_may (t : PTable Item Val E) cols als row r : ptColumns t = map Some cols ->
  Forall2 (fun a col => pcAlignment col = Some (alignP a)) als cols ->
  (forall col, In col cols -> 0 <= widthP t (pcName col) < 65536) -> may (alignItemP t row) r ->
  (length row <> length cols /\ r = (row, Err (slen row, slen cols)))
  \/ exists xs, CellsMay als (recordedP t cols) row xs /\ r = (xs, Ok xs).
Proof.
  intros Hc HA HW Hr. unfold alignItemP in Hr. assert (El : slen (ptColumns t) = slen cols) by (rewrite Hc; unfold slen; rewrite map_length; reflexivity). rewrite El in Hr.
  destruct (Z.eqb_spec (slen row) (slen cols)) as [Eq|Ne]; cbn [negb] in Hr.
  - right. rewrite Hc in Hr. unfold slen in Eq. destruct (always_may _ _ (align_always t cols als row [] HA ltac:(lia) HW) r Hr) as (xs & Hxs & E1 & E2).
    exists xs. split; [exact Hxs|]. destruct r as [r1 r2]. cbn in E1, E2. subst. reflexivity.
  - left. unfold slen in *. inversion Hr; subst. split; [lia|reflexivity].
Qed.

(** ** Merging *)
Implicit Types (t : PTable Item Val E) (cols : list (PColumn Item Val E)) (items : PItems E) (rows : list (list str)).

Lemma cells_always (getWidth : Z -> Z -> outcome E Z) item k cols : forall als ws (i : nat),
  Aligns als cols -> length ws = length cols -> (i + length cols <= length item)%nat -> Forall (fun w => 0 <= w < 65536) ws ->
  (forall j w, nth_error ws j = Some w -> getWidth (Z.of_nat (i + j)) k = Ok w) ->
  always (cellsP getWidth (map Some cols) item (Z.of_nat i) k) (good (CellsMay als ws (skipn i item))).
Proof.
  induction cols as [|col cols IH]; intros als ws i HA Hl Hi HR Hw.
  - inversion HA; subst. destruct ws; [|discriminate Hl]. exists []. split; [reflexivity|]. constructor.
  - inversion HA as [|a ? als' ? Ha HA']; subst. destruct ws as [|w ws]; [discriminate Hl|]. inversion HR as [|? ? HR1 HR2]; subst. cbn [map cellsP].
    destruct (nth_error item i) as [s|] eqn:Es; [|apply nth_error_None in Es; cbn in Hi; lia].
    rewrite (index_nat _ _ _ Es). pose proof (Hw 0%nat w eq_refl) as Hw0. rewrite Nat.add_0_r in Hw0. rewrite Hw0.
    replace (match pcAlignment col with Some f => f | None => alignLeftP end) with (alignP a) by (destruct Ha as [->|[-> ->]]; reflexivity).
    apply always_bind. eapply always_mono; [|exact (alignP_always a s w HR1)]. intros x (n & Hn & Hx).
    replace (Z.of_nat i + 1) with (Z.of_nat (S i)) by lia.
    eapply always_pbind; [apply (IH als' ws (S i) HA')|].
    + cbn in Hl. lia.
    + cbn in Hi. lia.
    + exact HR2.
    + intros j w' Hj. replace (S i + j)%nat with (i + S j)%nat by lia. apply Hw. exact Hj.
    + intros xs Hxs. exists (x :: xs). split; [reflexivity|].
      assert (EQ : skipn i item = s :: skipn (S i) item).
      { clear -Es. revert item Es. induction i as [|i IH]; intros [|y item] Es; try discriminate Es; [injection Es as ->; reflexivity|exact (IH item Es)]. }
      rewrite EQ. econstructor; eassumption.
Qed.

Section Printing.
Context {t : PTable Item Val E} {cols : list (PColumn Item Val E)} {als : list alignment} {items : PItems E} {rows : list (list str)}.
Hypothesis HP : CanPrint t cols als items rows.

Lemma items_len : piLen items = Z.of_nat (length rows).
Proof. exact (ho_len _ _ (cp_holds _ _ _ _ _ HP)). Qed.

Lemma render_always getWidth W g i k row : Reads getWidth (length cols) g W -> InRange W g -> (k < g)%nat -> nth_error rows i = Some row ->
  always (renderP t items getWidth (Z.of_nat i) (Z.of_nat k)) (good (fun b => exists xs, CellsMay als (W k) row xs /\ b = TableContract.join [space] xs)).
Proof.
  intros HR HI Hk Hrow. destruct HP as [Hc Ha [Hn Hg] Hl _]. unfold renderP. rewrite (Hg i row Hrow). cbn [pbind bind].
  rewrite Hc. destruct (HR k Hk) as [HL HW]. rewrite Forall_forall in Hl. specialize (Hl row (nth_error_In _ _ Hrow)).
  change 0%Z with (Z.of_nat 0). eapply always_pbind.
  - apply (cells_always getWidth row (Z.of_nat k) cols als (W k) 0 Ha HL Hl (HI k Hk)). exact HW.
  - intros xs Hxs. exists (join innerSep xs). split; [reflexivity|]. exists xs. split; [exact Hxs|reflexivity].
Qed.

Lemma groups_always getWidth W g (p : nat -> nat) (P : Z -> Z) : Reads getWidth (length cols) g W -> InRange W g ->
  (forall k, P (Z.of_nat k) = Z.of_nat (p k)) -> forall n s, (s + n <= g)%nat ->
  always (groupsP (piLen items) P (renderP t items getWidth) (map Z.of_nat (seq s n)))
    (good (fun out => exists bs, BlocksMay als W s (picks p (seq s n) rows) bs
      /\ out = bs ++ if (length (picks p (seq s n) rows) <? n)%nat then [[]] else [])).
Proof.
  intros HR HI Hpos. pose proof items_len as HN.
  induction n as [|n IH]; intros s Hs; [exists []; split; [reflexivity|]; exists []; split; [constructor|reflexivity]|].
  cbn [seq map groupsP picks]. rewrite Hpos, HN.
  destruct (nth_error rows (p s)) as [row|] eqn:Er.
  - pose proof (nth_some_lt _ _ _ Er). destruct (Z.geb_spec (Z.of_nat (p s)) (Z.of_nat (length rows))); [lia|].
    eapply always_pbind; [apply (render_always getWidth W g (p s) s row HR HI ltac:(lia) Er)|]. intros b (xs & Hxs & ->).
    rewrite <- HN. eapply always_pbind; [apply IH; lia|]. intros out (bs & Hbs & ->).
    eexists. split; [reflexivity|]. exists (TableContract.join [space] xs :: bs). split; [constructor; assumption|]. reflexivity.
  - apply nth_error_None in Er. destruct (Z.geb_spec (Z.of_nat (p s)) (Z.of_nat (length rows))); [|lia].
    exists [[]]. split; [reflexivity|]. exists []. split; [constructor|reflexivity].
Qed.

Lemma lines_always (line : Z -> prog (outcome E str)) (Q : Z -> str -> Prop) ls : forall n,
  (forall i, In i ls -> always (line i) (good (Q i))) ->
  alwaysW (fun _ => true) n (linesP line ls) (fun out st => st = Finished /\ Forall2 (fun i x => exists txt, x = txt ++ [x0a] /\ Q i txt) ls out).
Proof.
  induction ls as [|i ls IH]; intros n HL; [split; [reflexivity|constructor]|]. cbn [linesP]. apply alwaysW_first.
  eapply always_mono; [|apply HL; left; reflexivity]. intros o (txt & -> & Htxt). cbn [alwaysW].
  eapply alwaysW_mono; [|apply IH; intros j Hj; apply HL; right; exact Hj]. intros out st [-> Ho]. split; [reflexivity|].
  constructor; [exists txt; split; [reflexivity|exact Htxt]|exact Ho].
Qed.

Lemma emit_always sep m g getWidth W n : (1 <= g)%nat -> Reads getWidth (length cols) g W -> InRange W g ->
  alwaysW (fun _ => true) n (emitP t items sep (Z.of_nat g) getWidth (zpos m (Z.of_nat g)))
    (fun out st => st = Finished /\ MayPrint als sep m rows g W out).
Proof.
  intros Hg HR HI. unfold emitP. rewrite items_len, lineCountOf_nat by exact Hg. set (L := lineCount (length rows) g).
  eapply alwaysW_mono; [|apply lines_always with (Q := fun i txt => exists bs, BlocksMay als W 0 (picks (pos m g L (Z.to_nat i)) (seq 0 g) rows) bs
    /\ txt = TableContract.join sep (bs ++ if (length (picks (pos m g L (Z.to_nat i)) (seq 0 g) rows) <? g)%nat then [[]] else []))].
  - intros out st [-> Ho]. split; [reflexivity|]. exists (layout_lines m g rows). split; [apply layout_ok, Hg|].
    unfold layout_lines. fold L. rewrite zrange_nat in Ho. clear -Ho. revert out Ho. generalize (seq 0 L). intros l. induction l as [|i l IH]; intros out Ho; inversion Ho as [|? ? ? ? (txt & -> & bs & Hbs & ->) Hr]; subst; [constructor|].
    cbn [map]. rewrite Nat2Z.id in *. constructor; [|apply IH, Hr]. exists bs. split; [exact Hbs|reflexivity].
  - intros li Hli. rewrite zrange_nat in Hli. apply in_map_iff in Hli. destruct Hli as (l & <- & Hl). apply in_seq in Hl. rewrite Nat2Z.id.
    eapply always_pbind; [rewrite <- items_len, zrange_nat; apply (groups_always getWidth W g (pos m g L l)); [exact HR|exact HI| |lia]|].
    + intros k. destruct m; cbn [zpos pos]; lia.
    + intros out (bs & Hbs & ->). eexists. split; [reflexivity|]. exists bs. split; [exact Hbs|reflexivity].
Qed.

(** Widths. *)
Lemma maxCell_always i : (i < length cols)%nat -> forall js mw, 0 <= mw < 65536 ->
  (forall j, In j js -> exists jn, j = Z.of_nat jn /\ (jn < length rows)%nat) ->
  always (maxCellP items (Z.of_nat i) js mw) (good (fun w => 0 <= w < 65536)).
Proof.
  intros Hi. induction js as [|j js IH]; intros mw Hmw Hj; [exists mw; split; [reflexivity|exact Hmw]|]. cbn [maxCellP].
  destruct (Hj j (or_introl eq_refl)) as (jn & -> & Hjn).
  destruct HP as [_ _ [_ Hget] Hlong _]. destruct (nth_error rows jn) as [row|] eqn:Er; [|apply nth_error_None in Er; lia].
  rewrite (Hget jn row Er). cbn [pbind bind]. rewrite Forall_forall in Hlong. pose proof (Hlong row (nth_error_In _ _ Er)) as HL.
  destruct (nth_error row i) as [s|] eqn:Es; [|apply nth_error_None in Es; lia]. rewrite (index_nat _ _ _ Es). cbn [always].
  intros w Hw. apply IH; [destruct (w >? mw); assumption|]. intros j Hj'. apply Hj. right. exact Hj'.
Qed.

Definition WidthsOK (g : nat) (cw : list Z) : Prop :=
  exists rs, cw = concat rs /\ length rs = g /\ Forall (fun r => length r = length cols) rs /\ Forall (Forall (fun w => 0 <= w < 65536)) rs.

Lemma widths_always m g idxs : (1 <= g)%nat -> (forall k, (k < g)%nat -> idxs (Z.of_nat k) = gidx m (length rows) g (Z.of_nat k)) ->
  always (widthsP items (slen (ptColumns t)) idxs (Z.of_nat g)) (good (WidthsOK g)).
Proof.
  intros Hg Hidx. unfold widthsP. rewrite (cp_columns _ _ _ _ _ HP). unfold slen. rewrite map_length, !zrange_nat.
  eapply always_pbind.
  - apply always_pmap with (Q := fun _ r => length r = length cols /\ Forall (fun w => 0 <= w < 65536) r). intros kz Hk.
    apply in_map_iff in Hk. destruct Hk as (k & <- & Hk). apply in_seq in Hk.
    eapply always_mono; [|apply always_pmap with (Q := fun _ w => 0 <= w < 65536)].
    + intros o (ws & -> & Hws). exists ws. split; [reflexivity|]. split; [rewrite <- (CacheProofs.Forall2_len _ _ _ Hws), map_length, seq_length; reflexivity|].
      clear -Hws. induction Hws; constructor; assumption.
    + intros iz Hi. apply in_map_iff in Hi. destruct Hi as (i & <- & Hi). apply in_seq in Hi.
      rewrite Hidx by lia. apply maxCell_always; [lia|lia|]. intros j Hj. apply gidx_spec in Hj; [|exact Hg|lia].
      destruct Hj as (l & _ & -> & Hlt). eauto.
  - intros rs Hrs. exists (concat rs). split; [reflexivity|]. exists rs. split; [reflexivity|].
    split; [rewrite <- (CacheProofs.Forall2_len _ _ _ Hrs), map_length, seq_length; reflexivity|].
    clear -Hrs. induction Hrs as [|? ? ? ? [H1 H2] _ [IH1 IH2]]; split; constructor; assumption.
Qed.

Lemma mergedH_always g : (1 <= g)%nat -> always (mergedWidthsHP t items (Z.of_nat g)) (good (WidthsOK g)).
Proof. intros Hg. unfold mergedWidthsHP. apply (widths_always H); [exact Hg|]. intros k Hk. rewrite items_len. reflexivity. Qed.

Lemma worth_quot g : (2 <= g)%nat -> let L := lineCount (length rows) g in
  (1 <= L)%nat /\ (Z.of_nat g >? Z.quot (Z.of_nat (length rows) - 1) (Z.of_nat L) + 1) = negb (worth_b V (length rows) g).
Proof.
  intros Hg L. assert (HL : (1 <= L)%nat).
  { unfold L, lineCount. destruct (length rows); [destruct (Nat.leb_spec 2 g); lia|]. generalize (n / g)%nat. lia. }
  split; [exact HL|]. cbn [worth_b]. fold L. destruct (length rows) as [|n] eqn:En.
  - assert (EL : L = 1%nat) by (unfold L; unfold lineCount; destruct (Nat.leb_spec 2 g); lia). rewrite EL.
    change (Z.quot (Z.of_nat 0 - 1) (Z.of_nat 1)) with (-1).
    destruct (Nat.ltb_spec ((g - 1) * 1) 0); [lia|]. cbn. lia.
  - replace (Z.of_nat (S n) - 1) with (Z.of_nat n) by lia. rewrite Z.quot_div_nonneg by lia.
    pose proof (Z.mul_div_le (Z.of_nat n) (Z.of_nat L) ltac:(lia)) as K1.
    pose proof (Z.mul_succ_div_gt (Z.of_nat n) (Z.of_nat L) ltac:(lia)) as K2.
    set (q := Z.of_nat n / Z.of_nat L) in *. destruct (Nat.ltb_spec ((g - 1) * L) (S n)); cbn [negb].
    + apply not_true_iff_false. intros K. apply Z.gtb_lt in K. nia.
    + apply Z.gtb_lt. nia.
Qed.

Lemma mergedV_always g : (2 <= g)%nat ->
  always (mergedWidthsVP t items (Z.of_nat g)) (good (fun r => if worth_b V (length rows) g then exists cw, r = Some cw /\ WidthsOK g cw else r = None)).
Proof.
  intros Hg. unfold mergedWidthsVP. rewrite items_len, lineCountOf_nat by lia. destruct (worth_quot g Hg) as [HL HW]. set (L := lineCount (length rows) g) in *.
  destruct (Z.eqb_spec (Z.of_nat L) 0) as [|_]; [lia|]. rewrite HW. destruct (worth_b V (length rows) g); cbn [negb].
  - eapply always_pbind; [apply (widths_always V g); [lia|]; intros k Hk; reflexivity|]. intros cw Hcw.
    exists (Some cw). split; [reflexivity|]. exists cw. split; [reflexivity|exact Hcw].
  - exists None. split; reflexivity.
Qed.

Definition calcP (m : mode) := match m with H => @compactHP Item Val E | V => @compactVP Item Val E end.

(** What the search may find. *)
Definition FoundOK (m : mode) (g0 extra fuel : nat) (cw : list Z) (r : option (outcome E (Z * list Z))) : Prop :=
  (r = None /\ forall g, (g0 + extra < g <= g0 + extra + fuel)%nat -> worth_b m (length rows) g = true)
  \/ exists (e : nat) cw', r = Some (Ok (Z.of_nat e, cw')) /\ (extra <= e < extra + fuel)%nat
     /\ (e = extra -> cw' = cw) /\ (extra < e -> WidthsOK (g0 + e) cw' /\ worth_b m (length rows) (g0 + e) = true)%nat.

Lemma calc_always m mw margin (g0 : nat) : (1 <= g0)%nat -> forall fuel (extra : nat) cw,
  always (calcP m fuel t items mw margin (Z.of_nat g0) (Z.of_nat extra) cw) (FoundOK m g0 extra fuel cw).
Proof.
  intros Hg0. induction fuel as [|fuel IH]; intros extra cw.
  - destruct m; left; (split; [reflexivity|]; intros g Hg; lia).
  - assert (Eg : Z.of_nat g0 + Z.of_nat extra + 1 = Z.of_nat (g0 + extra + 1)) by lia.
    assert (Ee : Z.of_nat extra + 1 = Z.of_nat (S extra)) by lia.
    assert (Stop : FoundOK m g0 extra (S fuel) cw (Some (Ok (Z.of_nat extra, cw)))).
    { right. exists extra, cw. split; [reflexivity|]. split; [lia|]. split; [reflexivity|]. lia. }
    assert (Next : forall cw', WidthsOK (g0 + extra + 1) cw' -> worth_b m (length rows) (g0 + extra + 1) = true ->
      forall r, FoundOK m g0 (S extra) fuel cw' r -> FoundOK m g0 extra (S fuel) cw r).
    { intros cw' Hcw' Hb r [[-> K]|(e & cw2 & -> & K1 & K2 & K3)].
      - left. split; [reflexivity|]. intros g Hg. destruct (Nat.eq_dec g (g0 + extra + 1)) as [->|]; [exact Hb|]. apply K. lia.
      - right. exists e, cw2. split; [reflexivity|]. split; [lia|]. split; [lia|]. intros _.
        destruct (Nat.eq_dec e (S extra)) as [->|Ne]; [|apply K3; lia]. rewrite (K2 eq_refl). replace (g0 + S extra)%nat with (g0 + extra + 1)%nat by lia. split; assumption. }
    destruct m; cbn [calcP compactHP compactVP]; rewrite Eg, Ee; apply always_bind.
    + eapply always_mono; [|apply mergedH_always; lia]. intros o (cw' & -> & Hcw'). destruct (totalWidthOf _ _ _ _ >? mw); [exact Stop|].
      eapply always_mono; [|apply (IH (S extra) cw')]. apply Next; [exact Hcw'|reflexivity].
    + eapply always_mono; [|apply mergedV_always; lia]. intros o (r & -> & Hr).
      destruct (worth_b V (length rows) (g0 + extra + 1)) eqn:Eb; [destruct Hr as (cw' & -> & Hcw')|subst r; exact Stop].
      destruct (totalWidthOf _ _ _ _ >? mw); [exact Stop|].
      eapply always_mono; [|apply (IH (S extra) cw')]. apply Next; [exact Hcw'|first [reflexivity|exact Eb]].
Qed.

Lemma readsP_default g : Reads (getWidthP_default t) (length cols) g (fun _ => recordedP t cols).
Proof.
  intros k Hk. split; [unfold recordedP; rewrite map_length; reflexivity|]. intros i w Hw.
  unfold getWidthP_default. rewrite (cp_columns _ _ _ _ _ HP). unfold recordedP in Hw. rewrite nth_map in Hw.
  destruct (nth_error cols i) as [col|] eqn:Ec; [|discriminate]. cbn [option_map] in Hw. injection Hw as <-.
  rewrite (index_nat _ i (Some col)) by (rewrite nth_map, Ec; reflexivity). reflexivity.
Qed.
Lemma range_default g : InRange (fun _ => recordedP t cols) g.
Proof.
  intros k _. apply Forall_forall. intros w Hw. apply in_map_iff in Hw. destruct Hw as (col & <- & Hc). exact (cp_widths _ _ _ _ _ HP col Hc).
Qed.
Lemma readsP_compact g cw : WidthsOK g cw -> exists W, Reads (E := E) (getWidth_compact (slen (ptColumns t)) cw) (length cols) g W /\ InRange W g.
Proof.
  intros (rs & -> & Hl & HF & HI). exists (fun k => nth k rs []). split; intros k Hk.
  - assert (Ek : nth_error rs k = Some (nth k rs [])) by (apply nth_error_nth'; lia). split; [rewrite Forall_forall in HF; apply HF; exact (nth_error_In _ _ Ek)|]. intros i w Hw.
    unfold getWidth_compact. rewrite (cp_columns _ _ _ _ _ HP). unfold slen. rewrite map_length.
    replace (Z.of_nat k * Z.of_nat (length cols) + Z.of_nat i) with (Z.of_nat (k * length cols + i)) by lia.
    apply index_nat. exact (nth_concat rs (length cols) HF k i _ w Ek Hw).
  - rewrite Forall_forall in HI. apply HI. apply nth_In. lia.
Qed.

Lemma estimateP_ok maxWidth sep :
  groupCountP t maxWidth sep = if reckonedP t cols sep mod 65536 =? 0 then Panic DivideByZero else Ok (estimateP t cols sep maxWidth).
Proof.
  set (c := plainCondition false true). set (w := vwidth c).
  set (t' := {| tSpec := {| ColumnByName := None; TimeFormat := []; Columns := map (option_map (plainColumn w)) (ptColumns t) |}; columnWidth := ptWidth t |} : Table Item Val E).
  rewrite <- (groupCount_plain c t t' maxWidth sep); [|split; reflexivity].
  rewrite (estimate_ok t' (map (plainColumn w) cols) maxWidth sep) by (cbn; rewrite (cp_columns _ _ _ _ _ HP), !map_map; reflexivity).
  assert (ER : reckoned t' (map (plainColumn w) cols) sep = reckonedP t cols sep).
  { unfold reckoned, recorded, reckonedP, recordedP, slen. rewrite map_map, map_length. reflexivity. }
  unfold estimate, estimateP. rewrite ER. reflexivity.
Qed.

Theorem merge_may m fuel maxWidth sep compact out st : reckonedP t cols sep mod 65536 <> 0 ->
  unsure (fun _ => true) 0 (mergeP m fuel t items maxWidth sep compact) out st ->
  (compact = true /\ st = Running /\ out = [] /\ (m = V -> fuel = 0%nat \/ (fuel < length rows)%nat))
  \/ (st = Finished /\ exists g W, (1 <= g)%nat /\ InRange W g /\ MayPrint als sep m rows g W out
      /\ ((Z.of_nat g = estimateP t cols sep maxWidth /\ W = fun _ => recordedP t cols)
          \/ (compact = true /\ estimateP t cols sep maxWidth < Z.of_nat g < estimateP t cols sep maxWidth + Z.of_nat fuel
              /\ Worth m rows g /\ forall k, (k < g)%nat -> length (W k) = length cols))).
Proof.
  intros Hr Hu. set (R := fun (out : list str) (st : status E) =>
    (compact = true /\ st = Running /\ out = [] /\ (m = V -> fuel = 0%nat \/ (fuel < length rows)%nat))
  \/ (st = Finished /\ exists g W, (1 <= g)%nat /\ InRange W g /\ MayPrint als sep m rows g W out
      /\ ((Z.of_nat g = estimateP t cols sep maxWidth /\ W = fun _ => recordedP t cols)
          \/ (compact = true /\ estimateP t cols sep maxWidth < Z.of_nat g < estimateP t cols sep maxWidth + Z.of_nat fuel
              /\ Worth m rows g /\ forall k, (k < g)%nat -> length (W k) = length cols)))).
  enough (G : alwaysW (fun _ => true) 0 (mergeP m fuel t items maxWidth sep compact) R) by exact (always_unsure _ _ _ _ _ Hu R G).
  set (g0 := Z.to_nat (estimateP t cols sep maxWidth)).
  assert (Hg0 : (1 <= g0)%nat) by (unfold g0, estimateP; lia).
  assert (Eg0 : estimateP t cols sep maxWidth = Z.of_nat g0) by (unfold g0, estimateP; lia).
  assert (Plain : alwaysW (fun _ => true) 0 (emitP t items sep (Z.of_nat g0) (getWidthP_default t) (zpos m (Z.of_nat g0))) R).
  { eapply alwaysW_mono; [|apply (emit_always sep m g0 _ _ 0 Hg0 (readsP_default g0) (range_default g0))].
    intros o s [-> Ho]. right. split; [reflexivity|]. exists g0, (fun _ => recordedP t cols). split; [exact Hg0|]. split; [apply range_default|]. split; [exact Ho|].
    left. split; [symmetry; exact Eg0|reflexivity]. }
  assert (Found : compact = true -> forall r, FoundOK m g0 0 fuel [] r -> alwaysW (fun _ => true) 0 (match r with
      | None => WRet Running
      | Some (Panic p) => WRet (Panicked p)
      | Some (Err e) => WRet (Failed e)
      | Some (Ok (extra, cellWidth)) =>
        if extra >? 0
        then emitP t items sep (Z.of_nat g0 + extra) (getWidth_compact (slen (ptColumns t)) cellWidth) (zpos m (Z.of_nat g0 + extra))
        else emitP t items sep (Z.of_nat g0) (getWidthP_default t) (zpos m (Z.of_nat g0)) end) R).
  { intros Hc r [[-> K]|(e & cw & -> & K1 & _ & K3)].
    - left. split; [exact Hc|]. split; [reflexivity|]. split; [reflexivity|]. intros ->.
      destruct fuel as [|f]; [left; reflexivity|right]. specialize (K (g0 + S f)%nat ltac:(lia)).
      destruct (worth_quot (g0 + S f) ltac:(lia)) as [HL _]. cbn [worth_b] in K. set (L := lineCount (length rows) (g0 + S f)) in *.
      assert ((g0 + S f - 1) * 1 <= (g0 + S f - 1) * L)%nat by (apply Nat.mul_le_mono_l; exact HL). lia.
    - destruct (Z.gtb_spec (Z.of_nat e) 0) as [Le|Le]; [|exact Plain].
      replace (Z.of_nat g0 + Z.of_nat e) with (Z.of_nat (g0 + e)) by lia. destruct (K3 ltac:(lia)) as [Hcw Hb].
      destruct (readsP_compact (g0 + e) cw Hcw) as (W & HW & HI).
      eapply alwaysW_mono; [|apply (emit_always sep m (g0 + e) _ _ 0 ltac:(lia) HW HI)].
      intros o s [-> Ho]. right. split; [reflexivity|]. exists (g0 + e)%nat, W. split; [lia|]. split; [exact HI|]. split; [exact Ho|].
      right. split; [exact Hc|]. split; [lia|]. split; [apply worth_spec; [lia|exact Hb]|]. intros k Hk. exact (proj1 (HW k Hk)). }
  destruct m; cbn [mergeP]; unfold mergeHP, mergeVP; rewrite estimateP_ok;
    (destruct (Z.eqb_spec (reckonedP t cols sep mod 65536) 0) as [K|_]; [contradiction|]); rewrite Eg0; cbv zeta;
    (destruct compact; [|exact Plain]); apply alwaysW_first; (eapply always_mono; [exact (Found eq_refl)|]).
  - exact (calc_always H _ _ g0 Hg0 fuel 0 []).
  - exact (calc_always V _ _ g0 Hg0 fuel 0 []).
Qed.

Theorem merge_may_zero m fuel maxWidth sep compact out st : reckonedP t cols sep mod 65536 = 0 ->
  unsure (fun _ => true) 0 (mergeP m fuel t items maxWidth sep compact) out st -> out = [] /\ st = Panicked DivideByZero.
Proof.
  intros Hr Hu. destruct m; cbn [mergeP] in Hu; unfold mergeHP, mergeVP in Hu; rewrite estimateP_ok, Hr in Hu; cbn in Hu; inversion Hu; subst; split; reflexivity.
Qed.

(** Reading back. *)
Lemma padded_text a n s x : PaddedBy a n s x -> exists l r, x = repeat space l ++ s ++ repeat space r.
Proof.
  destruct a; cbn [PaddedBy]; intros ->.
  - exists 0%nat, (Z.to_nat n). reflexivity.
  - exists (Z.to_nat n), 0%nat. cbn [repeat]. rewrite app_nil_r. reflexivity.
  - do 2 eexists. reflexivity.
Qed.
Lemma cellsMay_words as' ws row xs : CellsMay as' ws row xs -> Forall (fun s => s <> [] /\ ~ In space s) (firstn (length as') row) ->
  words (TableContract.join [space] xs) = firstn (length as') row.
Proof.
  induction 1 as [row|a as' w ws s row n x xs Hn Hx HC IH]; intros HF; [reflexivity|]. cbn [length firstn] in *. inversion HF as [|? ? [Hs1 Hs2] HF']; subst.
  destruct (padded_text _ _ _ _ Hx) as (l & r & ->). destruct xs as [|y xs].
  - cbn [TableContract.join]. rewrite <- (app_nil_r (repeat space l ++ s ++ repeat space r)), words_padded by auto. f_equal. inversion HC; subst. reflexivity.
  - change (TableContract.join [space] ((repeat space l ++ s ++ repeat space r) :: y :: xs)) with ((repeat space l ++ s ++ repeat space r) ++ [space] ++ TableContract.join [space] (y :: xs)).
    rewrite words_padded; [|exact Hs1|exact Hs2|right; eexists; reflexivity]. f_equal. cbn [app]. change (words (space :: ?l)) with (words l). apply IH, HF'.
Qed.
Lemma cellsMay_bytes z as' ws row xs : z <> space -> CellsMay as' ws row xs -> Forall (fun s => ~ In z s) (firstn (length as') row) ->
  ~ In z (TableContract.join [space] xs).
Proof.
  intros Hz HC HF. apply join_free; [intros [K|[]]; congruence|]. induction HC as [row|a as' w ws s row n x xs Hn Hx HC IH]; [constructor|].
  cbn [length firstn] in HF. inversion HF; subst. constructor; [|apply IH; assumption].
  destruct (padded_text _ _ _ _ Hx) as (l & r & ->). rewrite !in_app_iff. intros [K|[K|K]]; [apply repeat_spec in K; congruence|contradiction|apply repeat_spec in K; congruence].
Qed.
Lemma blocksMay_words W line : forall k bs, BlocksMay als W k line bs ->
  Forall (fun row => Forall (fun s => s <> [] /\ ~ In space s) (firstn (length als) row)) line ->
  map words bs = map (firstn (length als)) line.
Proof.
  induction 1 as [k|k row line xs bs HC HB IH]; intros HF; [reflexivity|]. inversion HF; subst. cbn [map]. rewrite (cellsMay_words _ _ _ _ HC), IH by assumption. reflexivity.
Qed.
Lemma blocksMay_bytes z W line : z <> space -> forall k bs, BlocksMay als W k line bs ->
  Forall (fun row => Forall (fun s => ~ In z s) (firstn (length als) row)) line -> Forall (fun b => ~ In z b) bs.
Proof.
  intros Hz. induction 1 as [k|k row line xs bs HC HB IH]; intros HF; [constructor|]. inversion HF; subst. constructor; [exact (cellsMay_bytes z _ _ _ _ Hz HC ltac:(assumption))|apply IH; assumption].
Qed.
Lemma blocksMay_len W line : forall k bs, BlocksMay als W k line bs -> length bs = length line.
Proof. induction 1; cbn; congruence. Qed.

Lemma lineMay_read x sep W g line txt : als <> [] -> Marks x sep -> (1 <= g)%nat -> (length line <= g)%nat ->
  Forall (fun row => (length als <= length row)%nat /\ Forall (Legible x) (firstn (length als) row)) line ->
  LineMay als sep W g line txt -> exists body, txt = body ++ [x0a] /\ ~ In x0a body /\ read_line sep body = map (firstn (length als)) line.
Proof.
  intros Ha (Hx1 & Hx2 & Hx3) Hg Hlen HF (bs & HB & ->). eexists. split; [reflexivity|].
  assert (F1 : Forall (fun row => Forall (fun s => s <> [] /\ ~ In space s) (firstn (length als) row)) line)
    by (eapply Forall_impl; [|exact HF]; intros row [_ K]; eapply Forall_impl; [|exact K]; intros s (K1 & K2 & _); auto).
  assert (F2 : Forall (fun row => Forall (fun s => ~ In x s) (firstn (length als) row)) line)
    by (eapply Forall_impl; [|exact HF]; intros row [_ K]; eapply Forall_impl; [|exact K]; intros s (_ & _ & _ & K2); auto).
  assert (F3 : Forall (fun row => Forall (fun s => ~ In x0a s) (firstn (length als) row)) line)
    by (eapply Forall_impl; [|exact HF]; intros row [_ K]; eapply Forall_impl; [|exact K]; intros s (_ & _ & K2 & _); auto).
  pose proof (blocksMay_words W line 0 bs HB F1) as HW. pose proof (blocksMay_bytes x W line Hx2 0 bs HB F2) as HX.
  pose proof (blocksMay_bytes x0a W line ltac:(discriminate) 0 bs HB F3) as HN. pose proof (blocksMay_len W line 0 bs HB) as HL.
  assert (Q : Forall (fun u => ~ In x u) (bs ++ if (length line <? g)%nat then [[]] else [])) by (apply Forall_app; split; [exact HX|]; destruct (length line <? g)%nat; repeat constructor; intros []).
  assert (Q' : Forall (fun u => ~ In x0a u) (bs ++ if (length line <? g)%nat then [[]] else [])) by (apply Forall_app; split; [exact HN|]; destruct (length line <? g)%nat; repeat constructor; intros []).
  split; [apply join_free; [exact Hx3|exact Q']|]. unfold read_line.
  rewrite (split_join x); [|exact Hx1| |exact Q].
  - rewrite map_app, HW. destruct (Nat.ltb_spec (length line) g) as [L|L].
    + cbn [map]. apply drop_empty_snoc.
    + cbn [map]. rewrite app_nil_r. apply drop_empty_keep; [destruct line; [cbn in L; lia|discriminate]|].
      clear -HF Ha. induction HF as [|row line [K1 K2] HF IH]; [constructor|]. cbn [map]. constructor; [|exact IH].
      destruct als as [|a l]; [congruence|]. destruct row; [cbn in K1; lia|discriminate].
  - destruct bs; [|discriminate]. cbn [length] in HL. rewrite <- HL. destruct (Nat.ltb_spec 0 g); [discriminate|lia].
Qed.

Theorem may_read x sep m g W out : als <> [] -> Marks x sep -> (1 <= g)%nat -> LegibleRows x (length als) rows ->
  MayPrint als sep m rows g W out ->
  exists lines, Layout m g rows lines /\ read_output sep (concat out) = map (map (firstn (length als))) lines.
Proof.
  intros Ha Hx Hg HLeg (lines & HL & HF). exists lines. split; [exact HL|].
  assert (EL : length cols = length als) by (symmetry; exact (CacheProofs.Forall2_len _ _ _ (cp_aligns _ _ _ _ _ HP))).
  assert (G : Forall (fun line => (length line <= g)%nat /\ Forall (fun row => (length als <= length row)%nat /\ Forall (Legible x) (firstn (length als) row)) line) lines).
  { apply Forall_forall. intros line Hin. split.
    - pose proof (layout_is m g rows lines Hg HL) as Ely. rewrite Ely in Hin. unfold layout_lines in Hin. apply in_map_iff in Hin. destruct Hin as (l & <- & _).
      clear. generalize (pos m g (lineCount (length rows) g) l). intros p. generalize (seq_length g 0). generalize (seq 0 g). intros ks <-. induction ks as [|k ks IH]; [reflexivity|]. cbn [picks length]. destruct (nth_error rows (p k)); cbn; lia.
    - apply Forall_forall. intros row Hrow. pose proof (layout_in m g rows lines line row Hg HL Hin Hrow) as Hr. split.
      + rewrite <- EL. pose proof (cp_long _ _ _ _ _ HP) as K. rewrite Forall_forall in K. exact (K row Hr).
      + unfold LegibleRows in HLeg. rewrite Forall_forall in HLeg. exact (HLeg row Hr). }
  assert (K : exists bodies, out = map (fun b => b ++ [x0a]) bodies /\ Forall (fun b => ~ In x0a b) bodies /\ map (read_line sep) bodies = map (map (firstn (length als))) lines).
  { clear HL. induction HF as [|line txt lines out Hl HF IH]; [exists []; repeat split; constructor|]. inversion G as [|? ? [G1 G2] G']; subst.
    destruct (IH G') as (bodies & -> & B1 & B2). destruct (lineMay_read x sep W g line txt Ha Hx Hg G1 G2 Hl) as (b & -> & K1 & K2).
    exists (b :: bodies). split; [reflexivity|]. split; [constructor; assumption|]. cbn [map]. rewrite K2, B2. reflexivity. }
  destruct K as (bodies & -> & B1 & B2). unfold read_output. rewrite split_lines, removelast_last by exact B1. exact B2.
Qed.
End Printing.

(** ** Conditions that change *)
Lemma get_in m s v : cache_get m s = Some v -> exists s', In (s', v) m.
Proof.
  induction m as [|[k' v'] m IH]; cbn; [discriminate|]. destruct (str_eqb s k').
  - intros [= ->]. exists k'. left. reflexivity.
  - intros K. destruct (IH K) as [s' K']. exists s'. right. exact K'.
Qed.
Lemma visualWidth_uint c keep m s : Uints m -> 0 <= fst (visualWidth c keep m s) < 65536 /\ Uints (snd (visualWidth c keep m s)).
Proof.
  intros HU. unfold visualWidth. destruct (cache_get m s) as [v|] eqn:Eg.
  - destruct (get_in _ _ _ Eg) as (s' & Hi). specialize (HU _ _ Hi) as Hv. cbv zeta. destruct (v >? 0); cbn [fst snd]; [split; assumption|].
    split; [apply vwidth_range|]. intros s2 v2 Hin. apply filter_In in Hin. destruct Hin as [[K|K] _]; [injection K as <- <-; apply vwidth_range|]. 
    try (apply filter_In in K; destruct K as [K _]). exact (HU _ _ K).
  - change (0 >? 0) with false. cbv iota zeta. cbn [fst snd]. split; [apply vwidth_range|]. intros s2 v2 Hin. apply filter_In in Hin. destruct Hin as [[K|K] _]; [injection K as <- <-; apply vwidth_range|].
    try (apply filter_In in K; destruct K as [K _]). exact (HU _ _ K).
Qed.

Theorem drifting_unsure {A} ok m n (p : wprog A) out a : Uints m -> drifting ok m n p out a -> unsure ok n p out a.
Proof.
  intros HU HD. revert HU. induction HD as [m n a|m n c keep s k out a HD IH|m n txt k out a HD IH|m m' n p out a HU' HD IH]; intros HU.
  - constructor.
  - destruct (visualWidth_uint c keep m s HU) as [H1 H2]. econstructor; [exact H1|]. exact (IH H2).
  - constructor. exact (IH HU).
  - exact (IH HU').
Qed.
End Types.
