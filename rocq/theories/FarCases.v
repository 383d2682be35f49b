(** * FarCases: lists for which the compact search stops early. *)
From Coq Require Import Strings.String.
From Verif Require Import GoBase Runewidth ConditionSpec Width WidthProofs AlignSpec Table Merge TableContract TableOpsProofs WidthTheory TableExamples
  MergeSpec MergeLayout MergeRender MergeSearch MergeTheory MergePlan MergeScreens MergeRecorded MergeExamples FarSpec FarProofs.
From Coq Require Import ZifyBool ZifyNat.
Local Open Scope Z_scope.

Definition fTable (w : Z) : Table (list str) str str :=
  fst (UpdateWidth (E := str) (NewTable (Some (add_all NewTableSpec [Some exName]))) [(lit "name"%string, w)]).
Definition fSep : str := lit "|"%string.
Definition xs (n : nat) : str := repeat x78 n.
(** One column; the cell of item [i] is [f i] letters long. *)
Definition fRows (f : nat -> nat) (n : nat) : list (list str) := map (fun i => [xs (f i)]) (seq 0 n).

Lemma fWidth w : 0 < w -> Width (fTable w) (colName exName) = w.
Proof.
  intros Hw. unfold fTable, UpdateWidth, raise_width, NewTable, wempty. cbn. destruct (Z.gtb_spec w 0); [|lia]. reflexivity.
Qed.
Lemma fColumns w : Columns (tSpec (fTable w)) = map Some [exName].
Proof. unfold fTable, UpdateWidth, raise_width, NewTable, wempty. cbn. destruct (Z.gtb_spec w 0); reflexivity. Qed.
Lemma xs_width n : Z.of_nat n < 65536 -> vwidth exC (xs n) = Z.of_nat n.
Proof.
  intros Hn. assert (slen (xs n) = Z.of_nat n) as EL by (unfold slen, xs; rewrite repeat_length; reflexivity).
  rewrite <- EL. apply ascii_width; [|apply Forall_forall; intros b Hb; apply repeat_spec in Hb; subst b; vm_compute; split; discriminate|lia].
  constructor.
Qed.
Lemma fRows_nth f n i : nth_error (fRows f n) i = if (i <? n)%nat then Some [xs (f i)] else None.
Proof. unfold fRows. rewrite nth_map, nth_seq. destruct (i <? n)%nat; reflexivity. Qed.
Lemma fRows_len f n : List.length (fRows f n) = n.
Proof. unfold fRows. rewrite map_length, seq_length. reflexivity. Qed.
Lemma fPrintable w f n : Printable (fTable w) [exName] (listOf (fRows f n)) (fRows f n).
Proof.
  split; [apply fColumns|apply listOf_serves|]. apply Forall_forall. intros r Hr. apply in_map_iff in Hr. destruct Hr as (i & <- & _). constructor.
Qed.
Lemma fCell f n i : (forall j, Z.of_nat (f j) < 65536) -> cellw exC (fRows f n) 0 (Z.of_nat i) = if (i <? n)%nat then Z.of_nat (f i) else 0.
Proof.
  intros Hf. unfold cellw, get2. rewrite Nat2Z.id, fRows_nth. destruct (i <? n)%nat; [|reflexivity]. cbn [nth_error]. apply xs_width, Hf.
Qed.
Lemma fReckoned w : 0 < w -> reckoned (fTable w) [exName] fSep = w + 1.
Proof. intros Hw. unfold reckoned, recorded. cbn [map]. rewrite (fWidth w Hw). cbn. lia. Qed.
Lemma fTotal m f n g : (1 <= g)%nat ->
  total fSep [exName] (gwidths [exName] exC m (fRows f n) g) g
  = Z.of_nat g - 1 + zsum (map (fun k => maxOf exC (fRows f n) 0 (gidx m n g (Z.of_nat k))) (seq 0 g)).
Proof.
  intros Hg. unfold total, gwidths. rewrite fRows_len. change (slen fSep) with 1. change (slen [exName]) with 1.
  replace (1 * (Z.of_nat g - 1) + (1 - 1) * Z.of_nat g) with (Z.of_nat g - 1) by lia. f_equal. f_equal. apply map_ext. intros k.
  cbn [List.length seq map]. change (zsum [?x]) with (x + 0). cbn. lia.
Qed.
Lemma zsum_ones (f : nat -> Z) k0 b : forall n s, (forall k, (s <= k < s + n)%nat -> f k = if (k =? k0)%nat then b else 1) -> (s <= k0 < s + n)%nat ->
  zsum (map f (seq s n)) = Z.of_nat n - 1 + b.
Proof.
  assert (A : forall n s, (forall k, (s <= k < s + n)%nat -> f k = 1) -> zsum (map f (seq s n)) = Z.of_nat n).
  { induction n as [|n IH]; intros s K; [reflexivity|]. cbn [seq map]. change (zsum (?x :: ?l)) with (x + zsum l). rewrite IH by (intros; apply K; lia).
    rewrite K by lia. lia. }
  induction n as [|n IH]; intros s K Hk; [lia|]. cbn [seq map]. change (zsum (?x :: ?l)) with (x + zsum l). rewrite (K s) by lia.
  destruct (Nat.eqb_spec s k0) as [->|Hne].
  - rewrite (A n (S k0)); [lia|]. intros k Hkk. rewrite K by lia. destruct (Nat.eqb_spec k k0); [lia|reflexivity].
  - rewrite IH; [lia| |lia]. intros k Hkk. apply K. lia.
Qed.

(** Two wide items, in one group out of [d], but in different groups out of two. *)
Definition wide (m : mode) (d i : nat) : bool := (i =? d)%nat || (i =? match m with H => 0 | V => d - 1 end)%nat.
Definition wideLen m d i : nat := if wide m d i then (2 * d)%nat else 1%nat.
Definition wideRows m d := fRows (wideLen m d) (2 * d).

Section Wide.
Context (m : mode) (d : nat).
Hypothesis Hodd : Nat.Odd d.
Hypothesis Hd : 3 <= Z.of_nat d <= 16383.

Lemma wide_len i : Z.of_nat (wideLen m d i) < 65536.
Proof. unfold wideLen. destruct (wide m d i); lia. Qed.
Lemma wide_le i : (1 <= wideLen m d i <= 2 * d)%nat.
Proof. unfold wideLen. destruct (wide m d i); lia. Qed.
Lemma wide_cell i : (i < 2 * d)%nat -> cellw exC (wideRows m d) 0 (Z.of_nat i) = Z.of_nat (wideLen m d i).
Proof. intros Hi. unfold wideRows. rewrite fCell by apply wide_len. destruct (Nat.ltb_spec i (2 * d)); [reflexivity|lia]. Qed.

Lemma lines_two : lineCount (2 * d) 2 = d.
Proof.
  pose proof (lineCount_spec (2 * d) 2 ltac:(lia) ltac:(lia)). lia.
Qed.
Lemma lines_d : lineCount (2 * d) d = 2%nat.
Proof.
  pose proof (lineCount_spec (2 * d) d ltac:(lia) ltac:(lia)) as [A B]. set (L := lineCount (2 * d) d) in *.
  destruct (le_lt_dec L 1) as [K|K]; [pose proof (Nat.mul_le_mono_r _ _ d K); lia|].
  destruct (le_lt_dec L 2) as [K'|K']; [lia|]. assert (2 <= L - 1)%nat as K2 by lia. pose proof (Nat.mul_le_mono_r _ _ d K2). lia.
Qed.
Lemma lines_one : lineCount (2 * d) 1 = (2 * d)%nat.
Proof. pose proof (lineCount_spec (2 * d) 1 ltac:(lia) ltac:(lia)). lia. Qed.

Definition shared_group : nat := match m with H => 0 | V => Nat.div2 d end.
Lemma shared_group_lt : (shared_group < d)%nat.
Proof. unfold shared_group. destruct m; [lia|]. apply Nat.lt_div2. lia. Qed.
Lemma d_is : d = S (2 * Nat.div2 d).
Proof. destruct Hodd as (q & ->). rewrite Nat.add_1_r, Nat.div2_succ_double. reflexivity. Qed.

Lemma max_two k : (k < 2)%nat -> maxOf exC (wideRows m d) 0 (gidx m (2 * d) 2 (Z.of_nat k)) = Z.of_nat (2 * d).
Proof.
  intros Hk. apply maxOf_is.
  - right. set (l := match m with H => match k with O => O | _ => Nat.div2 d end | V => match k with O => (d - 1)%nat | _ => O end end).
    set (p := pos m 2 (lineCount (2 * d) 2) l k).
    pose proof d_is as Dd. assert (Hl : (l < d)%nat) by (unfold l; destruct m, k; lia).
    assert (Hp : p = d \/ p = match m with H => 0%nat | V => (d - 1)%nat end).
    { unfold p. rewrite lines_two. unfold l, pos. destruct m, k as [|[|k]]; lia. }
    exists (Z.of_nat p). assert (p < 2 * d)%nat by (destruct Hp, m; lia). split.
    + apply gidx_spec; [lia|lia|]. exists l. rewrite lines_two at 1. split; [exact Hl|]. split; [reflexivity|]. fold p. lia.
    + rewrite wide_cell by lia. f_equal. unfold wideLen, wide. destruct Hp as [->| ->].
      * rewrite Nat.eqb_refl. reflexivity.
      * rewrite Nat.eqb_refl, orb_true_r. reflexivity.
  - intros j Hj. apply gidx_spec in Hj; [|lia|lia]. destruct Hj as (l & _ & -> & Hl). rewrite wide_cell by exact Hl. pose proof (wide_le (pos m 2 (lineCount (2 * d) 2) l k)). lia.
Qed.
Lemma max_d k : (k < d)%nat -> maxOf exC (wideRows m d) 0 (gidx m (2 * d) d (Z.of_nat k)) = if (k =? shared_group)%nat then Z.of_nat (2 * d) else 1.
Proof.
  intros Hk. pose proof d_is as Dd.
  assert (W : forall l, (l < 2)%nat -> wide m d (pos m d 2 l k) = (k =? shared_group)%nat).
  { intros l Hl. unfold wide, shared_group, pos. destruct m.
    - destruct l as [|[|l]]; [| |lia]; destruct (Nat.eqb_spec k 0); [subst; cbn; rewrite orb_true_r; reflexivity| |subst; rewrite Nat.mul_1_l, Nat.add_0_r, Nat.eqb_refl; reflexivity|].
      + destruct (Nat.eqb_spec (0 * d + k) d); [lia|]. destruct (Nat.eqb_spec (0 * d + k) 0); [lia|]. reflexivity.
      + destruct (Nat.eqb_spec (1 * d + k) d); [lia|]. destruct (Nat.eqb_spec (1 * d + k) 0); [lia|]. reflexivity.
    - destruct (Nat.eqb_spec k (Nat.div2 d)); destruct (Nat.eqb_spec (k * 2 + l) d), (Nat.eqb_spec (k * 2 + l) (d - 1)); cbn [orb]; try reflexivity; lia. }
  assert (P : forall l, (l < 2)%nat -> (pos m d 2 l k < 2 * d)%nat).
  { intros l Hl. unfold pos. destruct m; destruct l as [|[|l]]; lia. }
  apply maxOf_is.
  - right. exists (Z.of_nat (pos m d 2 0 k)). specialize (P 0%nat ltac:(lia)). split.
    + apply gidx_spec; [lia|exact Hk|]. exists 0%nat. rewrite lines_d. split; [lia|]. split; [reflexivity|exact P].
    + rewrite wide_cell by exact P. unfold wideLen. rewrite W by lia. destruct (k =? shared_group)%nat; reflexivity.
  - intros j Hj. apply gidx_spec in Hj; [|lia|exact Hk]. rewrite lines_d in Hj. destruct Hj as (l & Hl & -> & Hp). rewrite wide_cell by exact Hp.
    unfold wideLen. rewrite W by exact Hl. destruct (k =? shared_group)%nat; lia.
Qed.

Lemma missed : exists (t : Table (list str) str str) cols (rows : list (list str)) sep w,
  Printable t cols (listOf rows) rows /\ FitsRecorded exC t cols rows /\ List.length rows = (2 * d)%nat /\ 0 <= w < 65536
  /\ FitsIn exC cols sep w m rows d /\ (forall lines, Layout m d rows lines -> List.length lines = 2%nat)
  /\ exists fuel, let r := merge m fuel exC t (fun _ => true) (listOf rows) w sep true in
     stop r = Finished /\ List.length (written r) = (2 * d)%nat.
Proof.
  set (w := 4 * Z.of_nat d - 2). exists (fTable (Z.of_nat (2 * d))), [exName], (wideRows m d), fSep, w.
  pose proof (fWidth (Z.of_nat (2 * d)) ltac:(lia)) as EW.
  assert (Ln : List.length (wideRows m d) = (2 * d)%nat) by apply fRows_len.
  assert (HP := fPrintable (Z.of_nat (2 * d)) (wideLen m d) (2 * d)). fold (wideRows m d) in HP.
  split; [exact HP|]. split.
  { intros row i s col Hrow Hs Hc. destruct i as [|i]; [|destruct i; discriminate]. injection Hc as <-. rewrite EW.
    apply in_map_iff in Hrow. destruct Hrow as (i & <- & _). injection Hs as <-. rewrite xs_width by apply wide_len. pose proof (wide_le i). lia. }
  split; [exact Ln|]. split; [unfold w; lia|]. split.
  { eexists. split; [apply CompactTotal_is; [lia|reflexivity]|]. unfold wideRows. rewrite fTotal by lia. fold (wideRows m d).
    rewrite (zsum_ones _ shared_group (Z.of_nat (2 * d))); [unfold w; lia| |pose proof shared_group_lt; lia]. intros k Hk. apply max_d. lia. }
  split.
  { intros lines HL. apply layout_is in HL; [|lia]. subst lines. rewrite layout_len, Ln. apply lines_d. }
  exists 2%nat. cbv zeta. assert (Ee : effective w = w) by (unfold effective, w; destruct (Z.gtb_spec (4 * Z.of_nat d - 2) 65535); [lia|apply Z.mod_small; lia]).
  assert (Er : reckoned (fTable (Z.of_nat (2 * d))) [exName] fSep mod 65536 = Z.of_nat (2 * d) + 1) by (rewrite fReckoned by lia; apply Z.mod_small; lia).
  rewrite (plan_exact HP m w fSep true 1 (layout_lines m 1 (wideRows m d)) (fun _ => recorded (fTable (Z.of_nat (2 * d))) [exName]) 2).
  - cbn [stop written]. split; [reflexivity|]. unfold printed. rewrite map_length, layout_len, Ln. apply lines_one.
  - rewrite Er. lia.
  - exists 1%nat. split; [|split; [|split]].
    + unfold estimate. rewrite Er, Ee. change (slen fSep) with 1. rewrite Z.mod_small by (unfold w; lia).
      rewrite <- (Z.div_unique (w + 1) (Z.of_nat (2 * d) + 1) 1 (2 * Z.of_nat d - 2)); [reflexivity|left; lia|unfold w; lia].
    + split; [lia|]. split; [intros; lia|]. intros HA. apply acceptable_spec in HA; [|lia]. unfold acceptable_b in HA. apply andb_true_iff in HA. destruct HA as [_ HA].
      unfold wideRows in HA. rewrite fTotal in HA by lia. fold (wideRows m d) in HA. cbn [seq map] in HA. rewrite !max_two in HA by lia.
      change (zsum [?x; ?y]) with (x + (y + 0)) in HA. rewrite Ee in HA.
      rewrite Z.mod_small in HA by lia. unfold w in HA. lia.
    + apply layout_ok. lia.
    + left. split; reflexivity.
  - lia.
Qed.
End Wide.

(** Items of one letter, a recorded width from earlier. *)
Definition oneRows n := fRows (fun _ => 1%nat) n.
Lemma one_narrowing n : Narrowing exC [exName] (oneRows n).
Proof.
  intros i j r r' k s s' _ Hi Hj Hk Hs Hs'. unfold oneRows in *. rewrite fRows_nth in Hi, Hj. destruct (i <? n)%nat; [|discriminate]. destruct (j <? n)%nat; [|discriminate].
  injection Hi as <-. injection Hj as <-. cbn [List.length] in Hk. assert (k = 0%nat) by lia. subst k. injection Hs as <-. injection Hs' as <-. lia.
Qed.
Section One.
Context (n : nat).
Hypothesis Hn : 1 <= Z.of_nat n <= 32767.
Lemma one_total m g : (1 <= g)%nat -> total fSep [exName] (gwidths [exName] exC m (oneRows n) g) g
  = Z.of_nat g - 1 + zsum (map (fun k => if (pos m g (lineCount n g) 0 k <? n)%nat then 1 else 0) (seq 0 g)).
Proof.
  intros Hg. unfold oneRows. rewrite fTotal by exact Hg. f_equal. f_equal. apply map_ext_in. intros k Hk. apply in_seq in Hk.
  pose proof (first_line (fPrintable 1 (fun _ => 1%nat) n) (c := exC)) as F. rewrite fRows_len in F.
  rewrite F; [|intros K; apply (f_equal (@List.length _)) in K; rewrite fRows_len in K; cbn in K; lia|exact (one_narrowing n)|exact Hg|lia|cbn; lia].
  rewrite fCell by (intros; lia). reflexivity.
Qed.
Lemma zsum_first (f : nat -> Z) a : forall g s, (forall k, (s <= k < s + g)%nat -> f k = if (k <? a)%nat then 1 else 0) -> (s <= a <= s + g)%nat -> zsum (map f (seq s g)) = Z.of_nat (a - s).
Proof.
  induction g as [|g IH]; intros s K Ha; [replace (a - s)%nat with 0%nat by lia; reflexivity|]. cbn [seq map].
  change (zsum (?x :: ?l)) with (x + zsum l). rewrite (K s) by lia. destruct (Nat.ltb_spec s a).
  - rewrite (IH (S s)); [lia| |lia]. intros k Hk. apply K. lia.
  - assert (a = s) by lia. subst a. replace (zsum (map f (seq (S s) g))) with 0; [lia|]. symmetry.
    rewrite (map_ext_in f (fun _ => 0)); [|intros k Hk; apply in_seq in Hk; rewrite K by lia; destruct (Nat.ltb_spec k s); [lia|reflexivity]].
    clear. generalize (S s). induction g as [|g IH]; intros s'; [reflexivity|]. cbn [seq map]. change (zsum (?x :: ?l)) with (x + zsum l). rewrite IH. reflexivity.
Qed.

Lemma one_fits m : total fSep [exName] (gwidths [exName] exC m (oneRows n) n) n = 2 * Z.of_nat n - 1.
Proof.
  rewrite one_total by lia. rewrite (zsum_first _ n); [lia| |lia]. intros k Hk. assert (L1 : lineCount n n = 1%nat).
  { pose proof (lineCount_spec n n ltac:(lia) ltac:(lia)) as [A B]. destruct (le_lt_dec (lineCount n n) 1) as [K|K]; [pose proof (lineCount_pos n n ltac:(lia)); lia|].
    assert (1 <= lineCount n n - 1)%nat as K2 by lia. pose proof (Nat.mul_le_mono_r _ _ n K2). lia. }
  rewrite L1. destruct m; cbn [pos]; destruct (Nat.ltb_spec k n); destruct (Nat.ltb_spec (0 * n + k) n), (Nat.ltb_spec (k * 1 + 0) n); try reflexivity; lia.
Qed.

Lemma one_estimate : estimate (fTable 60000) [exName] fSep 65534 = 1 /\ reckoned (fTable 60000) [exName] fSep mod 65536 <> 0.
Proof. split; vm_compute; [reflexivity|discriminate]. Qed.

Lemma root : exists (t : Table (list str) str str) cols (rows : list (list str)) sep w,
  Printable t cols (listOf rows) rows /\ FitsRecorded exC t cols rows /\ slen rows = Z.of_nat n /\ 0 <= w < 65536
  /\ FitsIn exC cols sep w V rows n /\ (forall lines, Layout V n rows lines -> List.length lines = 1%nat)
  /\ (exists fuel, let r := merge V fuel exC t (fun _ => true) (listOf rows) w sep true in
      stop r = Finished /\ let L := slen (written r) in (Z.of_nat n - L) * (Z.of_nat n - L) < 2 * Z.of_nat n * (L * L))
  /\ exists fuel, let r := merge H fuel exC t (fun _ => true) (listOf rows) w sep true in
     stop r = Finished /\ List.length (written r) = 1%nat.
Proof.
  exists (fTable 60000), [exName], (oneRows n), fSep, 65534. destruct one_estimate as [Ee Er].
  assert (HP := fPrintable 60000 (fun _ => 1%nat) n). fold (oneRows n) in HP.
  assert (Ln : List.length (oneRows n) = n) by apply fRows_len.
  assert (Hne : oneRows n <> []) by (intros K; rewrite K in Ln; cbn in Ln; lia).
  assert (L1 : lineCount n n = 1%nat).
  { pose proof (lineCount_spec n n ltac:(lia) ltac:(lia)) as [A B]. destruct (le_lt_dec (lineCount n n) 1) as [K|K]; [pose proof (lineCount_pos n n ltac:(lia)); lia|].
    assert (1 <= lineCount n n - 1)%nat as K2 by lia. pose proof (Nat.mul_le_mono_r _ _ n K2). lia. }
  split; [exact HP|]. split.
  { intros row i s col Hrow Hs Hc. destruct i as [|i]; [|destruct i; discriminate]. injection Hc as <-. rewrite fWidth by lia.
    apply in_map_iff in Hrow. destruct Hrow as (i & <- & _). injection Hs as <-. vm_compute. discriminate. }
  split; [unfold slen; rewrite Ln; reflexivity|]. split; [lia|].
  assert (HF : forall m, FitsIn exC [exName] fSep 65534 m (oneRows n) n).
  { intros m. eexists. split; [apply CompactTotal_is; [lia|reflexivity]|]. rewrite one_fits. lia. }
  split; [apply HF|]. split; [intros lines HL; apply layout_is in HL; [|lia]; subst lines; rewrite layout_len, Ln; exact L1|].
  split.
  - exists (S n). cbv zeta.
    destruct (search_or (c := exC) (cols := [exName]) (rows := oneRows n) 65534 fSep V 1 n ltac:(lia)) as [A|(g & HS & Hg)].
    { exfalso. destruct (A (S n) ltac:(lia)) as [Wo _]. apply worth_spec in Wo; [|lia]. cbn [worth_b] in Wo. rewrite Ln in Wo.
      apply Nat.ltb_lt in Wo. pose proof (lineCount_pos n (S n) ltac:(lia)) as P. pose proof (Nat.mul_le_mono_l _ _ (S n - 1) P). lia. }
    assert (Hg1 : (1 <= g)%nat) by (destruct HS; lia).
    assert (HC : exists W, Chosen exC (fTable 60000) [exName] 1 g (layout_lines V g (oneRows n)) W).
    { destruct (Nat.eq_dec g 1) as [->|Hg']; [exists (fun _ => recorded (fTable 60000) [exName]); left; auto|]. exists (gwidths [exName] exC V (oneRows n) g).
      right. split; [lia|]. apply gwidths_ok, Hg1. }
    destruct HC as (W & HC).
    assert (Hst : stop (merge V (S n) exC (fTable 60000) (fun _ => true) (listOf (oneRows n)) 65534 fSep true) = Finished).
    { rewrite (plan_exact HP V 65534 fSep true g (layout_lines V g (oneRows n)) W (S n) Er); [reflexivity| |lia].
      exists 1%nat. split; [symmetry; exact Ee|]. split; [exact HS|]. split; [apply layout_ok, Hg1|exact HC]. }
    split; [exact Hst|]. pose proof (vertical_far HP Hne (S n) 65534 fSep Er Hst) as F. cbv zeta in F. rewrite Ee in F. replace (slen (oneRows n)) with (Z.of_nat n) in F by (unfold slen; rewrite Ln; reflexivity).
    destruct F as [F|F]; [|exact F].
    set (L := slen (written (merge V (S n) exC (fTable 60000) (fun _ => true) (listOf (oneRows n)) 65534 fSep true))) in *.
    assert (0 <= L) by (unfold L, slen; lia).
    destruct (Z.le_gt_cases L (Z.of_nat n)) as [K|K].
    + assert ((Z.of_nat n - L) * (Z.of_nat n - L) <= L * L) by (apply Z.mul_le_mono_nonneg; lia). assert (0 < L * L) by (apply Z.mul_pos_pos; lia).
      assert (1 * (L * L) <= Z.of_nat n * (L * L)) by (apply Z.mul_le_mono_nonneg_r; lia). lia.
    + assert ((L - Z.of_nat n) * (L - Z.of_nat n) <= L * L) by (apply Z.mul_le_mono_nonneg; lia). assert (0 < L * L) by (apply Z.mul_pos_pos; lia).
      assert (1 * (L * L) <= Z.of_nat n * (L * L)) by (apply Z.mul_le_mono_nonneg_r; lia). lia.
  - set (big := Z.to_nat 65536). assert (Hbig : Z.of_nat big = 65536) by (unfold big; apply Z2Nat.id; lia). exists (S big). cbv zeta.
    destruct (search_or (c := exC) (cols := [exName]) (rows := oneRows n) 65534 fSep H 1 big ltac:(lia)) as [A|(g & HS & Hg)].
    { exfalso. set (g := Z.to_nat (65536 - Z.of_nat n)). assert (Hg : Z.of_nat g = 65536 - Z.of_nat n) by (unfold g; apply Z2Nat.id; lia).
      specialize (A g ltac:(lia)). apply acceptable_spec in A; [|lia]. unfold acceptable_b in A. apply andb_true_iff in A. destruct A as [_ A].
      rewrite one_total in A by lia. rewrite (zsum_first _ n) in A; [| |lia].
      - replace (Z.of_nat g - 1 + Z.of_nat (n - 0)) with 65535 in A by lia. vm_compute in A. discriminate.
      - intros k Hk. cbn [pos]. rewrite Nat.mul_0_l, Nat.add_0_l. reflexivity. }
    assert (Hg1 : (1 <= g)%nat) by (destruct HS; lia).
    assert (HC : exists W, Chosen exC (fTable 60000) [exName] 1 g (layout_lines H g (oneRows n)) W).
    { destruct (Nat.eq_dec g 1) as [->|Hg']; [exists (fun _ => recorded (fTable 60000) [exName]); left; auto|]. exists (gwidths [exName] exC H (oneRows n) g).
      right. split; [lia|]. apply gwidths_ok, Hg1. }
    destruct HC as (W & HC).
    assert (EQ : merge H (S big) exC (fTable 60000) (fun _ => true) (listOf (oneRows n)) 65534 fSep true
      = {| written := printed exC [exName] fSep W g (layout_lines H g (oneRows n)); stop := Finished |}).
    { apply (plan_exact HP H 65534 fSep true g (layout_lines H g (oneRows n)) W (S big) Er); [|lia].
      exists 1%nat. split; [symmetry; exact Ee|]. split; [exact HS|]. split; [apply layout_ok, Hg1|exact HC]. }
    assert (Hst : stop (merge H (S big) exC (fTable 60000) (fun _ => true) (listOf (oneRows n)) 65534 fSep true) = Finished) by (rewrite EQ; reflexivity).
    split; [exact Hst|].
    pose proof (horizontal_best HP Hne (one_narrowing n) (S big) 65534 fSep Er Hst n _ ltac:(lia) (layout_ok H n (oneRows n) ltac:(lia)) (HF H)) as B. cbv zeta in B.
    rewrite layout_len, Ln, L1 in B. apply Nat.le_antisymm; [exact B|]. rewrite EQ. cbn [written]. unfold printed. rewrite map_length, layout_len, Ln. apply lineCount_pos. lia.
Qed.
End One.

(** A hundred items of one letter, on a screen of 300 cells. *)
Lemma hundred :
  Printable (fTable 200) [exName] (listOf (oneRows 100)) (oneRows 100) /\ Narrowing exC [exName] (oneRows 100)
  /\ reckoned (fTable 200) [exName] fSep mod 65536 <> 0
  /\ FitsIn exC [exName] fSep 300 V (oneRows 100) 100
  /\ (let r := merge V 300 exC (fTable 200) (fun _ => true) (listOf (oneRows 100)) 300 fSep true in stop r = Finished /\ List.length (written r) = 10%nat)
  /\ (let r := merge H 300 exC (fTable 200) (fun _ => true) (listOf (oneRows 100)) 300 fSep true in stop r = Finished /\ List.length (written r) = 1%nat).
Proof.
  split; [apply fPrintable|]. split; [apply one_narrowing|]. split; [vm_compute; discriminate|]. split.
  { eexists. split; [apply CompactTotal_is; [lia|reflexivity]|]. rewrite one_fits by lia. lia. }
  split; cbv zeta; (split; [vm_compute; reflexivity|vm_compute; reflexivity]).
Qed.

(** Widths 9, 7, 5, 5, 2, 1: two groups, since three would take 23 cells. *)
Definition downLen (i : nat) : nat := nth i [9; 7; 5; 5; 2; 1]%nat 0%nat.
Definition downRows := fRows downLen 6.
Lemma down :
  Printable (fTable 9) [exName] (listOf downRows) downRows /\ Narrowing exC [exName] downRows
  /\ (let r := merge H 9 exC (fTable 9) (fun _ => true) (listOf downRows) 22 fSep true in stop r = Finished /\ List.length (written r) = 3%nat)
  /\ (let r := merge V 9 exC (fTable 9) (fun _ => true) (listOf downRows) 19 fSep true in stop r = Finished /\ List.length (written r) = 2%nat)
  /\ FitsIn exC [exName] fSep 19 V downRows 3 /\ ~ FitsIn exC [exName] fSep 22 H downRows 3.
Proof.
  split; [apply fPrintable|]. split.
  { assert (A : forall i j, (i <= j)%nat -> (downLen j <= downLen i)%nat).
    { intros i j Hij. unfold downLen. do 7 (destruct i as [|i]; [do 7 (destruct j as [|j]; [cbn; lia|]); destruct j; cbn; lia|destruct j as [|j]; [lia|apply le_S_n in Hij]]). destruct i, j; cbn; lia. }
    intros i j r r' k s s' Hij Hi Hj Hk Hs Hs'. unfold downRows in *. rewrite fRows_nth in Hi, Hj. destruct (i <? 6)%nat; [|discriminate]. destruct (j <? 6)%nat; [|discriminate].
    injection Hi as <-. injection Hj as <-. cbn [List.length] in Hk. assert (k = 0%nat) by lia. subst k. injection Hs as <-. injection Hs' as <-.
    pose proof (A 0%nat i ltac:(lia)) as B. pose proof (A 0%nat j ltac:(lia)) as B'. specialize (A i j Hij). change (downLen 0) with 9%nat in B, B'.
    rewrite !xs_width by lia. apply Nat2Z.inj_le. exact A. }
  split; [split; vm_compute; reflexivity|]. split; [split; vm_compute; reflexivity|]. split.
  - eexists. split; [apply CompactTotal_is; [lia|reflexivity]|]. vm_compute. discriminate.
  - intros (x & Hx & Hle). apply CompactTotal_is in Hx; [|lia]. subst x. revert Hle. vm_compute. intros K. apply K. reflexivity.
Qed.
