(** * MergeWidths: widths of merged lines. *)
From Verif Require Import GoBase Utf8 Utf8Proofs GraphemeSpec Runewidth ConditionSpec Width TextSpec AlignSpec WidthProofs WidthTheory
  AlignProofs Table Merge TableContract TableOpsProofs
  MergeSpec MergeLayout MergeRender MergeSearch MergeTheory StringWidthProofs.
From Coq Require Import ZifyBool ZifyNat.
Local Open Scope Z_scope.

(** ** Joined texts *)
Lemma runes_three a sep b : Separates sep -> runes (a ++ sep ++ b) = runes a ++ runes sep ++ runes b.
Proof.
  intros (Hv & _ & (r & post & Er & _ & _) & _). unfold runes in *.
  assert (Es : exists x l, decode sep = x :: l /\ x <> (RuneError, 1)).
  { unfold ValidUTF8 in Hv. destruct (decode sep) as [|x l]; [discriminate|]. inversion Hv; subst. eauto. }
  destruct Es as (x & l & Es & Hx). pose proof (decode_valid_app sep b Hv) as E1.
  rewrite decode_app.
  - rewrite map_app, E1, map_app. reflexivity.
  - eapply (valid_noncont (sep ++ b) x (l ++ decode b)); auto. rewrite E1, Es. reflexivity.
Qed.

Lemma inert_not_prev r : Inert r -> ~ (class r = Extend \/ class r = ZWJ \/ class r = SpacingMark).
Proof. intros [->| ->] [K|[K|K]]; discriminate. Qed.

Lemma isolated_three a sep b : Separates sep -> Isolated a -> Isolated b -> Isolated (a ++ sep ++ b).
Proof.
  intros Hs [Ha1 Ha2] [Hb1 Hb2]. pose proof (runes_three a sep b Hs) as E.
  destruct Hs as (_ & _ & (r & post & Er & _ & Hr) & (pre' & r' & Er' & Hr')). split.
  - intros (x & rest & Ex & Hx). rewrite E in Ex. destruct (runes a) as [|y la] eqn:Ea.
    + cbn [app] in Ex. rewrite Er in Ex. injection Ex as <- _. exact (inert_not_prev _ Hr Hx).
    + injection Ex as <- _. apply Ha1. exists y, la. auto.
  - intros (rest & x & Ex & Hx). rewrite E in Ex. destruct (runes b) as [|y lb _] eqn:Eb using rev_ind.
    + rewrite app_nil_r, Er', app_assoc in Ex. apply app_inj_tail in Ex. destruct Ex as [_ <-].
      destruct Hr' as [K|K]; congruence.
    + rewrite !app_assoc in Ex. apply app_inj_tail in Ex. destruct Ex as [_ <-]. apply Hb2. exists lb, y. auto.
Qed.

Lemma isolated_nil : Isolated [].
Proof. split; [intros (r & post & E & _); discriminate|intros (pre & r & E & _); destruct pre; discriminate]. Qed.

Lemma join_width c sep parts : Reachable c -> Separates sep -> Forall Isolated parts -> parts <> [] ->
  rawWidth c (TableContract.join sep parts) = zsum (map (rawWidth c) parts) + (slen parts - 1) * StringWidth c sep
  /\ Isolated (TableContract.join sep parts).
Proof.
  intros Hc Hs HI. induction HI as [|p parts Hp Hps IH]; [congruence|]. intros _.
  destruct parts as [|q parts].
  - split; [|exact Hp]. cbn [TableContract.join map]. change (zsum [rawWidth c p]) with (rawWidth c p + 0). change (slen [p]) with 1. lia.
  - destruct (IH ltac:(discriminate)) as [IH1 IH2].
    change (TableContract.join sep (p :: q :: parts)) with (p ++ sep ++ TableContract.join sep (q :: parts)). split.
    + rewrite rawWidth_separates by (auto; first [apply Hp|apply IH2]). rewrite IH1.
      change (map (rawWidth c) (p :: q :: parts)) with (rawWidth c p :: map (rawWidth c) (q :: parts)).
      change (zsum (rawWidth c p :: map (rawWidth c) (q :: parts))) with (rawWidth c p + zsum (map (rawWidth c) (q :: parts))).
      rewrite (slen_cons p). lia.
    + apply isolated_three; auto.
Qed.

Lemma space_separates : Separates [space].
Proof. exact (Separates_spaces 1 ltac:(lia)). Qed.
Lemma space_width c : Reachable c -> StringWidth c [space] = 1.
Proof. intros Hc. change [space] with (spaces 1). apply StringWidth_spaces; [auto|lia]. Qed.

(** ** Sums modulo 65536 *)
Lemma sum_mod {A} (f h : A -> Z) l : (forall a, In a l -> f a mod 65536 = h a mod 65536) ->
  zsum (map f l) mod 65536 = zsum (map h l) mod 65536.
Proof.
  induction l as [|a l IH]; intros Hl; [reflexivity|]. cbn [map].
  change ((f a + zsum (map f l)) mod 65536 = (h a + zsum (map h l)) mod 65536).
  rewrite Z.add_mod, (Hl a (or_introl eq_refl)), IH, <- Z.add_mod by (try lia; intros; apply Hl; right; auto). reflexivity.
Qed.

Section Types.
Context {Item Val E : Type}.

(** The cells of a row are as narrow as the widths say. *)
Definition CellsFit c (ws : list Z) (row : list str) : Prop :=
  forall i s w, nth_error row i = Some s -> nth_error ws i = Some w -> vwidth c s <= w /\ Isolated s.

Lemma aligned_cell c (col : Column Item Val E) s w : Reachable c -> BuiltIn c col -> 0 <= w < 65536 -> vwidth c s <= w -> Isolated s ->
  rawWidth c (alignment_of c col s w) mod 65536 = w /\ Isolated (alignment_of c col s w).
Proof.
  intros Hc HB Hw Hs [HI1 HI2].
  assert (Ea : exists a, alignment_of c col = align a c).
  { unfold alignment_of. destruct HB as [->|(a & ->)]; [exists ALeft; reflexivity|exists a; reflexivity]. }
  destruct Ea as (a & Ea). rewrite Ea. split; [|apply align_isolated; auto].
  change (vwidth c (align a c s w) = w). rewrite align_vwidth; auto; [lia|]. destruct a; cbn; auto.
Qed.

Lemma cells_width c (cols : list (Column Item Val E)) ws row : Reachable c -> Forall (BuiltIn c) cols ->
  length ws = length cols -> (length cols <= length row)%nat -> Forall (fun w => 0 <= w < 65536) ws -> CellsFit c ws row ->
  Forall Isolated (cells c cols ws row) /\ length (cells c cols ws row) = length cols
  /\ zsum (map (rawWidth c) (cells c cols ws row)) mod 65536 = zsum ws mod 65536.
Proof.
  intros Hc HB. revert ws row. induction HB as [|col cols Hb HB IH]; intros ws row Hl Hr Hw HF.
  - destruct ws; [|discriminate]. repeat split; constructor.
  - destruct ws as [|w ws]; [discriminate|]. destruct row as [|s row]; [cbn in Hr; lia|]. cbn [cells].
    inversion Hw as [|? ? Hw0 Hw1]; subst. destruct (HF 0%nat s w eq_refl eq_refl) as [HF0 HI0].
    destruct (aligned_cell c col s w Hc Hb Hw0 HF0 HI0) as [K1 K2].
    destruct (IH ws row) as (J1 & J2 & J3); [cbn in Hl; lia|cbn in Hr; lia|auto| |].
    { intros i s' w' Hs' Hw'. apply (HF (S i) s' w' Hs' Hw'). }
    repeat split.
    + constructor; auto.
    + cbn. lia.
    + cbn [map]. change ((rawWidth c (alignment_of c col s w) + zsum (map (rawWidth c) (cells c cols ws row))) mod 65536
        = (w + zsum ws) mod 65536). rewrite Z.add_mod, K1, J3, Zplus_mod_idemp_r by lia. reflexivity.
Qed.

Lemma block_width c (cols : list (Column Item Val E)) ws row : Reachable c -> cols <> [] -> Forall (BuiltIn c) cols ->
  length ws = length cols -> (length cols <= length row)%nat -> Forall (fun w => 0 <= w < 65536) ws -> CellsFit c ws row ->
  rawWidth c (block c cols ws row) mod 65536 = (zsum ws + (slen cols - 1)) mod 65536 /\ Isolated (block c cols ws row).
Proof.
  intros Hc Hne HB Hl Hr Hw HF. destruct (cells_width c cols ws row Hc HB Hl Hr Hw HF) as (J1 & J2 & J3).
  destruct (join_width c [space] (cells c cols ws row) Hc space_separates J1) as [K1 K2].
  { intros E0. rewrite E0 in J2. cbn in J2. destruct cols; [congruence|discriminate]. }
  split; [|exact K2]. unfold block. rewrite K1, space_width by auto. rewrite Z.mul_1_r.
  rewrite Z.add_mod, J3, <- Z.add_mod by lia. unfold slen. rewrite J2. reflexivity.
Qed.

(** What a line needs for its groups to line up. *)
Record Aligned c (cols : list (Column Item Val E)) (W : nat -> list Z) (g : nat) (line : list (list str)) : Prop := {
  al_len : (length line <= g)%nat;
  al_long : Forall (fun row => (length cols <= length row)%nat) line;
  al_widths : forall k, (k < g)%nat -> length (W k) = length cols /\ Forall (fun w => 0 <= w < 65536) (W k);
  al_fit : forall k row, nth_error line k = Some row -> CellsFit c (W k) row
}.

Lemma blocks_width c (cols : list (Column Item Val E)) W : Reachable c -> cols <> [] -> Forall (BuiltIn c) cols ->
  forall line s g, (s + length line <= g)%nat -> Forall (fun row => (length cols <= length row)%nat) line ->
  (forall k, (k < g)%nat -> length (W k) = length cols /\ Forall (fun w => 0 <= w < 65536) (W k)) ->
  (forall k row, nth_error line k = Some row -> CellsFit c (W (s + k)%nat) row) ->
  Forall Isolated (blocks_from c cols W s line) /\ length (blocks_from c cols W s line) = length line
  /\ zsum (map (rawWidth c) (blocks_from c cols W s line)) mod 65536 =
     zsum (map (group_width cols W) (seq s (length line))) mod 65536
  /\ forall k b, nth_error (blocks_from c cols W s line) k = Some b -> vwidth c b = group_width cols W (s + k) mod 65536.
Proof.
  intros Hc Hne HB. induction line as [|row line IH]; intros s g Hs Hlong HW HF.
  - repeat split; try constructor. intros [|k] b Hb; discriminate.
  - inversion Hlong as [|? ? Hl0 Hl1]; subst. cbn [length] in Hs.
    destruct (HW s ltac:(lia)) as [HW1 HW2].
    pose proof (HF 0%nat row eq_refl) as HF0. rewrite Nat.add_0_r in HF0.
    destruct (block_width c cols (W s) row Hc Hne HB HW1 Hl0 HW2 HF0) as [B1 B2].
    destruct (IH (S s) g) as (J1 & J2 & J3 & J4); [lia|auto|auto| |].
    { intros k row' Hk. replace (S s + k)%nat with (s + S k)%nat by lia. apply HF. exact Hk. }
    cbn [blocks_from length seq map]. split; [constructor; auto|]. split; [lia|]. split.
    + change ((rawWidth c (block c cols (W s) row) + zsum (map (rawWidth c) (blocks_from c cols W (S s) line))) mod 65536 =
        (group_width cols W s + zsum (map (group_width cols W) (seq (S s) (length line)))) mod 65536).
      rewrite Z.add_mod, B1, J3, <- Z.add_mod by lia. reflexivity.
    + intros [|k] b Hb.
      * injection Hb as <-. rewrite Nat.add_0_r. exact B1.
      * replace (s + S k)%nat with (S s + k)%nat by lia. apply J4. exact Hb.
Qed.

Lemma start_split c (cols : list (Column Item Val E)) sep W k :
  start_of c cols sep W k = zsum (map (group_width cols W) (seq 0 k)) + Z.of_nat k * StringWidth c sep.
Proof.
  unfold start_of. rewrite (zsum_map_add (group_width cols W) (fun _ => StringWidth c sep)). f_equal.
  assert (K : forall s, zsum (map (fun _ : nat => StringWidth c sep) (seq s k)) = Z.of_nat k * StringWidth c sep); [|apply K].
  induction k as [|k IH]; intros s; [reflexivity|]. cbn [seq map].
  change (StringWidth c sep + zsum (map (fun _ : nat => StringWidth c sep) (seq (S s) k)) = Z.of_nat (S k) * StringWidth c sep).
  rewrite IH. lia.
Qed.

Lemma join_split sep pre b post : exists tail, TableContract.join sep (pre ++ b :: post) =
  concat (map (fun x => x ++ sep) pre) ++ b ++ tail.
Proof.
  induction pre as [|x pre (tail & IH)].
  - destruct post as [|y post]; cbn [app concat map].
    + exists []. cbn. rewrite app_nil_r. reflexivity.
    + exists (sep ++ TableContract.join sep (y :: post)). reflexivity.
  - exists tail. cbn [app concat map].
    destruct (pre ++ b :: post) as [|y l] eqn:El; [destruct pre; discriminate|].
    change (TableContract.join sep (x :: y :: l)) with (x ++ sep ++ TableContract.join sep (y :: l)).
    rewrite IH, <- !app_assoc. reflexivity.
Qed.

Lemma concat_width c sep pre : Reachable c -> Separates sep -> Forall Isolated pre ->
  rawWidth c (concat (map (fun x => x ++ sep) pre)) = zsum (map (rawWidth c) pre) + slen pre * StringWidth c sep.
Proof.
  intros Hc Hs HI. destruct pre as [|p pre'] eqn:Ep; [reflexivity|]. rewrite <- Ep in *.
  assert (EJ : concat (map (fun x => x ++ sep) pre) = TableContract.join sep (pre ++ [[]])).
  { clear. induction pre as [|x pre IH]; [reflexivity|]. cbn [map concat app].
    destruct (pre ++ [[]]) as [|y l] eqn:El; [destruct pre; discriminate|].
    change (TableContract.join sep (x :: y :: l)) with (x ++ sep ++ TableContract.join sep (y :: l)).
    rewrite IH, <- app_assoc. reflexivity. }
  rewrite EJ. destruct (join_width c sep (pre ++ [[]])) as [K _]; auto.
  - apply Forall_app. split; auto. constructor; [apply isolated_nil|constructor].
  - destruct pre; discriminate.
  - rewrite K, map_app, zsum_app. unfold slen. rewrite app_length. cbn [map length].
    change (zsum [rawWidth c []]) with 0. lia.
Qed.

Lemma group_starts c (cols : list (Column Item Val E)) sep W g line : Reachable c -> cols <> [] -> Forall (BuiltIn c) cols ->
  Separates sep -> Aligned c cols W g line -> forall k row, nth_error line k = Some row ->
  exists before after, line_text c cols sep W g line = before ++ block c cols (W k) row ++ after
    /\ vwidth c before = start_of c cols sep W k mod 65536
    /\ vwidth c (block c cols (W k) row) = group_width cols W k mod 65536.
Proof.
  intros Hc Hne HB Hs [A1 A2 A3 A4] k row Hk.
  assert (EB : forall line s, blocks_from c cols W s line = map (fun p => block c cols (W (fst p)) (snd p)) (combine (seq s (length line)) line)).
  { clear. induction line as [|r line IH]; intros s; [reflexivity|]. cbn. f_equal. apply IH. }
  assert (Hsplit : line = firstn k line ++ row :: skipn (S k) line).
  { clear -Hk. revert k Hk. induction line as [|r line IH]; intros [|k] Hk; try discriminate.
    - injection Hk as ->. reflexivity.
    - cbn [firstn skipn app]. f_equal. apply IH. exact Hk. }
  assert (Hlen : length (firstn k line) = k) by (rewrite firstn_length; apply nth_some_lt in Hk; lia).
  pose proof (nth_some_lt _ _ _ Hk) as Hlt.
  destruct (blocks_width c cols W Hc Hne HB line 0 g) as (J1 & J2 & J3 & J4); auto.
  assert (EBB : forall s l1 l2, blocks_from c cols W s (l1 ++ l2) = blocks_from c cols W s l1 ++ blocks_from c cols W (s + length l1) l2).
  { clear. intros s l1. revert s. induction l1 as [|r l1 IH]; intros s l2.
    - cbn. rewrite Nat.add_0_r. reflexivity.
    - cbn [app blocks_from length]. rewrite IH. rewrite Nat.add_succ_r. reflexivity. }
  assert (EQ : blocks_from c cols W 0 line = blocks_from c cols W 0 (firstn k line) ++ block c cols (W k) row :: blocks_from c cols W (S k) (skipn (S k) line)).
  { transitivity (blocks_from c cols W 0 (firstn k line ++ row :: skipn (S k) line)); [f_equal; exact Hsplit|].
    rewrite EBB, Hlen. reflexivity. }
  unfold line_text, blocks. rewrite EQ. rewrite <- app_assoc. cbn [app].
  destruct (join_split sep (blocks_from c cols W 0 (firstn k line)) (block c cols (W k) row)
    (blocks_from c cols W (S k) (skipn (S k) line) ++ (if (length line <? g)%nat then [[]] else []))) as (tail & ->).
  eexists. exists tail. split; [reflexivity|].
  destruct (blocks_width c cols W Hc Hne HB (firstn k line) 0 g) as (I1 & I2 & I3 & _).
  { lia. }
  { clear -A2. rewrite Forall_forall in *. intros x Hx. apply A2. rewrite <- (firstn_skipn k line). apply in_or_app. auto. }
  { exact A3. }
  { intros j r Hj. apply A4. rewrite nth_firstn in Hj. destruct (j <? k)%nat; [exact Hj|discriminate]. }
  split.
  - unfold vwidth, u16. rewrite concat_width by auto. rewrite start_split. unfold slen. rewrite I2, Hlen.
    rewrite Z.add_mod. rewrite I3, Hlen. rewrite <- Z.add_mod by lia. reflexivity. lia.
  - apply (J4 k). rewrite EQ. rewrite nth_error_app2.
    + assert (EL : length (blocks_from c cols W 0 (firstn k line)) = k) by lia. rewrite EL, Nat.sub_diag. reflexivity.
    + lia.
Qed.

Lemma line_width c (cols : list (Column Item Val E)) sep W g line : Reachable c -> cols <> [] -> Forall (BuiltIn c) cols ->
  Separates sep -> Aligned c cols W g line ->
  vwidth c (line_text c cols sep W g line) =
  (zsum (map (group_width cols W) (seq 0 (length line)))
   + (if (length line <? g)%nat then slen line else slen line - 1) * StringWidth c sep) mod 65536
  \/ line = [].
Proof.
  intros Hc Hne HB Hs [A1 A2 A3 A4]. destruct line as [|r0 line0] eqn:El; [right; reflexivity|]. left. rewrite <- El in *.
  destruct (blocks_width c cols W Hc Hne HB line 0 g) as (J1 & J2 & J3 & J4); auto.
  unfold line_text, blocks. set (bs := blocks_from c cols W 0 line) in *.
  assert (Hpos : (1 <= length line)%nat) by (rewrite El; cbn; lia).
  unfold vwidth, u16. destruct (Nat.ltb_spec (length line) g) as [L|L].
  - destruct (join_width c sep (bs ++ [[]])) as [K _]; auto.
    + apply Forall_app. split; auto. constructor; [apply isolated_nil|constructor].
    + destruct bs; discriminate.
    + rewrite K, map_app, zsum_app. cbn [map]. change (zsum [rawWidth c []]) with 0. rewrite Z.add_0_r.
      unfold slen. rewrite app_length, J2. cbn [length].
      rewrite Z.add_mod, J3, <- Z.add_mod by lia. f_equal. f_equal. f_equal. lia.
  - rewrite app_nil_r. destruct (join_width c sep bs) as [K _]; auto.
    + intros E0. rewrite E0 in J2. cbn in J2. lia.
    + rewrite K. unfold slen. rewrite J2. rewrite Z.add_mod, J3, <- Z.add_mod by lia. reflexivity.
Qed.

Lemma line_fits c (cols : list (Column Item Val E)) sep W g line mw : Reachable c -> cols <> [] -> Forall (BuiltIn c) cols ->
  Separates sep -> (1 <= g)%nat -> Aligned c cols W g line -> total sep cols W g <= mw -> mw < 65536 ->
  vwidth c (line_text c cols sep W g line) <= mw.
Proof.
  intros Hc Hne HB Hs Hg HA HT Hmw.
  assert (Hcols : 1 <= slen cols) by (destruct cols; [congruence|unfold slen; cbn; lia]).
  assert (Hsum : forall n, (n <= g)%nat -> 0 <= zsum (map (fun k => zsum (W k)) (seq 0 n)) <= zsum (map (fun k => zsum (W k)) (seq 0 g))).
  { assert (Hk : forall k, In k (seq 0 g) -> 0 <= zsum (W k)).
    { intros k Hk. apply in_seq in Hk. destruct (al_widths _ _ _ _ _ HA k ltac:(lia)) as [_ HF].
      clear -HF. induction HF as [|w l Hw _ IH]; [cbn; lia|]. change (0 <= w + zsum l). lia. }
    assert (Hpos : forall l, (forall k, In k l -> 0 <= zsum (W k)) -> 0 <= zsum (map (fun k => zsum (W k)) l)).
    { clear. induction l as [|k l IH]; intros Hl; [cbn; lia|]. cbn [map]. change (0 <= zsum (W k) + zsum (map (fun k => zsum (W k)) l)).
      specialize (IH ltac:(intros; apply Hl; right; auto)). specialize (Hl k (or_introl eq_refl)). lia. }
    intros n Hn. replace g with (n + (g - n))%nat by lia. rewrite seq_app, map_app, zsum_app.
    assert (0 <= zsum (map (fun k => zsum (W k)) (seq 0 n))) by (apply Hpos; intros k Hkk; apply Hk; apply in_seq in Hkk; apply in_seq; lia).
    assert (0 <= zsum (map (fun k => zsum (W k)) (seq (0 + n) (g - n)))) by (apply Hpos; intros k Hkk; apply Hk; apply in_seq in Hkk; apply in_seq; lia).
    lia. }
  assert (Hgw : forall n, zsum (map (group_width cols W) (seq 0 n)) = zsum (map (fun k => zsum (W k)) (seq 0 n)) + Z.of_nat n * (slen cols - 1)).
  { intros n. unfold group_width. rewrite (zsum_map_add (fun k => zsum (W k)) (fun _ => slen cols - 1)). f_equal.
    generalize 0%nat. induction n as [|n IH]; intros s; [reflexivity|]. cbn [seq map].
    change (slen cols - 1 + zsum (map (fun _ : nat => slen cols - 1) (seq (S s) n)) = Z.of_nat (S n) * (slen cols - 1)). rewrite IH. lia. }
  pose proof (al_len _ _ _ _ _ HA) as Hlen.
  assert (HS1 : 0 <= StringWidth c sep <= slen sep).
  { split; [apply StringWidth_bounds; auto|]. apply StringWidth_valid_bytes; auto. apply Hs. }
  unfold total in HT. specialize (Hsum (length line) Hlen).
  set (Sg := zsum (map (fun k => zsum (W k)) (seq 0 g))) in *.
  destruct (line_width c cols sep W g line Hc Hne HB Hs HA) as [K|K].
  - rewrite K, Hgw. set (sw := StringWidth c sep) in *.
    set (S1 := zsum (map (fun k => zsum (W k)) (seq 0 (length line)))) in *.
    set (n := if (length line <? g)%nat then slen line else slen line - 1).
    assert (Hn : n <= Z.of_nat g - 1) by (unfold n, slen; destruct (Nat.ltb_spec (length line) g); lia).
    assert (Hn0 : 0 <= n) by (unfold n, slen; destruct (Nat.ltb_spec (length line) g); lia).
    assert (Z.of_nat (length line) * (slen cols - 1) <= (slen cols - 1) * Z.of_nat g) by nia.
    assert (n * sw <= slen sep * (Z.of_nat g - 1)) by nia.
    rewrite Z.mod_small; [lia|]. split; [nia|lia].
  - subst line. assert (EE : vwidth c (line_text c cols sep W g []) = 0).
    { unfold line_text, blocks. cbn [blocks_from app]. destruct (_ <? _)%nat; reflexivity. }
    rewrite EE. assert (0 <= slen sep * (Z.of_nat g - 1)) by (unfold slen; nia).
    assert (0 <= (slen cols - 1) * Z.of_nat g) by nia. lia.
Qed.

(** ** The printed output *)
Section Printing.
Context {c : Condition} {t : Table Item Val E} {cols : list (Column Item Val E)} {items : FormattedItemList E}
  {rows : list (list str)}.
Hypothesis HP : Printable t cols items rows.
Hypothesis Hc : Reachable c.
Hypothesis HB : Forall (BuiltIn c) cols.
(** Cells that measure on their own. *)
Hypothesis HI : IsolatedCells cols rows.
Hypothesis HU : forall name, 0 <= Width t name < 65536.

Lemma line_rows m g lines line row : (1 <= g)%nat -> Layout m g rows lines -> In line lines -> In row line -> In row rows.
Proof.
  intros Hg HL Hline Hrow. apply layout_is in HL; auto. subst lines.
  apply In_nth_error in Hline. destruct Hline as (l & Hl). apply In_nth_error in Hrow. destruct Hrow as (k & Hk).
  pose proof (layout_get2 m g rows l k) as K. unfold get2 in K. rewrite Hl, Hk in K.
  destruct (_ && _); [|discriminate]. symmetry in K. eapply nth_error_In; eauto.
Qed.

Lemma reckoned_cols sep : reckoned t cols sep mod 65536 <> 0 -> cols <> [].
Proof. intros Hr ->. apply Hr. reflexivity. Qed.

(** Recorded widths. *)
Lemma recorded_aligned m g lines line : (1 <= g)%nat -> Layout m g rows lines -> In line lines ->
  FitsRecorded c t cols rows ->
  Aligned c cols (fun _ => recorded t cols) g line.
Proof.
  intros Hg HL Hline HF. split.
  - apply layout_is in HL; auto. subst. eapply layout_line_len; eauto.
  - apply Forall_forall. intros row Hrow. pose proof (pr_long _ _ _ _ HP) as Hlong. rewrite Forall_forall in Hlong.
    apply Hlong. eapply line_rows; eauto.
  - intros k Hk. unfold recorded. rewrite map_length. split; auto. apply Forall_forall. intros w Hw.
    apply in_map_iff in Hw. destruct Hw as (col & <- & _). auto.
  - intros k row Hk i s w Hs Hw. unfold recorded in Hw. rewrite nth_map in Hw.
    destruct (nth_error cols i) as [col|] eqn:Ec; [|discriminate]. injection Hw as <-.
    assert (In row rows) by (eapply line_rows; eauto; eapply nth_error_In; eauto). split.
    + eapply HF; eauto.
    + eapply HI; eauto. eapply nth_some_lt; eauto.
Qed.

(** Widths of groups. *)
Lemma group_aligned m g lines W line : (1 <= g)%nat -> Layout m g rows lines -> GroupWidths c cols lines g W -> In line lines ->
  Aligned c cols W g line.
Proof.
  intros Hg HL HG Hline. assert (Hlen : (length line <= g)%nat).
  { apply layout_is in HL; auto. subst. eapply layout_line_len; eauto. }
  split; auto.
  - apply Forall_forall. intros row Hrow. pose proof (pr_long _ _ _ _ HP) as Hlong. rewrite Forall_forall in Hlong.
    apply Hlong. eapply line_rows; eauto.
  - intros k Hk. destruct (HG k Hk) as [HG1 HG2]. split; auto. apply Forall_forall. intros w Hw.
    apply In_nth_error in Hw. destruct Hw as (i & Hi). destruct (HG2 i w Hi) as [[->|(l0 & r0 & s0 & _ & _ & _ & ->)] _]; [lia|].
    apply u16_range.
  - intros k row Hk i s w Hs Hw. assert (Hkg : (k < g)%nat) by (apply nth_some_lt in Hk; lia).
    destruct (HG k Hkg) as [HG1 HG2]. destruct (HG2 i w Hw) as [_ HM]. split.
    + apply HM. right. exists line, row, s. auto.
    + eapply HI; eauto.
      * eapply line_rows; eauto. eapply nth_error_In; eauto.
      * apply nth_some_lt in Hw. lia.
Qed.

Lemma chosen_aligned m g0 g lines W line : (1 <= g)%nat -> Layout m g rows lines -> Chosen c t cols g0 g lines W -> In line lines ->
  (g = g0 -> FitsRecorded c t cols rows) ->
  Aligned c cols W g line.
Proof.
  intros Hg HL HW Hline HF. destruct HW as [[-> ->]|[Hlt HG]].
  - eapply recorded_aligned; eauto.
  - eapply group_aligned; eauto.
Qed.

Lemma printed_in sep W g lines txt : In txt (printed c cols sep W g lines) ->
  exists line, In line lines /\ txt = line_text c cols sep W g line ++ [x0a].
Proof. unfold printed. rewrite in_map_iff. intros (line & <- & Hl). eauto. Qed.

Lemma plain_total sep maxWidth g : Separates sep -> 0 <= maxWidth -> Z.of_nat g = estimate t cols sep maxWidth ->
  reckoned t cols sep mod 65536 <> 0 -> maxWidth + slen sep < 65536 -> reckoned t cols sep < 65536 ->
  zsum (recorded t cols) + slen cols - 1 <= maxWidth ->
  total sep cols (fun _ => recorded t cols) g <= maxWidth.
Proof.
  intros Hs Hm0 Hg Hr Hm Hrk Hfit. unfold total.
  assert (Hsep : 1 <= slen sep).
  { destruct Hs as (_ & _ & (r & post & Er & _) & _). destruct sep; [discriminate|]. unfold slen. cbn [length]. lia. }
  assert (Hcols : 1 <= slen cols) by (pose proof (reckoned_cols sep Hr); destruct cols; [congruence|unfold slen; cbn [length]; lia]).
  assert (Hrec : 0 <= zsum (recorded t cols)).
  { unfold recorded. apply zsum_map_nonneg. intros col. apply HU. }
  assert (Hsum : zsum (map (fun _ : nat => zsum (recorded t cols)) (seq 0 g)) = Z.of_nat g * zsum (recorded t cols)).
  { generalize 0%nat. generalize g. clear. induction g as [|g IH]; intros s; [reflexivity|]. cbn [seq map].
    change (zsum (recorded t cols) + zsum (map (fun _ : nat => zsum (recorded t cols)) (seq (S s) g)) = Z.of_nat (S g) * zsum (recorded t cols)).
    rewrite IH. lia. }
  rewrite Hsum. unfold estimate in Hg.
  assert (He : effective maxWidth = maxWidth).
  { unfold effective. destruct (Z.gtb_spec maxWidth 65535); [lia|]. apply Z.mod_small. lia. }
  rewrite He in Hg. rewrite (Z.mod_small (maxWidth + slen sep)) in Hg by lia.
  assert (0 <= reckoned t cols sep) by (unfold reckoned; nia).
  rewrite (Z.mod_small (reckoned t cols sep)) in * by lia.
  destruct (Z_le_dec 1 ((maxWidth + slen sep) / reckoned t cols sep)) as [L|L].
  - pose proof (Z.mul_div_le (maxWidth + slen sep) (reckoned t cols sep) ltac:(lia)) as K.
    replace ((maxWidth + slen sep) / reckoned t cols sep) with (Z.of_nat g) in K by lia.
    unfold reckoned in K. unfold recorded in *. set (S0 := zsum (map _ cols)) in *. clearbody S0.
    assert (0 <= (slen cols - 1) * Z.of_nat g * (slen sep - 1)) by (apply Z.mul_nonneg_nonneg; [apply Z.mul_nonneg_nonneg|]; lia). lia.
  - replace g with 1%nat in * by lia. lia.
Qed.

Lemma plain_lines_fit m fuel sep maxWidth : Separates sep -> 0 <= maxWidth -> maxWidth + slen sep < 65536 ->
  reckoned t cols sep mod 65536 <> 0 -> reckoned t cols sep < 65536 -> zsum (recorded t cols) + slen cols - 1 <= maxWidth ->
  FitsRecorded c t cols rows ->
  forall txt, In txt (written (merge m fuel c t (fun _ => true) items maxWidth sep false)) ->
  exists line, txt = line ++ [x0a] /\ vwidth c line <= maxWidth.
Proof.
  intros Hs Hm0 Hm Hr Hrk Hfit HF txt Htxt. pose proof (estimate_pos t cols sep maxWidth) as Hp.
  set (g := Z.to_nat (estimate t cols sep maxWidth)). assert (Hg : Z.of_nat g = estimate t cols sep maxWidth) by lia.
  pose proof (layout_ok m g rows ltac:(lia)) as HL.
  rewrite (plain_ok HP m fuel maxWidth sep g _ Hr Hg HL) in Htxt. cbn [written] in Htxt.
  apply printed_in in Htxt. destruct Htxt as (line & Hline & ->). eexists. split; [reflexivity|].
  apply line_fits; auto.
  - eapply reckoned_cols; eauto.
  - lia.
  - eapply recorded_aligned; eauto. lia.
  - apply plain_total; auto.
  - pose proof (slen_nonneg sep); lia.
Qed.

Lemma compact_lines_fit m fuel sep maxWidth g0 g : Separates sep -> reckoned t cols sep mod 65536 <> 0 ->
  Z.of_nat g0 = estimate t cols sep maxWidth -> Search c cols sep maxWidth m rows g0 g -> (g0 < g < g0 + fuel)%nat ->
  (forall w, CompactTotal c cols sep m rows g w -> w < 65536) ->
  forall txt, In txt (written (merge m fuel c t (fun _ => true) items maxWidth sep true)) ->
  exists line, txt = line ++ [x0a] /\ vwidth c line <= effective maxWidth.
Proof.
  intros Hs Hr Hg0 HS Hg Htot txt Htxt. pose proof (estimate_pos t cols sep maxWidth) as Hp.
  destruct (chosen_exists (c := c) (t := t) (cols := cols) (rows := rows) m g0 g ltac:(lia) (proj1 HS)) as (lines & W & HL & HW).
  rewrite (compact_ok HP m fuel maxWidth sep g0 g lines W) in Htxt; auto; [|lia]. cbn [written] in Htxt.
  apply printed_in in Htxt. destruct Htxt as (line & Hline & ->). eexists. split; [reflexivity|].
  destruct HW as [[E0 _]|[_ HG]]; [lia|].
  pose proof (effective_range maxWidth) as Heff.
  apply line_fits; auto.
  - eapply reckoned_cols; eauto.
  - lia.
  - eapply group_aligned; eauto. lia.
  - assert (HCT : CompactTotal c cols sep m rows g (total sep cols W g)) by (exists lines, W; auto).
    destruct HS as (_ & HS & _). destruct (HS g ltac:(lia)) as (_ & w & Hw & Hle).
    assert (w = total sep cols W g).
    { apply CompactTotal_is in Hw; [|lia]. apply CompactTotal_is in HCT; [|lia]. congruence. }
    subst w. specialize (Htot _ HCT). rewrite Z.mod_small in Hle; [auto|]. split; [|auto].
    unfold total. assert (Hcols : 1 <= slen cols) by (pose proof (reckoned_cols sep Hr); destruct cols; [congruence|unfold slen; cbn [length]; lia]).
    assert (0 <= zsum (map (fun k => zsum (W k)) (seq 0 g))).
    { assert (Hall : forall k, In k (seq 0 g) -> 0 <= zsum (W k)).
      { intros k Hk. apply in_seq in Hk. destruct (HG k ltac:(lia)) as [_ HG2].
        assert (HF : Forall (fun w => 0 <= w) (W k)).
        { apply Forall_forall. intros w0 Hw0. apply In_nth_error in Hw0. destruct Hw0 as (i & Hi). apply (HG2 i w0 Hi). auto. }
        clear -HF. induction HF as [|w l Hw _ IH]; [cbn; lia|]. change (0 <= w + zsum l). lia. }
      clear -Hall. induction (seq 0 g) as [|k l IH]; [cbn; lia|]. cbn [map].
      change (0 <= zsum (W k) + zsum (map (fun k => zsum (W k)) l)).
      specialize (IH ltac:(intros; apply Hall; right; auto)). specialize (Hall k (or_introl eq_refl)). lia. }
    assert (0 <= slen sep * (Z.of_nat g - 1)) by (unfold slen; nia).
    assert (0 <= (slen cols - 1) * Z.of_nat g) by nia. lia.
  - lia.
Qed.

Lemma plan_starts m sep maxWidth compact g lines W : Separates sep -> reckoned t cols sep mod 65536 <> 0 ->
  Plan c t cols sep maxWidth m rows compact g lines W -> FitsRecorded c t cols rows ->
  forall line k row, In line lines -> nth_error line k = Some row ->
  exists before after, line_text c cols sep W g line = before ++ block c cols (W k) row ++ after
    /\ vwidth c before = start_of c cols sep W k mod 65536
    /\ vwidth c (block c cols (W k) row) = group_width cols W k mod 65536.
Proof.
  intros Hs Hr (g0 & Hg0 & HS & HL & HW) HF line k row Hline Hk.
  pose proof (estimate_pos t cols sep maxWidth) as Hp.
  assert (Hg : (1 <= g)%nat) by (destruct compact; [destruct HS|]; lia).
  eapply group_starts; eauto.
  - eapply reckoned_cols; eauto.
  - eapply chosen_aligned; eauto.
Qed.
End Printing.
End Types.
