(** * SizeProofs: how many bytes merged rows take. *)
From Coq Require Import ZifyBool ZifyNat.
From Verif Require Import GoBase Runewidth Width TextSpec AlignSpec AlignProofs Table TableContract TableOpsProofs StreamProofs
  Merge MergeSpec MergeLayout MergeSearch MergeTheory MergePlan MergeRecorded SizeSpec.
Local Open Scope Z_scope.

(** ** Sums *)
Lemma zsum_cons x l : zsum (x :: l) = x + zsum l.
Proof. reflexivity. Qed.
Lemma zsum_app l l' : zsum (l ++ l') = zsum l + zsum l'.
Proof. induction l as [|x l IH]; [reflexivity|]. cbn [app]. rewrite !zsum_cons. lia. Qed.
Lemma zsum_plus {A} (f g : A -> Z) l : zsum (map (fun x => f x + g x) l) = zsum (map f l) + zsum (map g l).
Proof. induction l as [|x l IH]; [reflexivity|]. cbn [map]. rewrite !zsum_cons. lia. Qed.
Lemma zsum_scale {A} a (f : A -> Z) l : zsum (map (fun x => a * f x) l) = a * zsum (map f l).
Proof. induction l as [|x l IH]; [cbn; lia|]. cbn [map]. rewrite !zsum_cons. lia. Qed.
Lemma zsum_one {A} (l : list A) : zsum (map (fun _ => 1) l) = slen l.
Proof. induction l as [|x l IH]; [reflexivity|]. cbn [map]. rewrite zsum_cons, IH. unfold slen. cbn [length]. lia. Qed.
Lemma zsum_monotone {A} (f g : A -> Z) l : (forall x, In x l -> f x <= g x) -> zsum (map f l) <= zsum (map g l).
Proof.
  induction l as [|x l IH]; intros K; [cbn; lia|]. cbn [map]. rewrite !zsum_cons. pose proof (K x (or_introl eq_refl)).
  specialize (IH (fun y Hy => K y (or_intror Hy))). lia.
Qed.
Lemma zsum_eq {A} (f g : A -> Z) l : (forall x, In x l -> f x = g x) -> zsum (map f l) = zsum (map g l).
Proof. intros K. f_equal. apply map_ext_in. exact K. Qed.
Lemma zsum_concat {A} (f : A -> Z) ls : zsum (map f (concat ls)) = zsum (map (fun l => zsum (map f l)) ls).
Proof. induction ls as [|l ls IH]; [reflexivity|]. cbn [concat map]. rewrite map_app, zsum_app, zsum_cons. lia. Qed.
Lemma zsum_swap {A B} (f : A -> B -> Z) la lb :
  zsum (map (fun a => zsum (map (fun b => f a b) lb)) la) = zsum (map (fun b => zsum (map (fun a => f a b) la)) lb).
Proof.
  induction la as [|a la IH].
  - cbn [map]. induction lb as [|b lb IHb]; [reflexivity|]. cbn [map]. rewrite zsum_cons, <- IHb. reflexivity.
  - cbn [map]. rewrite zsum_cons, IH, <- zsum_plus. apply zsum_eq. intros b _. rewrite zsum_cons. reflexivity.
Qed.

(** ** The items of all lines *)
Definition opt {A} (f : A -> Z) (o : option A) : Z := match o with Some a => f a | None => 0 end.
Lemma zsum_nth {A} (f : A -> Z) l : forall B, (length l <= B)%nat ->
  zsum (map f l) = zsum (map (fun k => opt f (nth_error l k)) (seq 0 B)).
Proof.
  induction l as [|x l IH]; intros B HB.
  - cbn [map]. transitivity (zsum (map (fun k => 0 * 0) (seq 0 B))); [rewrite zsum_scale; reflexivity|].
    apply zsum_eq. intros k _. destruct k; reflexivity.
  - destruct B as [|B]; [cbn in HB; lia|]. cbn [map seq]. rewrite !zsum_cons. rewrite <- seq_shift, map_map. cbn [nth_error opt].
    rewrite (IH B) by (cbn in HB; lia). reflexivity.
Qed.
Lemma zsum_get2 {A} (f : A -> Z) (M : list (list A)) L B : (length M <= L)%nat -> (forall r, In r M -> (length r <= B)%nat) ->
  zsum (map (fun r => zsum (map f r)) M) = zsum (map (fun l => zsum (map (fun k => opt f (get2 M l k)) (seq 0 B))) (seq 0 L)).
Proof.
  intros HL HB. rewrite (zsum_nth _ _ L HL). apply zsum_eq. intros l _. unfold get2.
  destruct (nth_error M l) as [r|] eqn:K; cbn [opt].
  - apply zsum_nth. apply HB. eapply nth_error_In; eauto.
  - symmetry. transitivity (zsum (map (fun _ : nat => 0 * 0) (seq 0 B))); [reflexivity|]. rewrite zsum_scale. reflexivity.
Qed.
Lemma layout_sum {A} (f : A -> Z) m g (rows : list A) lines : (1 <= g)%nat -> Layout m g rows lines ->
  zsum (map (fun line => zsum (map f line)) lines) = zsum (map f rows).
Proof.
  intros Hg [[Hne HL]|[-> ->]]; [|destruct (2 <=? g)%nat; reflexivity].
  destruct m.
  - destruct HL as [<- _]. rewrite zsum_concat. reflexivity.
  - destruct HL as (columns & <- & HR & Hc & H2 & HF & Hlt). rewrite zsum_concat.
    rewrite (zsum_get2 f columns (length columns) (length lines)); auto.
    2:{ intros r Hr. destruct HR as [HR _]. rewrite Forall_forall in HR. apply HR; auto. }
    rewrite (zsum_get2 f lines (length lines) (length columns)); auto.
    2:{ intros r Hr. destruct (In_nth_error _ _ Hr) as (l & Hl).
        destruct (Nat.le_gt_cases (length r) (length columns)) as [K|K]; [exact K|exfalso].
        specialize (H2 l (length columns)). unfold get2 in H2. rewrite Hl in H2.
        rewrite (proj2 (nth_error_None columns (length columns))) in H2 by lia.
        apply nth_error_None in H2. lia. }
    rewrite zsum_swap. apply zsum_eq. intros k _. apply zsum_eq. intros l _. rewrite H2. reflexivity.
Qed.
Lemma layout_items {A} m g (rows : list A) lines : (1 <= g)%nat -> Layout m g rows lines ->
  zsum (map slen lines) = slen rows.
Proof.
  intros Hg HL. rewrite <- (zsum_one rows), <- (layout_sum _ m g rows lines Hg HL). apply zsum_eq. intros l _. symmetry. apply zsum_one.
Qed.

(** ** The lines, and the short ones among them *)
Lemma lines_of_nat n g : (1 <= g)%nat -> (1 <= n)%nat -> Z.of_nat (lineCount n g) = lines_of (Z.of_nat n) (Z.of_nat g).
Proof.
  intros Hg Hn. destruct n as [|n]; [lia|]. unfold lineCount, lines_of. rewrite Nat2Z.inj_add, Nat2Z.inj_div.
  replace (Z.of_nat (S n) + Z.of_nat g - 1) with (Z.of_nat n + 1 * Z.of_nat g) by lia.
  rewrite Z.div_add by lia. reflexivity.
Qed.
Definition b2z (b : bool) : Z := if b then 1 else 0.
Lemma count_above a L : forall s, zsum (map (fun l => b2z (a <=? l)%nat) (seq s L)) = Z.min (Z.of_nat L) (Z.max 0 (Z.of_nat (s + L) - Z.of_nat a)).
Proof.
  induction L as [|L IH]; intros s; cbn [seq map]; [unfold zsum; cbn [fold_right]; lia|].
  rewrite zsum_cons, IH. unfold b2z. destruct (Nat.leb_spec a s); lia.
Qed.
Lemma line_short {A} m g (rows : list A) l line : (1 <= g)%nat -> nth_error (layout_lines m g rows) l = Some line ->
  (length line <? g)%nat = (length rows <=? pos m g (lineCount (length rows) g) l (g - 1))%nat.
Proof.
  intros Hg Hl. pose proof (layout_get2 m g rows l (g - 1)) as K. unfold get2 in K. rewrite Hl in K.
  assert (Hlt : (l < lineCount (length rows) g)%nat) by (rewrite <- (layout_len m g rows); eapply nth_some_lt; eauto).
  rewrite (proj2 (Nat.ltb_lt _ _) Hlt) in K. rewrite (proj2 (Nat.ltb_lt (g - 1) g)) in K by lia. cbn [andb] in K.
  pose proof (layout_line_len m g rows line (nth_error_In _ _ Hl)) as Hle.
  destruct (Nat.ltb_spec (length line) g) as [K1|K1], (Nat.leb_spec (length rows) (pos m g (lineCount (length rows) g) l (g - 1))) as [K2|K2]; auto; exfalso.
  - rewrite (proj2 (nth_error_None line (g - 1))) in K by lia. symmetry in K. apply nth_error_None in K. lia.
  - rewrite (proj2 (nth_error_None rows _) K2) in K. apply nth_error_None in K. lia.
Qed.
Lemma layout_short {A} m g (rows : list A) lines : (1 <= g)%nat -> rows <> [] -> Layout m g rows lines ->
  slen lines = lines_of (slen rows) (Z.of_nat g)
  /\ zsum (map (fun line => b2z (length line <? g)%nat) lines) = short_of m (slen rows) (Z.of_nat g).
Proof.
  intros Hg Hne HL. apply (layout_is m g rows lines Hg) in HL. subst lines.
  assert (Hn : (1 <= length rows)%nat) by (destruct rows; [contradiction|cbn; lia]).
  pose proof (lines_of_nat (length rows) g Hg Hn) as EL. pose proof (lineCount_spec (length rows) g Hg Hn) as [S1 S2].
  split; [unfold slen; rewrite layout_len; exact EL|].
  unfold short_of. unfold slen. rewrite <- EL. set (L := lineCount (length rows) g) in *.
  assert (HL1 : (1 <= L)%nat) by (apply lineCount_pos; lia).
  rewrite (zsum_nth _ _ L) by (rewrite layout_len; unfold L; lia).
  transitivity (zsum (map (fun l => b2z (length rows <=? pos m g L l (g - 1))%nat) (seq 0 L))).
  { apply zsum_eq. intros l Hl. apply in_seq in Hl.
    destruct (nth_error (layout_lines m g rows) l) as [line|] eqn:K; cbn [opt].
    - rewrite (line_short m g rows l line Hg K). reflexivity.
    - apply nth_error_None in K. rewrite layout_len in K. fold L in K. lia. }
  destruct m; unfold pos.
  - destruct L as [|L']; [lia|]. rewrite seq_S, map_app, zsum_app. cbn [map plus].
    replace (zsum (map (fun l => b2z (length rows <=? l * g + (g - 1))%nat) (seq 0 L'))) with 0.
    + rewrite zsum_cons. unfold b2z. destruct (Nat.leb_spec (length rows) (L' * g + (g - 1))) as [K|K]; cbn [zsum fold_right]; nia.
    + symmetry. transitivity (zsum (map (fun _ : nat => 0 * 0) (seq 0 L'))); [|rewrite zsum_scale; reflexivity].
      apply zsum_eq. intros l Hl. apply in_seq in Hl. unfold b2z.
      destruct (Nat.leb_spec (length rows) (l * g + (g - 1))) as [K|K]; [|reflexivity].
      assert (l * g <= (L' - 1) * g)%nat by (apply Nat.mul_le_mono_r; lia).
      replace (S L' - 1)%nat with L' in S1 by lia. assert (L' = (L' - 1) + 1)%nat as E0 by lia. rewrite E0 in S1. nia.
  - transitivity (zsum (map (fun l => b2z (length rows - (g - 1) * L <=? l)%nat) (seq 0 L))).
    { apply zsum_eq. intros l Hl. f_equal. destruct (Nat.leb_spec (length rows) ((g - 1) * L + l)), (Nat.leb_spec (length rows - (g - 1) * L) l); auto; lia. }
    rewrite count_above. assert (Z.of_nat ((g - 1) * L) = Z.of_nat g * Z.of_nat L - Z.of_nat L) by nia.
    assert (Z.of_nat (length rows) <= Z.of_nat g * Z.of_nat L) by nia. rewrite Nat.add_0_l. lia.
Qed.

(** ** The bytes of a line *)
Lemma slen_app {A} (a b : list A) : slen (a ++ b) = slen a + slen b.
Proof. unfold slen. rewrite app_length. lia. Qed.
Lemma slen_join sep l : l <> [] -> slen (TableContract.join sep l) = zsum (map slen l) + slen sep * (slen l - 1).
Proof.
  induction l as [|x l IH]; intros Hne; [contradiction|]. destruct l as [|y l].
  - cbn [TableContract.join map zsum fold_right]. unfold slen. cbn [length]. lia.
  - assert (K : slen (TableContract.join sep (x :: y :: l)) = slen x + slen sep + slen (TableContract.join sep (y :: l))) by (cbn [TableContract.join]; rewrite !slen_app; lia).
    rewrite K, IH by discriminate. cbn [map]. rewrite !zsum_cons. change (slen (x :: y :: l)) with (slen ([x] ++ y :: l)). rewrite slen_app.
    change (slen [x]) with 1. generalize (slen (y :: l)). intros n. lia.
Qed.
Lemma slen_concat ls : slen (concat ls) = zsum (map (@slen byte) ls).
Proof. induction ls as [|l ls IH]; [reflexivity|]. cbn [concat map]. rewrite slen_app, zsum_cons. lia. Qed.

Section Types.
Context {Item Val E : Type}.
Notation Table := (Table Item Val E).
Notation Column := (Column Item Val E).

Lemma alignment_bytes c (col : Column) s w : BuiltIn c col -> 0 <= w < 65536 ->
  slen (alignment_of c col s w) = slen s + Z.max 0 (w - vwidth c s).
Proof.
  intros HB Hw. unfold alignment_of. destruct HB as [->|(a & ->)]; [|apply align_length; auto].
  apply (align_length ALeft c s w Hw).
Qed.
Lemma cells_bytes c (cols : list Column) : Forall (BuiltIn c) cols -> forall ws row, length ws = length cols -> (length cols <= length row)%nat ->
  Forall (fun w => 0 <= w < 65536) ws ->
  slen (cells c cols ws row) = slen ws /\
  zsum (map slen (cells c cols ws row)) = zsum (map (fun p => slen (snd p) + Z.max 0 (fst p - vwidth c (snd p))) (combine ws row)).
Proof.
  induction 1 as [|col cols HB _ IH]; intros ws row Hl Hr Hw.
  - destruct ws; [|discriminate]. split; reflexivity.
  - destruct ws as [|w ws]; [discriminate|]. destruct row as [|s row]; [cbn in Hr; lia|]. inversion Hw as [|? ? Hw1 Hw2]; subst.
    destruct (IH ws row) as [I1 I2]; [cbn in Hl; lia|cbn in Hr; lia|auto|].
    cbn [cells combine map]. rewrite !zsum_cons. cbn [fst snd]. rewrite alignment_bytes by auto. rewrite I2. split; [|reflexivity].
    unfold slen in *. cbn [length]. lia.
Qed.
Lemma block_bytes c (cols : list Column) ws row : cols <> [] -> Forall (BuiltIn c) cols -> length ws = length cols ->
  (length cols <= length row)%nat -> Forall (fun w => 0 <= w < 65536) ws ->
  slen (block c cols ws row) = row_bytes c ws row.
Proof.
  intros Hne HB Hl Hr Hw. destruct (cells_bytes c cols HB ws row Hl Hr Hw) as [I1 I2]. unfold block, row_bytes.
  rewrite slen_join.
  - rewrite I2, I1. change (slen [space]) with 1. lia.
  - intros K. rewrite K in I1. unfold slen in I1. cbn [length] in I1. destruct cols; [contradiction|]. cbn [length] in Hl. lia.
Qed.

(** All blocks of a line, the first in group [k]. *)
Definition line_bytes c (W : nat -> list Z) (k : nat) (line : list (list str)) : Z :=
  zsum (map (fun p => row_bytes c (W (fst p)) (snd p)) (combine (seq k (length line)) line)).
Definition Good (cols : list Column) (W : nat -> list Z) (g : nat) : Prop :=
  forall k, (k < g)%nat -> length (W k) = length cols /\ Forall (fun w => 0 <= w < 65536) (W k).

Lemma blocks_bytes c (cols : list Column) W g : cols <> [] -> Forall (BuiltIn c) cols -> Good cols W g -> forall line k,
  (k + length line <= g)%nat -> Forall (fun row => (length cols <= length row)%nat) line ->
  slen (blocks_from c cols W k line) = slen line /\ zsum (map slen (blocks_from c cols W k line)) = line_bytes c W k line.
Proof.
  intros Hne HB HG. induction line as [|row line IH]; intros k Hk HF; [split; reflexivity|].
  inversion HF as [|? ? HF1 HF2]; subst. destruct (IH (S k)) as [I1 I2]; [cbn in Hk; lia|auto|].
  destruct (HG k) as [G1 G2]; [cbn in Hk; lia|]. unfold line_bytes in *. cbn [blocks_from map length seq combine]. rewrite !zsum_cons. cbn [fst snd].
  rewrite I2, block_bytes by auto. split; [|reflexivity]. unfold slen in *. cbn [length]. lia.
Qed.
Lemma text_bytes c (cols : list Column) sep W g line : cols <> [] -> Forall (BuiltIn c) cols -> Good cols W g ->
  line <> [] -> (length line <= g)%nat -> Forall (fun row => (length cols <= length row)%nat) line ->
  slen (line_text c cols sep W g line) = line_bytes c W 0 line + slen sep * (slen line - 1 + b2z (length line <? g)%nat).
Proof.
  intros Hne HB HG Hl Hg HF. destruct (blocks_bytes c cols W g Hne HB HG line 0 Hg HF) as [I1 I2].
  unfold line_text, blocks. unfold str in *. rewrite slen_join.
  - unfold str in *. rewrite map_app, zsum_app, I2, slen_app, I1. destruct (length line <? g)%nat; cbn [b2z map].
    + change (zsum [slen []]) with 0. change (slen [[]]) with 1. lia.
    + change (zsum []) with 0. change (slen []) with 0. lia.
  - destruct line; [contradiction|]. discriminate.
Qed.
Lemma printed_bytes c (cols : list Column) sep W g m rows lines : cols <> [] -> Forall (BuiltIn c) cols -> Good cols W g -> (1 <= g)%nat ->
  rows <> [] -> Forall (fun row : list str => (length cols <= length row)%nat) rows -> Layout m g rows lines ->
  size (printed c cols sep W g lines) = size_of sep m (slen rows) (Z.of_nat g) (zsum (map (line_bytes c W 0) lines)).
Proof.
  intros Hc HB HG Hg Hne HF HL. unfold size, printed. rewrite slen_concat, map_map.
  destruct (layout_short m g rows lines Hg Hne HL) as [L1 L2]. pose proof (layout_items m g rows lines Hg HL) as L3.
  unfold size_of, separators. rewrite <- L1, <- L2, <- L3.
  assert (HLines : forall line, In line lines -> line <> [] /\ (length line <= g)%nat /\ Forall (fun row : list str => (length cols <= length row)%nat) line).
  { intros line Hin. split; [|split].
    - destruct HL as [[_ HL]|[K _]]; [|contradiction]. destruct m.
      + destruct HL as [_ [HR _]]. rewrite Forall_forall in HR. apply HR; auto.
      + destruct HL as (columns & _ & _ & _ & _ & HR & _). rewrite Forall_forall in HR. apply HR; auto.
    - apply (layout_is m g rows lines Hg) in HL. subst lines. eapply layout_line_len; eauto.
    - apply Forall_forall. intros row Hr. rewrite Forall_forall in HF. apply HF.
      destruct (In_nth_error _ _ Hin) as (l & El). destruct (In_nth_error _ _ Hr) as (k & Ek).
      apply (layout_is m g rows lines Hg) in HL. subst lines. pose proof (layout_get2 m g rows l k) as K. unfold get2 in K. rewrite El, Ek in K.
      destruct ((l <? lineCount (length rows) g)%nat && (k <? g)%nat); [|discriminate]. symmetry in K. eapply nth_error_In; eauto. }
  transitivity (zsum (map (fun line => (line_bytes c W 0 line + 1) + slen sep * ((slen line + b2z (length line <? g)%nat) + (-1) * 1)) lines)).
  { apply zsum_eq. intros line Hin. destruct (HLines line Hin) as (A & B & C). rewrite slen_app, text_bytes by auto. change (slen [x0a]) with 1. lia. }
  rewrite zsum_plus, zsum_scale, !zsum_plus, zsum_scale, !zsum_one. lia.
Qed.

(** ** Widths *)
Lemma row_bytes_le c ws ws' row : Forall2 Z.le ws ws' -> row_bytes c ws row <= row_bytes c ws' row.
Proof.
  intros K. unfold row_bytes. assert (slen ws = slen ws') as -> by (unfold slen; clear row; induction K; cbn [length]; lia).
  enough (forall r, zsum (map (fun p => slen (snd p) + Z.max 0 (fst p - vwidth c (snd p))) (combine ws r)) <=
    zsum (map (fun p => slen (snd p) + Z.max 0 (fst p - vwidth c (snd p))) (combine ws' r))) as J by (apply Z.add_le_mono_r; exact (J row)).
  induction K as [|w w' ws ws' Hw _ IH]; intros r; [cbn; lia|]. destruct r as [|s r]; [cbn; lia|].
  cbn [combine map fst snd]. rewrite !zsum_cons. specialize (IH r). lia.
Qed.
Lemma row_bytes_bare c ws row : bare_bytes (slen ws) row <= row_bytes c ws row.
Proof.
  unfold bare_bytes, row_bytes. enough (forall r, zsum (map slen (firstn (Z.to_nat (slen ws)) r)) <=
    zsum (map (fun p => slen (snd p) + Z.max 0 (fst p - vwidth c (snd p))) (combine ws r))) as J by (apply Z.add_le_mono_r; exact (J row)).
  replace (Z.to_nat (slen ws)) with (length ws) by (unfold slen; lia). induction ws as [|w ws IH]; intros r; [cbn; lia|]. destruct r as [|s r]; [cbn; lia|].
  cbn [length firstn combine map fst snd]. rewrite !zsum_cons. specialize (IH r). lia.
Qed.
Lemma line_bytes_const c ws k line : line_bytes c (fun _ => ws) k line = zsum (map (row_bytes c ws) line).
Proof.
  unfold line_bytes. revert k. induction line as [|row line IH]; intros k; [reflexivity|]. cbn [length seq combine map].
  rewrite !zsum_cons, IH. reflexivity.
Qed.
Lemma line_bytes_le c W g (F : list str -> Z) line : forall k, (k + length line <= g)%nat ->
  (forall j row, (j < g)%nat -> row_bytes c (W j) row <= F row) -> line_bytes c W k line <= zsum (map F line).
Proof.
  unfold line_bytes. induction line as [|row line IH]; intros k Hk K; [cbn; lia|]. cbn [length seq combine map fst snd].
  rewrite !zsum_cons. cbn [length] in Hk. specialize (IH (S k) ltac:(lia) K). pose proof (K k row ltac:(lia)). cbn [fst snd]. lia.
Qed.
Lemma line_bytes_ge c W g (F : list str -> Z) line : forall k, (k + length line <= g)%nat ->
  (forall j row, (j < g)%nat -> F row <= row_bytes c (W j) row) -> zsum (map F line) <= line_bytes c W k line.
Proof.
  unfold line_bytes. induction line as [|row line IH]; intros k Hk K; [cbn; lia|]. cbn [length seq combine map fst snd].
  rewrite !zsum_cons. cbn [length] in Hk. specialize (IH (S k) ltac:(lia) K). pose proof (K k row ltac:(lia)). cbn [fst snd]. lia.
Qed.
Lemma zero_columns (t : Table) cols sep : reckoned t cols sep mod 65536 <> 0 -> cols <> [].
Proof. intros K ->. apply K. reflexivity. Qed.
Lemma recorded_good (t : Table) cols g : (forall name, 0 <= Width t name < 65536) -> Good cols (fun _ => recorded t cols) g.
Proof.
  intros HW k _. unfold recorded. split; [apply map_length|]. apply Forall_forall. intros w Hw. apply in_map_iff in Hw.
  destruct Hw as (col & <- & _). apply HW.
Qed.
Lemma group_good c (cols : list Column) lines g W : GroupWidths c cols lines g W -> Good cols W g.
Proof.
  intros HG k Hk. destruct (HG k Hk) as [G1 G2]. split; [exact G1|]. apply Forall_forall. intros w Hw.
  destruct (In_nth_error _ _ Hw) as (i & Hi). destruct (G2 i w Hi) as [[->|(line & row & s & _ & _ & _ & ->)] _]; [lia|apply vwidth_range].
Qed.

Section Printing.
Context {c : Condition} {t : Table} {cols : list Column} {items : FormattedItemList E} {rows : list (list str)}.
Hypothesis HP : Printable t cols items rows.
Hypothesis HB : Forall (BuiltIn c) cols.
Hypothesis HW : forall name, 0 <= Width t name < 65536.
Hypothesis Hne : rows <> [].

Lemma plan_good m sep maxWidth compact g lines W : Plan c t cols sep maxWidth m rows compact g lines W -> Good cols W g.
Proof. intros (g0 & _ & _ & _ & [[_ ->]|[_ HG]]); [apply recorded_good, HW|eapply group_good; eauto]. Qed.

(** What any plan takes. *)
Lemma plan_size m sep maxWidth compact g lines W : reckoned t cols sep mod 65536 <> 0 ->
  Plan c t cols sep maxWidth m rows compact g lines W ->
  size (printed c cols sep W g lines) = size_of sep m (slen rows) (Z.of_nat g)
    (zsum (map (fun line => zsum (map (fun p => row_bytes c (W (fst p)) (snd p)) (combine (seq 0 (length line)) line))) lines)).
Proof.
  intros Hr HPl. pose proof (plan_pos _ _ _ _ _ _ _ HPl) as Hg. pose proof (plan_good _ _ _ _ _ _ _ HPl) as HG.
  destruct HPl as (g0 & _ & _ & HL & _). apply printed_bytes; auto; [eapply zero_columns; eauto|apply (pr_long _ _ _ _ HP)].
Qed.

Lemma plain_size m fuel sep maxWidth : reckoned t cols sep mod 65536 <> 0 ->
  let r := merge m fuel c t (fun _ => true) items maxWidth sep false in
  slen (written r) = lines_of (slen rows) (estimate t cols sep maxWidth)
  /\ size (written r) = size_of sep m (slen rows) (estimate t cols sep maxWidth) (zsum (map (row_bytes c (recorded t cols)) rows)).
Proof.
  intros Hr r. pose proof (estimate_pos t cols sep maxWidth) as Hp.
  set (g0 := Z.to_nat (estimate t cols sep maxWidth)). assert (Hg0 : Z.of_nat g0 = estimate t cols sep maxWidth) by lia.
  assert (HPl : Plan c t cols sep maxWidth m rows false g0 (layout_lines m g0 rows) (fun _ => recorded t cols)).
  { exists g0. repeat split; auto; [apply layout_ok; lia|left; auto]. }
  assert (Er : written r = printed c cols sep (fun _ => recorded t cols) g0 (layout_lines m g0 rows)).
  { unfold r. destruct (plan_output (c := c) HP m fuel maxWidth sep false Hr) as (g & lines & W & HPl' & ->).
    - destruct (merge_stops (c := c) HP m fuel maxWidth sep false Hr) as [K|[K _]]; [exact K|discriminate].
    - cbn [written]. destruct HPl' as (g0' & Hg0' & -> & HL & [[_ ->]|[K _]]); [|lia].
      assert (g0' = g0) as -> by lia. rewrite (layout_is m g0 rows lines ltac:(lia) HL). reflexivity. }
  pose proof (layout_ok m g0 rows ltac:(lia)) as HL. destruct (layout_short m g0 rows _ ltac:(lia) Hne HL) as [L1 _]. rewrite Er. split.
  - rewrite <- Hg0, <- L1. unfold printed, slen. rewrite map_length. reflexivity.
  - rewrite (plan_size _ _ _ _ _ _ _ Hr HPl), Hg0. f_equal. rewrite <- (layout_sum _ m g0 rows _ ltac:(lia) HL).
    apply zsum_eq. intros line _. exact (line_bytes_const c (recorded t cols) 0 line).
Qed.

Lemma compact_size m fuel sep maxWidth : reckoned t cols sep mod 65536 <> 0 -> FitsRecorded c t cols rows ->
  let r := merge m fuel c t (fun _ => true) items maxWidth sep true in
  stop r = Finished ->
  exists g content, estimate t cols sep maxWidth <= g /\ slen (written r) = lines_of (slen rows) g
    /\ size (written r) = size_of sep m (slen rows) g content
    /\ zsum (map (bare_bytes (slen cols)) rows) <= content <= zsum (map (row_bytes c (recorded t cols)) rows).
Proof.
  intros Hr HF r Hst. unfold r in *. destruct (plan_output (c := c) HP m fuel maxWidth sep true Hr Hst) as (g & lines & W & HPl & ->). cbn [written].
  pose proof (plan_pos _ _ _ _ _ _ _ HPl) as Hg. pose proof (plan_good _ _ _ _ _ _ _ HPl) as HG.
  rewrite (plan_size _ _ _ _ _ _ _ Hr HPl).
  destruct HPl as (g0 & Hg0 & HS & HL & HC). destruct (layout_short m g rows _ Hg Hne HL) as [L1 _].
  exists (Z.of_nat g), (zsum (map (line_bytes c W 0) lines)). split; [destruct HS; lia|]. split; [rewrite <- L1; unfold printed, slen; rewrite map_length; reflexivity|].
  split; [reflexivity|]. assert (HLen : forall line, In line lines -> (0 + length line <= g)%nat).
  { intros line Hin. pose proof (layout_is m g rows lines Hg HL) as ->. cbn. eapply layout_line_len; eauto. }
  split.
  - rewrite <- (layout_sum _ m g rows lines Hg HL). apply zsum_monotone. intros line Hin. apply (line_bytes_ge c W g); auto.
    intros j row Hj. destruct (HG j Hj) as [G1 _]. assert (slen cols = slen (W j)) as -> by (unfold slen; congruence). apply row_bytes_bare.
  - rewrite <- (layout_sum _ m g rows lines Hg HL). apply zsum_monotone. intros line Hin. apply (line_bytes_le c W g); auto.
    intros j row Hj. apply row_bytes_le. destruct HC as [[_ ->]|[_ HGW]].
    + clear. induction (recorded t cols); constructor; auto; lia.
    + assert (W j = gwidths cols c m rows g j) as ->.
      { pose proof (layout_is m g rows lines Hg HL) as ->. eapply GroupWidths_unique; eauto. apply gwidths_ok. auto. }
      apply fits_group; auto. intros col Hc. apply HW.
Qed.

(** Compact against plain. *)
Lemma short_nonneg m n g : 1 <= g -> 1 <= n -> 0 <= short_of m n g <= (match m with H => 1 | V => lines_of n g end) /\ 1 <= lines_of n g.
Proof.
  intros Hg Hn. unfold short_of, lines_of. pose proof (Z.div_mod (n + g - 1) g ltac:(lia)). pose proof (Z.mod_pos_bound (n + g - 1) g ltac:(lia)).
  assert (1 <= (n + g - 1) / g) by (apply Z.div_le_lower_bound; lia). destruct m; lia.
Qed.
Lemma compact_against_plain m fuel fuel' sep maxWidth : reckoned t cols sep mod 65536 <> 0 -> FitsRecorded c t cols rows ->
  let r := merge m fuel c t (fun _ => true) items maxWidth sep true in
  let p := merge m fuel' c t (fun _ => true) items maxWidth sep false in
  stop r = Finished ->
  size (written r) <= size (written p) + (slen sep - 1) * (slen (written p) - slen (written r))
    + slen sep * (match m with H => 1 | V => slen (written r) end).
Proof.
  intros Hr HF r p Hst. destruct (plain_size m fuel' sep maxWidth Hr) as [P1 P2]. fold p in P1, P2.
  destruct (compact_size m fuel sep maxWidth Hr HF Hst) as (g & content & Hg & C1 & C2 & _ & C3). fold r in C1, C2.
  pose proof (estimate_pos t cols sep maxWidth) as Hp. assert (Hn : 1 <= slen rows) by (unfold slen; destruct rows; [contradiction|cbn [length]; lia]).
  rewrite C1, C2, P1, P2. unfold size_of, separators.
  destruct (short_nonneg m (slen rows) g ltac:(lia) Hn) as [S1 S2]. destruct (short_nonneg m (slen rows) _ Hp Hn) as [S3 S4].
  set (s1 := short_of m (slen rows) g) in *. set (s2 := short_of m (slen rows) (estimate t cols sep maxWidth)) in *.
  set (M := match m with H => 1 | V => lines_of (slen rows) g end) in *. set (l1 := lines_of (slen rows) g) in *. set (l2 := lines_of (slen rows) (estimate t cols sep maxWidth)) in *.
  assert (0 <= slen sep) by (unfold slen; lia). assert (slen sep * s1 <= slen sep * M) by (apply Z.mul_le_mono_nonneg_l; lia).
  assert (0 <= slen sep * s2) by (apply Z.mul_nonneg_nonneg; lia). lia.
Qed.

(** A separator of one byte: line by line, the width of the screen matters little. *)
Lemma width_matters_little fuel fuel' sep maxWidth maxWidth' : slen sep = 1 -> reckoned t cols sep mod 65536 <> 0 ->
  let r w f := merge H f c t (fun _ => true) items w sep false in
  Z.abs (size (written (r maxWidth fuel)) - size (written (r maxWidth' fuel'))) <= 1.
Proof.
  intros H1 Hr r. destruct (plain_size H fuel sep maxWidth Hr) as [_ P2]. destruct (plain_size H fuel' sep maxWidth' Hr) as [_ P3].
  unfold r. rewrite P2, P3. unfold size_of, separators. rewrite H1.
  assert (Hn : 1 <= slen rows) by (unfold slen; destruct rows; [contradiction|cbn [length]; lia]).
  destruct (short_nonneg H (slen rows) _ (estimate_pos t cols sep maxWidth) Hn) as [S1 S2].
  destruct (short_nonneg H (slen rows) _ (estimate_pos t cols sep maxWidth') Hn) as [S3 S4]. lia.
Qed.
End Printing.
End Types.
