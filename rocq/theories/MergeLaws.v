(** * MergeLaws: laws of merging without compact layout. *)
From Verif Require Import GoBase Runewidth Width AlignSpec Table TableContract Merge MergeSpec MergeLayout MergeSearch MergeTheory MergePlan ReadProofs.
From Coq Require Import ZifyBool ZifyNat.
Local Open Scope nat_scope.

(** ** Layouts *)
Lemma full_rows {A} g (lines : list (list A)) : 1 <= g -> Rectangle g lines -> (exists q, length (concat lines) = q * g) ->
  Forall (fun l => length l = g) lines.
Proof.
  intros Hg. induction lines as [|l lines IH]; intros HR [q Hq]; [constructor|].
  pose proof (Rectangle_tail g l lines HR) as HT. destruct HR as [HF HL]. inversion HF as [|? ? [F1 F2] F3]; subst.
  cbn [concat] in Hq. rewrite app_length in Hq. assert (F : length l = g).
  { destruct lines as [|l' lines]; [|apply (HL [] l l' lines); reflexivity]. cbn in Hq. destruct l; [congruence|]. cbn [length] in *.
    assert (q = 1) by nia. lia. }
  constructor; [exact F|]. apply IH; [exact HT|]. exists (q - 1). destruct q; nia.
Qed.
Lemma rectangle_app {A} g (a b : list (list A)) : Forall (fun l => length l = g) a -> 1 <= g -> Rectangle g b -> Rectangle g (a ++ b).
Proof.
  intros Ha Hg [HF HL]. split.
  - apply Forall_app. split; [|exact HF]. revert Ha. apply Forall_impl. intros l E. split; [intros ->; cbn in E|]; lia.
  - revert HF HL. induction Ha as [|l a E Ha IH]; intros HF HL pre r r' post Ep; [exact (HL pre r r' post Ep)|].
    destruct pre as [|p pre]; cbn in Ep; injection Ep as -> Ep; [congruence|]. exact (IH HF HL pre r r' post Ep).
Qed.
Lemma layout_batches {A} g (a b : list A) la lb : 1 <= g -> a <> [] -> b <> [] -> (exists q, length a = q * g) ->
  Layout H g a la -> Layout H g b lb -> Layout H g (a ++ b) (la ++ lb).
Proof.
  intros Hg Ha Hb Hq [[_ [Ea Ra]]|[? _]] [[_ [Eb Rb]]|[? _]]; try contradiction. left. split; [destruct a; [congruence|discriminate]|]. split.
  - rewrite concat_app. congruence.
  - apply rectangle_app; [|exact Hg|exact Rb]. apply full_rows; [exact Hg|exact Ra|]. rewrite Ea. exact Hq.
Qed.

(** Where item [i] stands. *)
Lemma split_nth {A} (l : list A) i a : nth_error l i = Some a -> exists p q, l = p ++ a :: q /\ length p = i.
Proof. apply nth_error_split. Qed.

Lemma map_same {A B} (f f' : A -> B) l i : (forall j, j <> i -> f j = f' j) -> ~ In i l -> map f l = map f' l.
Proof. intros Hf Hi. apply map_ext_in. intros a Ha. apply Hf. intros ->. contradiction. Qed.

Lemma nth_map_seq {A} (d : A) l : map (fun i => nth i l d) (seq 0 (length l)) = l.
Proof.
  apply nth_ext. intros i. rewrite nth_map, nth_seq. destruct (Nat.ltb_spec i (length l)) as [L|L]; cbn [option_map].
  - symmetry. apply nth_error_nth'. exact L.
  - symmetry. apply nth_error_None. exact L.
Qed.

Lemma layout_change {A} m g (pre post : list A) a b : 1 <= g ->
  exists la p q lb, layout_lines m g (pre ++ a :: post) = la ++ (p ++ a :: q) :: lb
    /\ layout_lines m g (pre ++ b :: post) = la ++ (p ++ b :: q) :: lb.
Proof.
  intros Hg. set (n := length (pre ++ a :: post)). set (i := length pre).
  assert (Hi : i < length (seq 0 n)) by (rewrite seq_length; unfold n, i; rewrite app_length; cbn; lia).
  set (idx := layout_lines m g (seq 0 n)). pose proof (layout_ok m g (seq 0 n) Hg) as Lo. fold idx in Lo.
  destruct (layout_once m g (seq 0 n) idx i Hg Lo Hi) as (l & k & Hp & Hk & Hl & G & U).
  rewrite nth_seq in G. destruct (Nat.ltb_spec i n) as [Li|Li]; [|rewrite seq_length in Hi; lia]. cbn [Nat.add] in G.
  unfold get2 in G. destruct (nth_error idx l) as [line|] eqn:El; [|discriminate G].
  destruct (nth_error_split idx l El) as (la & lb & E1 & L1). destruct (nth_error_split line k G) as (p & q & E2 & L2).
  assert (Once : forall l' k' line', nth_error idx l' = Some line' -> nth_error line' k' = Some i -> l' = l /\ k' = k).
  { intros l' k' line' A1 A2. assert (A3 : get2 idx l' k' = Some i) by (unfold get2; rewrite A1; exact A2).
    unfold idx in A3. rewrite layout_get2 in A3. destruct (_ && _) eqn:Eb; [|discriminate A3].
    rewrite nth_seq in A3. match type of A3 with (if ?b then _ else _) = _ => destruct b eqn:Ec; [|discriminate A3] end. injection A3 as A3. apply andb_true_iff in Eb. destruct Eb as [B1 B2].
    apply Nat.ltb_lt in B1, B2. cbn [Nat.add] in A3.
    assert (Len : length idx = lineCount (length (seq 0 n)) g) by apply layout_len. apply U; rewrite ?Len; assumption. }
  assert (NA : forall l0, In l0 la -> ~ In i l0).
  { intros l0 H1 H2. apply In_nth_error in H1, H2. destruct H1 as [x H1], H2 as [y H2].
    assert (x < length la) by (apply nth_error_Some; congruence).
    destruct (Once x y l0); [rewrite E1; rewrite nth_error_app1 by assumption; exact H1|exact H2|lia]. }
  assert (NB : forall l0, In l0 lb -> ~ In i l0).
  { intros l0 H1 H2. apply In_nth_error in H1, H2. destruct H1 as [x H1], H2 as [y H2].
    destruct (Once (length la + S x) y l0); [rewrite E1; rewrite nth_error_app2 by lia; replace (length la + S x - length la) with (S x) by lia; exact H1|exact H2|lia]. }
  assert (NP : ~ In i p).
  { intros H2. apply In_nth_error in H2. destruct H2 as [y H2]. assert (y < length p) by (apply nth_error_Some; congruence).
    destruct (Once l y line El); [rewrite E2; rewrite nth_error_app1 by assumption; exact H2|lia]. }
  assert (NQ : ~ In i q).
  { intros H2. apply In_nth_error in H2. destruct H2 as [y H2].
    destruct (Once l (length p + S y) line El); [rewrite E2; rewrite nth_error_app2 by lia; replace (length p + S y - length p) with (S y) by lia; exact H2|lia]. }
  assert (Ff : forall x y j, j <> i -> j < n -> nth j (pre ++ x :: post) a = nth j (pre ++ y :: post) a).
  { intros x y j Hj Hjn. unfold i in Hj. destruct (Nat.lt_ge_cases j (length pre)).
    - rewrite !app_nth1 by assumption. reflexivity.
    - rewrite !app_nth2 by assumption. destruct (j - length pre) eqn:Ed; [lia|]. reflexivity. }
  assert (Fi : forall x, nth i (pre ++ x :: post) a = x).
  { intros x. unfold i. rewrite app_nth2, Nat.sub_diag by lia. reflexivity. }
  assert (Sq : forall x, layout_lines m g (pre ++ x :: post) = map (map (fun j => nth j (pre ++ x :: post) a)) idx).
  { intros x. assert (En : n = length (pre ++ x :: post)) by (unfold n; rewrite !app_length; reflexivity).
    rewrite (layout_is m g _ _ Hg (layout_map (fun j => nth j (pre ++ x :: post) a) m g (seq 0 n) idx Hg Lo)).
    f_equal. rewrite En. symmetry. apply nth_map_seq. }
  assert (Rg : forall line', In line' idx -> forall j, In j line' -> j < n).
  { intros line' H1 j H2. pose proof (layout_in m g (seq 0 n) idx line' j Hg Lo H1 H2) as K. apply in_seq in K. lia. }
  assert (Sm : forall x line', In line' idx -> ~ In i line' -> map (fun j => nth j (pre ++ x :: post) a) line' = map (fun j => nth j (pre ++ a :: post) a) line').
  { intros x line' H1 H2. apply map_ext_in. intros j Hj. apply Ff; [intros ->; contradiction|exact (Rg line' H1 j Hj)]. }
  exists (map (map (fun j => nth j (pre ++ a :: post) a)) la), (map (fun j => nth j (pre ++ a :: post) a) p),
    (map (fun j => nth j (pre ++ a :: post) a) q), (map (map (fun j => nth j (pre ++ a :: post) a)) lb).
  assert (K : forall x, layout_lines m g (pre ++ x :: post) = map (map (fun j => nth j (pre ++ a :: post) a)) la
    ++ (map (fun j => nth j (pre ++ a :: post) a) p ++ x :: map (fun j => nth j (pre ++ a :: post) a) q)
    :: map (map (fun j => nth j (pre ++ a :: post) a)) lb).
  { intros x. rewrite Sq, E1, map_app. cbn [map]. rewrite E2, map_app. cbn [map]. rewrite Fi. f_equal; [|f_equal].
    - apply map_ext_in. intros l0 H0. apply Sm; [rewrite E1; apply in_or_app; left; exact H0|exact (NA l0 H0)].
    - assert (Hin : In line idx) by (rewrite E1; apply in_or_app; right; left; reflexivity).
      f_equal; [|f_equal].
      + apply map_ext_in. intros j Hj. apply Ff; [intros ->; contradiction|]. apply (Rg line Hin). rewrite E2. apply in_or_app. left. exact Hj.
      + apply map_ext_in. intros j Hj. apply Ff; [intros ->; contradiction|]. apply (Rg line Hin). rewrite E2. apply in_or_app. right. right. exact Hj.
    - apply map_ext_in. intros l0 H0. apply Sm; [rewrite E1; apply in_or_app; right; right; exact H0|exact (NB l0 H0)]. }
  split; apply K.
Qed.

(** Every item in a table with full lines, turned over. *)
Lemma lineCount_full L g : 1 <= g -> lineCount (S L * g) g = S L.
Proof.
  intros Hg. assert (Hn : 1 <= S L * g) by nia.
  pose proof (lineCount_spec (S L * g) g Hg Hn) as [A B]. nia.
Qed.
Lemma get2_same {A} (x y : list (list A)) : length x = length y -> (forall i j, get2 x i j = get2 y i j) -> x = y.
Proof.
  intros E Hx. apply nth_ext. intros i. specialize (Hx i). unfold get2 in Hx.
  destruct (nth_error x i) as [a|] eqn:Ea, (nth_error y i) as [b|] eqn:Eb; auto.
  - f_equal. apply nth_ext. exact Hx.
  - apply nth_error_None in Eb. assert (i < length x) by (apply nth_error_Some; congruence). lia.
  - apply nth_error_None in Ea. assert (i < length y) by (apply nth_error_Some; congruence). lia.
Qed.
Lemma layout_ext {A} m m' g (rows rows' : list A) : 1 <= g -> length rows = length rows' ->
  (forall l k, l < lineCount (length rows) g -> k < g ->
     nth_error rows (pos m g (lineCount (length rows) g) l k) = nth_error rows' (pos m' g (lineCount (length rows) g) l k)) ->
  layout_lines m g rows = layout_lines m' g rows'.
Proof.
  intros Hg E Hx. apply get2_same.
  - rewrite !layout_len, E. reflexivity.
  - intros l k. rewrite !layout_get2, <- E. destruct (Nat.ltb_spec l (lineCount (length rows) g)); [|reflexivity].
    destruct (Nat.ltb_spec k g); [|reflexivity]. cbn [andb]. apply Hx; assumption.
Qed.

(** ** Merged output *)
Section Laws.
Context {Item Val E : Type}.
Variables (c : Condition) (t : Table Item Val E) (cols : list (Column Item Val E)).
Local Open Scope Z_scope.

Lemma batches fuel items items1 items2 rows1 rows2 maxWidth sep g :
  Printable t cols items (rows1 ++ rows2) -> Printable t cols items1 rows1 -> Printable t cols items2 rows2 ->
  reckoned t cols sep mod 65536 <> 0 -> Z.of_nat g = estimate t cols sep maxWidth ->
  rows1 <> [] -> rows2 <> [] -> (exists q, length rows1 = q * g)%nat ->
  written (merge H fuel c t (fun _ => true) items maxWidth sep false)
  = written (merge H fuel c t (fun _ => true) items1 maxWidth sep false) ++ written (merge H fuel c t (fun _ => true) items2 maxWidth sep false).
Proof.
  intros P P1 P2 Hr Hg N1 N2 Q. pose proof (estimate_pos t cols sep maxWidth) as Hp. assert (G : (1 <= g)%nat) by lia.
  pose proof (layout_ok H g rows1 G) as L1. pose proof (layout_ok H g rows2 G) as L2.
  rewrite (plain_ok P1 H fuel maxWidth sep g _ Hr Hg L1), (plain_ok P2 H fuel maxWidth sep g _ Hr Hg L2).
  rewrite (plain_ok P H fuel maxWidth sep g _ Hr Hg (layout_batches g rows1 rows2 _ _ G N1 N2 Q L1 L2)).
  cbn [written]. unfold printed. apply map_app.
Qed.

Lemma blocks_const W k line : blocks_from c cols (fun _ => W) k line = map (block c cols W) line.
Proof. revert k. induction line as [|r line IH]; intros k; cbn [blocks_from map]; [reflexivity|]. rewrite IH. reflexivity. Qed.
Lemma join_around sep (p q : list str) : exists before after, forall b, TableContract.join sep (p ++ b :: q) = before ++ b ++ after.
Proof.
  induction p as [|x p IH].
  - destruct q as [|y q]; [exists [], []; intros b; cbn; rewrite app_nil_r; reflexivity|].
    exists [], (sep ++ TableContract.join sep (y :: q)). intros b. reflexivity.
  - destruct IH as (before & after & IH). exists (x ++ sep ++ before), after. intros b. cbn [app].
    assert (K : exists y ys, p ++ b :: q = y :: ys) by (destruct p; cbn; eauto). destruct K as (y & ys & K).
    rewrite K. change (TableContract.join sep (x :: y :: ys)) with (x ++ sep ++ TableContract.join sep (y :: ys)).
    rewrite <- K, IH, !app_assoc. reflexivity.
Qed.

Lemma change m fuel items items' pre post row row' maxWidth sep :
  Printable t cols items (pre ++ row :: post) -> Printable t cols items' (pre ++ row' :: post) ->
  reckoned t cols sep mod 65536 <> 0 ->
  exists above before after below,
    merge m fuel c t (fun _ => true) items maxWidth sep false
    = {| written := above ++ (before ++ block c cols (recorded t cols) row ++ after) :: below; stop := Finished |}
    /\ merge m fuel c t (fun _ => true) items' maxWidth sep false
    = {| written := above ++ (before ++ block c cols (recorded t cols) row' ++ after) :: below; stop := Finished |}.
Proof.
  intros P P' Hr. pose proof (estimate_pos t cols sep maxWidth) as Hp. set (g := Z.to_nat (estimate t cols sep maxWidth)).
  assert (Hg : Z.of_nat g = estimate t cols sep maxWidth) by lia. assert (G : (1 <= g)%nat) by lia.
  destruct (layout_change m g pre post row row' G) as (la & p & q & lb & E1 & E2).
  rewrite (plain_ok P m fuel maxWidth sep g _ Hr Hg (layout_ok m g _ G)).
  rewrite (plain_ok P' m fuel maxWidth sep g _ Hr Hg (layout_ok m g _ G)). rewrite E1, E2.
  set (tl := if (length (p ++ row :: q) <? g)%nat then [@nil byte] else []).
  destruct (join_around sep (map (block c cols (recorded t cols)) p) (map (block c cols (recorded t cols)) q ++ tl)) as (before & after & J).
  exists (printed c cols sep (fun _ => recorded t cols) g la), before, (after ++ [x0a]), (printed c cols sep (fun _ => recorded t cols) g lb).
  assert (K : forall r, line_text c cols sep (fun _ => recorded t cols) g (p ++ r :: q) ++ [x0a] = before ++ block c cols (recorded t cols) r ++ after ++ [x0a]).
  { intros r. unfold line_text, blocks. rewrite blocks_const, map_app. cbn [map].
    replace (length (p ++ r :: q)) with (length (p ++ row :: q)) by (rewrite !app_length; reflexivity). fold tl.
    rewrite <- app_assoc. cbn [app]. rewrite J, <- !app_assoc. reflexivity. }
  unfold printed. rewrite !map_app. cbn [map]. rewrite !K. split; reflexivity.
Qed.

Lemma turned fuel items items' rows rows' maxWidth sep L g :
  Printable t cols items rows -> Printable t cols items' rows' ->
  reckoned t cols sep mod 65536 <> 0 -> Z.of_nat g = estimate t cols sep maxWidth ->
  length rows = (L * g)%nat -> length rows' = (L * g)%nat ->
  (forall l k, (l < L)%nat -> (k < g)%nat -> nth_error rows' (l * g + k) = nth_error rows (k * L + l)) ->
  merge V fuel c t (fun _ => true) items maxWidth sep false = merge H fuel c t (fun _ => true) items' maxWidth sep false.
Proof.
  intros P P' Hr Hg N N' T. pose proof (estimate_pos t cols sep maxWidth) as Hp. assert (G : (1 <= g)%nat) by lia.
  rewrite (plain_ok P V fuel maxWidth sep g _ Hr Hg (layout_ok V g _ G)).
  rewrite (plain_ok P' H fuel maxWidth sep g _ Hr Hg (layout_ok H g _ G)).
  do 2 f_equal. apply layout_ext; [exact G|congruence|].
  destruct L as [|L]; [destruct rows, rows'; try discriminate; intros l k _ _; transitivity (@None (list str)); [|symmetry]; apply nth_error_None; cbn; lia|]. rewrite N, lineCount_full by exact G. intros l k Hl Hk.
  cbn [pos]. symmetry. apply T; assumption.
Qed.

Lemma same fuel items rows maxWidth sep :
  Printable t cols items rows -> reckoned t cols sep mod 65536 <> 0 ->
  slen rows <= estimate t cols sep maxWidth \/ estimate t cols sep maxWidth = 1 ->
  merge V fuel c t (fun _ => true) items maxWidth sep false = merge H fuel c t (fun _ => true) items maxWidth sep false.
Proof.
  intros P Hr Hs. pose proof (estimate_pos t cols sep maxWidth) as Hp. set (g := Z.to_nat (estimate t cols sep maxWidth)).
  assert (Hg : Z.of_nat g = estimate t cols sep maxWidth) by lia. assert (G : (1 <= g)%nat) by lia.
  rewrite (plain_ok P V fuel maxWidth sep g _ Hr Hg (layout_ok V g _ G)).
  rewrite (plain_ok P H fuel maxWidth sep g _ Hr Hg (layout_ok H g _ G)).
  do 2 f_equal. apply layout_ext; [exact G|congruence|]. intros l k Hl Hk.
  destruct rows as [|r rows]; [transitivity (@None (list str)); [|symmetry]; apply nth_error_None; cbn; lia|]. f_equal. cbn [pos].
  destruct Hs as [Hs|Hs].
  - set (n := length (r :: rows)) in *. assert (Hn : (1 <= n)%nat) by (unfold n; cbn; lia).
    pose proof (lineCount_spec n g G Hn) as [A B]. unfold slen in Hs. fold n in Hs. assert (lineCount n g = 1%nat) by nia. nia.
  - assert (g = 1%nat) by lia. assert (k = 0%nat) by lia. subst k. nia.
Qed.
End Laws.
