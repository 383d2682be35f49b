(** * ReadProofs: what is printed can be read back. *)
From Verif Require Import GoBase Runewidth Width AlignSpec Table TableContract Merge MergeSpec MergeLayout MergeSearch MergeTheory MergePlan ReadSpec.
From Coq Require Import ZifyBool ZifyNat.
Local Open Scope nat_scope.

Lemma eqb_ne a b : a <> b -> Byte.eqb a b = false.
Proof. intros N. destruct (Byte.eqb a b) eqn:E; [|reflexivity]. apply Byte.byte_dec_bl in E. contradiction. Qed.
Lemma eqb_refl a : Byte.eqb a a = true.
Proof. apply Byte.byte_dec_lb. reflexivity. Qed.

(** ** Words *)
Lemma words_spaces n t : words (repeat space n ++ t) = words t.
Proof. induction n as [|n IH]; [reflexivity|]. cbn [repeat app words]. rewrite eqb_refl. exact IH. Qed.
Lemma words_word s t : s <> [] -> ~ In space s -> (t = [] \/ exists t', t = space :: t') -> words (s ++ t) = s :: words t.
Proof.
  intros Hs Hn Ht. induction s as [|a s IH]; [congruence|]. cbn [app words].
  rewrite eqb_ne by (intros ->; apply Hn; left; reflexivity).
  destruct s as [|b s].
  - cbn [app]. destruct Ht as [->|[t' ->]]; [reflexivity|]. rewrite eqb_refl. reflexivity.
  - cbn [app]. rewrite (eqb_ne b) by (intros ->; apply Hn; right; left; reflexivity).
    assert (K : words ((b :: s) ++ t) = (b :: s) :: words t).
    { apply IH; [discriminate|]. intros Hi. apply Hn. right. exact Hi. }
    cbn [app] in K. rewrite K. reflexivity.
Qed.
Lemma words_padded s l r t : s <> [] -> ~ In space s -> (t = [] \/ exists t', t = space :: t') ->
  words ((repeat space l ++ s ++ repeat space r) ++ t) = s :: words t.
Proof.
  intros Hs Hn Ht. rewrite <- !app_assoc, words_spaces, words_word; [rewrite words_spaces; reflexivity|exact Hs|exact Hn|].
  destruct r; [exact Ht|]. right. eexists. reflexivity.
Qed.

(** ** Separators *)
Lemma starts_app p l : starts p (p ++ l) = true.
Proof. induction p as [|a p IH]; [reflexivity|]. cbn. rewrite eqb_refl. exact IH. Qed.
Lemma starts_prefix p : forall l, starts p l = true -> exists r, l = p ++ r.
Proof.
  induction p as [|a p IH]; intros l Hl; [exists l; reflexivity|]. destruct l as [|b l]; [discriminate Hl|]. cbn [starts] in Hl.
  apply andb_true_iff in Hl. destruct Hl as [E Hl]. apply Byte.byte_dec_bl in E. subst b. destruct (IH l Hl) as [r ->]. exists r. reflexivity.
Qed.
Lemma first_at (x : byte) sep : In x sep -> exists a b, sep = a ++ x :: b /\ ~ In x a.
Proof.
  induction sep as [|y sep IH]; intros Hi; [destruct Hi|]. destruct (Byte.eqb x y) eqn:E.
  - apply Byte.byte_dec_bl in E. subst y. exists [], sep. split; [reflexivity|intros []].
  - destruct Hi as [->|Hi]; [rewrite eqb_refl in E; discriminate|]. destruct (IH Hi) as (a & b & -> & Ha). exists (y :: a), b.
    split; [reflexivity|]. intros [->|K]; [rewrite eqb_refl in E; discriminate|exact (Ha K)].
Qed.
Lemma not_starts (x : byte) sep u t : In x sep -> u <> [] -> ~ In x u -> (t = [] \/ exists t', t = sep ++ t') -> starts sep (u ++ t) = false.
Proof.
  intros Hi Hu Hn Ht. destruct (starts sep (u ++ t)) eqn:E; [|reflexivity]. exfalso. apply starts_prefix in E. destruct E as [r E].
  destruct (first_at x sep Hi) as (a & b & -> & Ha).
  assert (P : nth_error ((a ++ x :: b) ++ r) (length a) = Some x).
  { rewrite <- app_assoc. rewrite nth_error_app2, Nat.sub_diag by lia. reflexivity. }
  rewrite <- E in P. destruct (Nat.lt_ge_cases (length a) (length u)) as [L|L].
  - rewrite nth_error_app1 in P by exact L. exact (Hn (nth_error_In _ _ P)).
  - rewrite nth_error_app2 in P by exact L. destruct Ht as [->|[t' ->]]; [destruct (length a - length u); discriminate P|].
    rewrite <- app_assoc, nth_error_app1 in P; [exact (Ha (nth_error_In _ _ P))|]. destruct u; [congruence|]. cbn [length] in *. lia.
Qed.
Lemma split_skip sep : forall k l, k <= length l -> split sep k l = split sep 0 (skipn k l).
Proof. induction k as [|k IH]; intros l Hk; [reflexivity|]. destruct l as [|b l]; [cbn in Hk; lia|]. cbn [split skipn]. apply IH. cbn in Hk. lia. Qed.
Lemma split_last x sep u : In x sep -> ~ In x u -> split sep 0 u = [u].
Proof.
  intros Hi. induction u as [|b u IH]; intros Hn; [reflexivity|]. cbn [split].
  pose proof (not_starts x sep (b :: u) [] Hi ltac:(discriminate) Hn (or_introl eq_refl)) as K. rewrite app_nil_r in K. rewrite K.
  rewrite IH by (intros Q; apply Hn; right; exact Q). reflexivity.
Qed.
Lemma split_first x sep u t : In x sep -> ~ In x u -> split sep 0 (u ++ sep ++ t) = u :: split sep 0 t.
Proof.
  intros Hi. induction u as [|b u IH]; intros Hn.
  - cbn [app]. destruct sep as [|y sep]; [destruct Hi|]. cbn [app split].
    change (y :: sep ++ t) with ((y :: sep) ++ t). rewrite starts_app. rewrite split_skip by (cbn [length]; rewrite app_length; lia).
    cbn [length]. replace (S (length sep) - 1) with (length sep + 0) by lia. rewrite <- (firstn_skipn 0 t) at 1. cbn [firstn skipn app].
    rewrite skipn_app, skipn_all2, Nat.add_0_r, Nat.sub_diag by lia. reflexivity.
  - cbn [app split]. pose proof (not_starts x sep (b :: u) (sep ++ t) Hi ltac:(discriminate) Hn (or_intror (ex_intro _ t eq_refl))) as K.
    cbn [app] in K. rewrite K. rewrite IH by (intros Q; apply Hn; right; exact Q). reflexivity.
Qed.
Lemma split_join x sep us : In x sep -> us <> [] -> Forall (fun u => ~ In x u) us -> split sep 0 (TableContract.join sep us) = us.
Proof.
  intros Hi Hu HF. induction us as [|u us IH]; [congruence|]. inversion HF; subst. destruct us as [|v us].
  - cbn [TableContract.join]. apply split_last with x; assumption.
  - change (TableContract.join sep (u :: v :: us)) with (u ++ sep ++ TableContract.join sep (v :: us)). rewrite (split_first x) by assumption. rewrite IH by (discriminate || assumption). reflexivity.
Qed.
Lemma split_lines ls : Forall (fun l => ~ In x0a l) ls -> split [x0a] 0 (concat (map (fun l => l ++ [x0a]) ls)) = ls ++ [[]].
Proof.
  induction ls as [|l ls IH]; intros HF; [reflexivity|]. inversion HF; subst. cbn [map concat].
  rewrite <- app_assoc, (split_first x0a); [|left; reflexivity|assumption]. rewrite IH by assumption. reflexivity.
Qed.

(** ** Blocks *)
Section Types.
Context {Item Val E : Type}.

Lemma aligned_text c (col : Column Item Val E) s w : BuiltIn c col ->
  exists l r, alignment_of c col s w = repeat space l ++ s ++ repeat space r.
Proof.
  intros Hb. assert (G : forall a, exists l r, align a c s w = repeat space l ++ s ++ repeat space r).
  { assert (Z0 : exists l r, s = repeat space l ++ s ++ repeat space r) by (exists 0, 0; cbn; rewrite app_nil_r; reflexivity).
    intros a. unfold align, AlignmentLeft, AlignmentRight, AlignmentCenter, spaces.
    destruct a; destruct (_ >=? _)%Z; try exact Z0.
    - exists 0. eexists. reflexivity.
    - eexists. exists 0. cbn [repeat]. rewrite app_nil_r. reflexivity.
    - eexists. eexists. reflexivity. }
  unfold alignment_of. destruct Hb as [->|[a ->]]; [exact (G ALeft)|exact (G a)].
Qed.

Lemma cells_words c (cols : list (Column Item Val E)) : forall ws row, Forall (BuiltIn c) cols ->
  length ws = length cols -> length cols <= length row -> Forall (fun s => s <> [] /\ ~ In space s) (firstn (length cols) row) ->
  words (block c cols ws row) = firstn (length cols) row.
Proof.
  unfold block. induction cols as [|col cols IH]; intros ws row Hb Hw Hr Hs; [reflexivity|].
  destruct ws as [|w ws]; [discriminate Hw|]. destruct row as [|s row]; [cbn in Hr; lia|].
  cbn [cells length firstn] in *. inversion Hb; subst. inversion Hs as [|? ? [S1 S2] S3]; subst.
  destruct (aligned_text c col s w H1) as (l & r & ->).
  assert (IH' : words (TableContract.join [space] (cells c cols ws row)) = firstn (length cols) row) by (apply IH; (assumption || lia)).
  destruct (cells c cols ws row) as [|b bs] eqn:Ec.
  - cbn [TableContract.join] in IH' |- *. rewrite <- (app_nil_r (repeat space l ++ s ++ repeat space r)), words_padded; auto. rewrite IH'. reflexivity.
  - change (TableContract.join [space] ((repeat space l ++ s ++ repeat space r) :: b :: bs))
      with ((repeat space l ++ s ++ repeat space r) ++ [space] ++ TableContract.join [space] (b :: bs)).
    rewrite words_padded; [|exact S1|exact S2|right; eexists; reflexivity].
    f_equal. rewrite <- IH'. cbn [app words]. rewrite eqb_refl. reflexivity.
Qed.
Lemma cells_bytes c (cols : list (Column Item Val E)) x : x <> space -> forall ws row, Forall (BuiltIn c) cols ->
  Forall (fun s => ~ In x s) (firstn (length cols) row) -> ~ In x (block c cols ws row).
Proof.
  intros Hx. unfold block. induction cols as [|col cols IH]; intros ws row Hb Hs; [intros []|].
  destruct ws as [|w ws]; [intros []|]. destruct row as [|s row]; [intros []|].
  cbn [cells length firstn] in *. inversion Hb; subst. inversion Hs; subst.
  specialize (IH ws row H2 H4). destruct (aligned_text c col s w H1) as (l & r & ->).
  assert (G : ~ In x (repeat space l ++ s ++ repeat space r)).
  { rewrite !in_app_iff. intros [K|[K|K]]; [apply repeat_spec in K; congruence|contradiction|apply repeat_spec in K; congruence]. }
  destruct (cells c cols ws row) as [|b bs]; [exact G|].
  change (TableContract.join [space] ((repeat space l ++ s ++ repeat space r) :: b :: bs))
    with ((repeat space l ++ s ++ repeat space r) ++ [space] ++ TableContract.join [space] (b :: bs)).
  intros Q. apply in_app_iff in Q. destruct Q as [K|K]; [exact (G K)|]. apply in_app_iff in K. destruct K as [[K|[]]|K]; [congruence|exact (IH K)].
Qed.

(** ** Lines *)
Lemma blocks_len c (cols : list (Column Item Val E)) W line : forall k, length (blocks_from c cols W k line) = length line.
Proof. induction line as [|row line IH]; intros k; cbn; [reflexivity|]. rewrite IH. reflexivity. Qed.

Lemma drop_empty_snoc {A} (l : list (list A)) : drop_empty (l ++ [[]]) = l.
Proof. unfold drop_empty. rewrite last_last, removelast_last. reflexivity. Qed.
Lemma drop_empty_keep {A} (l : list (list A)) : l <> [] -> Forall (fun a => a <> []) l -> drop_empty l = l.
Proof.
  intros Hl HF. unfold drop_empty. destruct (exists_last Hl) as (m & a & ->). rewrite last_last. apply Forall_app in HF. destruct HF as [_ HF].
  inversion HF; subst. destruct a; [congruence|reflexivity].
Qed.

Lemma join_free y sep us : ~ In y sep -> Forall (fun u => ~ In y u) us -> ~ In y (TableContract.join sep us).
Proof.
  intros Hy HF. induction us as [|u us IH]; [intros Q; exact Q|]. inversion HF; subst. destruct us as [|v us]; [assumption|].
  change (TableContract.join sep (u :: v :: us)) with (u ++ sep ++ TableContract.join sep (v :: us)). rewrite !in_app_iff.
  intros [Q|[Q|Q]]; [contradiction|contradiction|exact (IH H2 Q)].
Qed.
Lemma line_read c (cols : list (Column Item Val E)) x sep W g line : cols <> [] -> Forall (BuiltIn c) cols -> Marks x sep ->
  1 <= g -> length line <= g -> (forall k, k < g -> length (W k) = length cols) ->
  Forall (fun row => length cols <= length row /\ Forall (Legible x) (firstn (length cols) row)) line ->
  read_line sep (line_text c cols sep W g line) = map (firstn (length cols)) line
  /\ ~ In x0a (line_text c cols sep W g line).
Proof.
  intros Hc Hb (Hx & Hsp & Hnl) Hg Hl HW HF. unfold read_line, line_text, blocks.
  set (bs := blocks_from c cols W 0 line). set (tl := if length line <? g then [@nil byte] else []).
  assert (Nx : forall y, y = x \/ y = x0a -> Forall (fun u => ~ In y u) (bs ++ tl)).
  { intros y Hy. apply Forall_app. split; [|unfold tl; destruct (_ <? _); repeat constructor; intros []].
    unfold bs. generalize 0. clear -HF Hb Hsp Hy. induction line as [|row line IH]; intros k; cbn; [constructor|]. inversion HF; subst.
    constructor; [|apply IH; assumption]. apply cells_bytes; [destruct Hy as [->| ->]; [exact Hsp|discriminate]|exact Hb|].
    destruct H1 as [_ H1]. revert H1. apply Forall_impl. intros s (_ & _ & A & B). destruct Hy as [->| ->]; assumption. }
  assert (Wd : map words bs = map (firstn (length cols)) line).
  { unfold bs. assert (Q : forall k, k + length line <= g -> map words (blocks_from c cols W k line) = map (firstn (length cols)) line).
    { clear -HF Hb HW. induction line as [|row line IH]; intros k Hk; cbn; [reflexivity|]. inversion HF; subst. destruct H1 as [L HL]. f_equal.
      - apply cells_words; [exact Hb|apply HW; cbn in Hk; lia|exact L|]. revert HL. apply Forall_impl. intros s (A & B & _). auto.
      - apply IH; [assumption|cbn in Hk; lia]. }
    apply Q. lia. }
  assert (Ne : bs ++ tl <> []).
  { unfold tl. destruct (Nat.ltb_spec (length line) g); [destruct bs; discriminate|]. rewrite app_nil_r. unfold bs. destruct line; [cbn in *; lia|discriminate]. }
  split.
  - rewrite (split_join x) by (auto). rewrite map_app, Wd. unfold tl. destruct (Nat.ltb_spec (length line) g).
    + apply drop_empty_snoc.
    + cbn [map]. rewrite app_nil_r. apply drop_empty_keep.
      * destruct line; [cbn in *; lia|discriminate].
      * apply Forall_map. revert HF. apply Forall_impl. intros row (L & _). destruct cols; [congruence|]. destruct row; [cbn in L; lia|discriminate].
  - apply join_free; [exact Hnl|]. exact (Nx x0a (or_intror eq_refl)).
Qed.

Lemma layout_in {A} m g (rows : list A) lines line x : 1 <= g -> Layout m g rows lines -> In line lines -> In x line -> In x rows.
Proof.
  intros Hg HL Hi Hx. apply In_nth_error in Hi. destruct Hi as [l Hl]. apply In_nth_error in Hx. destruct Hx as [k Hk].
  assert (G : get2 lines l k = Some x) by (unfold get2; rewrite Hl; exact Hk).
  rewrite (layout_is m g rows lines Hg HL), layout_get2 in G. destruct (_ && _); [|discriminate G]. exact (nth_error_In _ _ G).
Qed.

Lemma plan_parts c (t : Table Item Val E) cols sep maxWidth m rows compact g lines W : Plan c t cols sep maxWidth m rows compact g lines W ->
  1 <= g /\ Layout m g rows lines /\ forall k, k < g -> length (W k) = length cols.
Proof.
  intros Pl. pose proof (plan_pos _ _ _ _ _ _ _ Pl) as Hg.
  destruct Pl as (g0 & _ & _ & HL & HW). split; [exact Hg|]. split; [exact HL|]. intros k Hk.
  destruct HW as [(_ & ->)|(_ & HW)]; [apply map_length|]. apply HW, Hk.
Qed.

Theorem read_back c (t : Table Item Val E) cols items rows x sep :
  Printable t cols items rows -> cols <> [] -> Forall (BuiltIn c) cols -> LegibleRows x (length cols) rows -> Marks x sep ->
  forall m fuel maxWidth compact,
  let r := merge m fuel c t (fun _ => true) items maxWidth sep compact in
  stop r = Finished ->
  exists g lines, 1 <= g /\ Layout m g rows lines /\ read_output sep (concat (written r)) = map (map (firstn (length cols))) lines.
Proof.
  intros P Hc Hb HL Hm m fuel maxWidth compact r Hf.
  assert (Hr : (reckoned t cols sep mod 65536 <> 0)%Z).
  { intros K. apply (divide_iff (c := c) P m fuel maxWidth sep compact) in K. unfold r in Hf. congruence. }
  destruct (mode_output c t cols items rows P m fuel maxWidth sep compact Hr Hf) as (g & lines & W & Pl & Ew).
  destruct (plan_parts _ _ _ _ _ _ _ _ _ _ _ Pl) as (Hg & Lay & HW).
  exists g, lines. split; [exact Hg|]. split; [exact Lay|]. fold r in Ew. rewrite Ew. unfold printed, read_output.
  rewrite <- (map_map (fun line => line_text c cols sep W g line) (fun l => l ++ [x0a])).
  assert (G : forall line, In line lines -> read_line sep (line_text c cols sep W g line) = map (firstn (length cols)) line
    /\ ~ In x0a (line_text c cols sep W g line)).
  { intros line Hi. apply line_read with x; try assumption.
    - rewrite (layout_is m g rows lines Hg Lay) in Hi. exact (layout_line_len m g rows line Hi).
    - apply Forall_forall. intros row Hrow. pose proof (layout_in m g rows lines line row Hg Lay Hi Hrow) as K. split.
      + exact (proj1 (Forall_forall _ _) (pr_long _ _ _ _ P) row K).
      + exact (proj1 (Forall_forall _ _) HL row K). }
  rewrite split_lines.
  - rewrite removelast_last, map_map. apply map_ext_in. intros line Hi. apply G, Hi.
  - apply Forall_forall. intros l Hl. apply in_map_iff in Hl. destruct Hl as (line & <- & Hi). apply G, Hi.
Qed.

(** ** Different rows give different output *)
Lemma picks_map {A B} (f : A -> B) p ks rows : picks p ks (map f rows) = map f (picks p ks rows).
Proof. induction ks as [|k ks IH]; [reflexivity|]. cbn [picks]. rewrite nth_map. destruct (nth_error rows (p k)); [|reflexivity]. cbn. rewrite IH. reflexivity. Qed.
Lemma layout_map {A B} (f : A -> B) m g rows lines : 1 <= g -> Layout m g rows lines -> Layout m g (map f rows) (map (map f) lines).
Proof.
  intros Hg HL. rewrite (layout_is m g rows lines Hg HL). replace (map (map f) (layout_lines m g rows)) with (layout_lines m g (map f rows)); [apply layout_ok, Hg|].
  unfold layout_lines. rewrite map_length, map_map. apply map_ext. intros l. apply picks_map.
Qed.

(** The lines of a layout determine what is laid out, however many groups there are. *)
Lemma layout_empty {A} m g (rows : list A) : rows <> [] -> ~ Layout m g rows [] /\ ~ Layout m g rows [[]].
Proof.
  intros Hr. split; intros [[_ HL]|[K _]]; try contradiction; destruct m.
  - destruct HL as [HL _]. cbn in HL. congruence.
  - destruct HL as (cs & HL & [R _] & _). destruct cs as [|c cs]; [cbn in HL; congruence|]. inversion R as [|? ? [R1 R2] _]; subst. destruct c; [congruence|cbn in R2; lia].
  - destruct HL as [HL _]. cbn in HL. congruence.
  - destruct HL as (cs & _ & _ & _ & _ & HL & _). inversion HL; subst. congruence.
Qed.
Lemma layout_injective {A} m g g' (rows rows' : list A) lines : Layout m g rows lines -> Layout m g' rows' lines -> rows = rows'.
Proof.
  intros HA HB. pose proof HA as HA0. pose proof HB as HB0. destruct HA as [[Hr HL]|[Hr HL]], HB as [[Hr' HL']|[Hr' HL']].
  - destruct m.
    + destruct HL as [<- _], HL' as [<- _]. reflexivity.
    + destruct HL as (cs & <- & R & _ & G & _), HL' as (cs' & <- & R' & _ & G' & _). f_equal. apply get2_ext.
      * intros i j. rewrite <- G, <- G'. reflexivity.
      * destruct R as [R _]. revert R. apply Forall_impl. tauto.
      * destruct R' as [R0 _]. revert R0. apply Forall_impl. tauto.
  - exfalso. destruct (layout_empty m g rows Hr) as [N1 N2]. rewrite HL' in HA0. destruct (2 <=? g'); contradiction.
  - exfalso. destruct (layout_empty m g' rows' Hr') as [N1 N2]. rewrite HL in HB0. destruct (2 <=? g); contradiction.
  - congruence.
Qed.
End Types.

(** Whatever the tables, conditions and screens, the same output means the same cells. *)
Theorem output_injective (Item Val E Item' Val' E' : Type) c (t : Table Item Val E) cols items rows
    c' (t' : Table Item' Val' E') cols' items' rows' x sep m :
  Printable t cols items rows -> cols <> [] -> Forall (BuiltIn c) cols -> LegibleRows x (length cols) rows ->
  Printable t' cols' items' rows' -> cols' <> [] -> Forall (BuiltIn c') cols' -> LegibleRows x (length cols') rows' -> Marks x sep ->
  forall fuel fuel' maxWidth maxWidth' compact compact',
  let r := merge m fuel c t (fun _ => true) items maxWidth sep compact in
  let r' := merge m fuel' c' t' (fun _ => true) items' maxWidth' sep compact' in
  stop r = Finished -> stop r' = Finished -> concat (written r) = concat (written r') ->
  map (firstn (length cols)) rows = map (firstn (length cols')) rows'.
Proof.
  intros P Hc Hb HL P' Hc' Hb' HL' Hm fuel fuel' maxWidth maxWidth' compact compact' r r' Hf Hf' He.
  destruct (read_back c t cols items rows x sep P Hc Hb HL Hm m fuel maxWidth compact Hf) as (g & lines & G & L & R).
  destruct (read_back c' t' cols' items' rows' x sep P' Hc' Hb' HL' Hm m fuel' maxWidth' compact' Hf') as (g' & lines' & G' & L' & R').
  fold r in R. fold r' in R'. rewrite He, R' in R.
  apply (layout_map (firstn (length cols))) in L; [|exact G]. apply (layout_map (firstn (length cols'))) in L'; [|exact G'].
  rewrite <- R in L. exact (layout_injective m g g' _ _ _ L L').
Qed.
