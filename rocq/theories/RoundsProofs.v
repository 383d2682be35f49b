(** * RoundsProofs: the texts measured by merging. *)
From Coq Require Import ZifyBool ZifyNat Permutation.
From Verif Require Import GoBase CacheProofs Runewidth Width AlignSpec Table Merge TableContract TableOpsProofs MergeSpec MergeLayout MergeRender MergeSearch
  MergeAsked MergeAskedProofs Cached CachedSpec CachedProofs Lru LruSpec LruProofs HeaderSpec FarSpec FarProofs RoundsSpec.
Local Open Scope Z_scope.

(** ** A round measures each cell once *)
Lemma perm_eq {A} (a b : list A) : a = b -> Permutation a b.
Proof. intros ->. reflexivity. Qed.
Lemma flat_map_swap {A B C} (f : A -> B -> list C) la lb :
  Permutation (flat_map (fun a => flat_map (fun b => f a b) lb) la) (flat_map (fun b => flat_map (fun a => f a b) la) lb).
Proof.
  induction la as [|a la IH]; cbn [flat_map].
  - induction lb as [|b lb IH]; [constructor|exact IH].
  - rewrite IH. clear IH. induction lb as [|b lb IH]; [constructor|]. cbn [flat_map]. rewrite <- IH, <- !app_assoc.
    apply Permutation_app_head. rewrite !app_assoc. apply Permutation_app_tail, Permutation_app_comm.
Qed.
Lemma flat_map_flat {A B C} (f : A -> list B) (h : B -> list C) l : flat_map h (flat_map f l) = flat_map (fun a => flat_map h (f a)) l.
Proof. induction l as [|a l IH]; [reflexivity|]. cbn [flat_map]. rewrite flat_map_app, IH. reflexivity. Qed.
Lemma nth_first {A} (l : list A) n :
  flat_map (fun k => match nth_error l k with Some x => [x] | None => [] end) (seq 0 n) = firstn n l.
Proof.
  revert l. induction n as [|n IH]; intros l; [reflexivity|]. cbn [seq flat_map]. rewrite <- seq_shift, flat_map_concat_map, map_map, <- flat_map_concat_map.
  destruct l as [|x l]; cbn [nth_error firstn app].
  - clear. induction (seq 0 n) as [|k ks IH]; [reflexivity|exact IH].
  - f_equal. exact (IH l).
Qed.
Lemma nth_all {A} (l : list A) n : (length l <= n)%nat ->
  flat_map (fun k => match nth_error l k with Some x => [x] | None => [] end) (seq 0 n) = l.
Proof. intros Hn. rewrite nth_first. apply firstn_all2, Hn. Qed.
Lemma layout_groups {A} m g (rows : list A) lines : (1 <= g)%nat -> Layout m g rows lines -> Permutation (concat lines) rows.
Proof.
  intros Hg [[Hne HL]|[-> ->]]; [|destruct (2 <=? g)%nat; constructor]. destruct m.
  - destruct HL as [-> _]. reflexivity.
  - destruct HL as (cs & Hc & HR & _ & HG & _). rewrite <- Hc.
    assert (Hw : forall r, In r cs -> (length r <= length lines)%nat).
    { intros r Hr. destruct HR as [HF _]. rewrite Forall_forall in HF. apply HF, Hr. }
    assert (E1 : concat cs = flat_map (fun r => flat_map (fun l => match nth_error r l with Some x => [x] | None => [] end) (seq 0 (length lines))) cs).
    { clear - Hw. induction cs as [|r cs IH]; [reflexivity|]. cbn [concat flat_map].
      rewrite nth_all by (apply Hw; left; reflexivity). f_equal. apply IH. intros; apply Hw; right; auto. }
    rewrite E1. clear E1.
    set (K := length cs).
    assert (E2 : flat_map (fun r => flat_map (fun l => match nth_error r l with Some x => [x] | None => [] end) (seq 0 (length lines))) cs
      = flat_map (fun k => flat_map (fun l => match get2 cs k l with Some x => [x] | None => [] end) (seq 0 (length lines))) (seq 0 K)).
    { rewrite <- (nth_all cs K) at 1 by reflexivity. rewrite flat_map_flat. apply flat_map_ext. intros k. unfold get2.
      destruct (nth_error cs k); cbn [flat_map]; [apply app_nil_r|]. clear. induction (seq 0 (length lines)) as [|l ls IH]; [reflexivity|exact IH]. }
    rewrite E2, flat_map_swap. apply perm_eq.
    assert (E3 : concat lines = flat_map (fun l => concat (match nth_error lines l with Some x => [x] | None => [] end)) (seq 0 (length lines))).
    { rewrite <- (nth_all lines (length lines)) at 1 by reflexivity. generalize (seq 0 (length lines)). intros ls. induction ls as [|l ls IH]; [reflexivity|].
      cbn [flat_map]. rewrite concat_app, IH. reflexivity. }
    rewrite E3. apply flat_map_ext. intros l.
    rewrite (flat_map_ext _ (fun k => match get2 lines l k with Some x => [x] | None => [] end)) by (intros k; rewrite HG; reflexivity).
    unfold get2. destruct (nth_error lines l) as [line|] eqn:El; cbn [concat].
    + rewrite app_nil_r. symmetry. apply nth_all. destruct (le_lt_dec (length line) K) as [L|L]; [exact L|].
      exfalso. specialize (HG l K). unfold get2 in HG. rewrite El in HG. fold K in HG.
      rewrite (proj2 (nth_error_None cs K)) in HG by (unfold K; lia). apply nth_error_None in HG. lia.
    + clear. induction (seq 0 K) as [|k ks IH]; [reflexivity|exact IH].
Qed.

Lemma round_perm m ncols g rows r : (1 <= g)%nat -> Round m ncols g rows r -> Permutation r (shown ncols rows).
Proof.
  intros Hg (lines & HL & ->). pose proof (layout_groups m g rows lines Hg HL) as P. unfold shown.
  transitivity (concat (map (firstn ncols) (concat lines))).
  - assert (W : forall line, In line lines -> (length line <= g)%nat).
    { intros line Hl. rewrite (layout_is m g rows lines Hg HL) in Hl. eapply layout_line_len; eauto. }
    transitivity (flat_map (fun k => flat_map (fun row => firstn ncols row) (group lines k)) (seq 0 g)).
    + clear. induction (seq 0 g) as [|k ks IH]; [constructor|]. cbn [flat_map]. apply Permutation_app; [|exact IH]. clear.
      unfold column_of. rewrite flat_map_swap. apply perm_eq. apply flat_map_ext. intros row. apply nth_first.
    + unfold group. rewrite (flat_map_ext _ (fun k => flat_map (fun line => flat_map (firstn ncols) (match nth_error line k with Some x => [x] | None => [] end)) lines))
        by (intros k; apply flat_map_flat).
      rewrite flat_map_swap. apply perm_eq. clear HL P.
      induction lines as [|line lines IH]; [reflexivity|]. cbn [flat_map concat]. rewrite map_app, concat_app, IH by (intros; apply W; right; auto).
      f_equal. rewrite <- flat_map_flat, nth_all by (apply W; left; reflexivity). apply flat_map_concat_map.
  - rewrite <- !flat_map_concat_map. apply Permutation_flat_map, P.
Qed.

(** ** The programs *)
Section Programs.
Context {Item Val E : Type}.
Variable c : Condition.
Notation w := (vwidth c).
Notation PT := (PTable Item Val E).
Notation PC := (PColumn Item Val E).
Context (t : PT) (cols : list PC) (items : PItems E) (rows : list (list str)).
Hypothesis HC : ptColumns t = map Some cols.
Hypothesis HB : Forall Built cols.
Hypothesis HI : Holds items rows.
Hypothesis HL : Forall (fun row => (length cols <= length row)%nat) rows.
Notation t' := (plainTable c t).
Notation cols' := (plainColumns c cols).

Lemma is_plain : IsPlain w t t'.
Proof. split; reflexivity. Qed.
Lemma plain_printable : Printable t' cols' (plainItems w items) rows.
Proof.
  split.
  - cbn. rewrite HC, map_map. unfold plainColumns. rewrite map_map. reflexivity.
  - destruct HI as [H1 H2]. split; [exact H1|]. intros i row Hr. cbn. rewrite (H2 i row Hr). reflexivity.
  - unfold plainColumns. rewrite map_length. exact HL.
Qed.
Notation HP := plain_printable.
Lemma ncols' : length cols' = length cols.
Proof. apply map_length. Qed.

(** *** Printing *)
Lemma cells_shown gw gi (cs : list PC) : Forall Built cs -> forall item done,
  (forall i, Z.of_nat (length done) <= i < Z.of_nat (length done) + Z.of_nat (length cs) -> exists n, gw i gi = Ok n) ->
  (length cs <= length item)%nat ->
  ptexts w (cellsP (E := E) gw (map Some cs) (done ++ item) (Z.of_nat (length done)) gi) = firstn (length cs) item
  /\ exists cells, value w (cellsP gw (map Some cs) (done ++ item) (Z.of_nat (length done)) gi) = Ok cells.
Proof.
  induction 1 as [|col cs Hb _ IH]; intros item done Hgw Hlen.
  - cbn. eauto.
  - destruct item as [|s item]; [cbn in Hlen; lia|]. cbn [map cellsP length firstn].
    assert (EI : index (E := E) (done ++ s :: item) (Z.of_nat (length done)) = Ok s).
    { unfold index, at_index. replace (Z.of_nat (length done) <? 0) with false by lia. rewrite Nat2Z.id.
      rewrite nth_error_app2 by lia. rewrite Nat.sub_diag. reflexivity. }
    rewrite EI. destruct (Hgw (Z.of_nat (length done)) ltac:(cbn [length]; lia)) as (n & ->).
    destruct (built_texts w col s n Hb) as (a & B1 & B2). rewrite ptexts_bind, value_bind, B1, B2.
    destruct (IH item (done ++ [s])) as (I1 & cells & I2).
    + intros i Hi. apply Hgw. rewrite app_length in Hi. cbn [length] in *. lia.
    + cbn in Hlen. lia.
    + rewrite <- app_assoc in I1, I2. cbn [app] in I1, I2.
      assert (L : Z.of_nat (length (done ++ [s])) = Z.of_nat (length done) + 1) by (rewrite app_length; cbn [length]; lia).
      rewrite L in I1, I2.
      destruct (ptexts_pbind w (cellsP gw (map Some cs) (done ++ s :: item) (Z.of_nat (length done) + 1) gi)
        (fun cells => Ret (Ok (a :: cells))) cells I2) as [P1 P2]. rewrite P1, P2, I1. cbn. rewrite app_nil_r. eauto.
Qed.

(** [gw] answers for the first [g] groups. *)
Definition Answers (gw : Z -> Z -> outcome E Z) (g : nat) : Prop :=
  forall i k, (i < length cols)%nat -> (k < g)%nat -> exists n, gw (Z.of_nat i) (Z.of_nat k) = Ok n.

Lemma render_shown gw g i k row : Answers gw g -> (k < g)%nat -> nth_error rows i = Some row ->
  ptexts w (renderP t items gw (Z.of_nat i) (Z.of_nat k)) = firstn (length cols) row
  /\ exists b, value w (renderP t items gw (Z.of_nat i) (Z.of_nat k)) = Ok b.
Proof.
  intros HA Hk Hr. unfold renderP. rewrite (proj2 HI i row Hr), HC. unfold pbind at 1 3. cbn [bind].
  destruct (cells_shown gw (Z.of_nat k) cols HB row []) as (C1 & cells & C2).
  { intros j Hj. cbn in Hj. rewrite <- (Z2Nat.id j) by lia. apply HA; lia. }
  { rewrite Forall_forall in HL. apply HL. eapply nth_error_In; eauto. }
  cbn [app length Z.of_nat] in C1, C2.
  destruct (ptexts_pbind w (cellsP gw (map Some cols) row 0 (Z.of_nat k)) (fun cells => Ret (Ok (GoBase.join innerSep cells))) cells C2) as [P1 P2].
  rewrite P1, P2, C1. cbn. rewrite app_nil_r. eauto.
Qed.

Lemma groups_shown gw g (p : nat -> nat) (P : Z -> Z) : Answers gw g -> (forall k, P (Z.of_nat k) = Z.of_nat (p k)) -> forall n s, (s + n <= g)%nat ->
  ptexts w (groupsP (piLen items) P (renderP t items gw) (map Z.of_nat (seq s n))) = shown (length cols) (picks p (seq s n) rows)
  /\ exists bs, value w (groupsP (piLen items) P (renderP t items gw) (map Z.of_nat (seq s n))) = Ok bs.
Proof.
  intros HA HPp. induction n as [|n IH]; intros s Hs; cbn [seq map groupsP picks]; [cbn; eauto|].
  rewrite HPp, (proj1 HI). destruct (nth_error rows (p s)) as [row|] eqn:Er.
  - pose proof (nth_some_lt _ _ _ Er). destruct (Z.geb_spec (Z.of_nat (p s)) (Z.of_nat (length rows))); [lia|].
    destruct (render_shown gw g (p s) s row HA ltac:(lia) Er) as (R1 & b & R2).
    destruct (IH (S s) ltac:(lia)) as (I1 & bs & I2). rewrite (proj1 HI) in I1, I2.
    set (rest := groupsP _ _ _ (map Z.of_nat (seq (S s) n))) in *.
    destruct (ptexts_pbind w (renderP t items gw (Z.of_nat (p s)) (Z.of_nat s)) (fun block => pbind rest (fun blocks => Ret (Ok (block :: blocks)))) b R2) as [P1 P2].
    rewrite P1, P2. destruct (ptexts_pbind w rest (fun blocks => Ret (Ok (b :: blocks))) bs I2) as [P3 P4]. rewrite P3, P4, R1, I1.
    split; [|cbn; eauto]. cbn [ptexts]. rewrite app_nil_r. reflexivity.
  - apply nth_error_None in Er. destruct (Z.geb_spec (Z.of_nat (p s)) (Z.of_nat (length rows))); [|lia]. cbn. eauto.
Qed.

Lemma lines_shown ok (line : Z -> prog (outcome E str)) (f : nat -> list str) : (forall n, ok n = true) -> forall n l k,
  (forall j, (l <= j < l + n)%nat -> ptexts w (line (Z.of_nat j)) = f j /\ exists txt, value w (line (Z.of_nat j)) = Ok txt) ->
  texts w ok k (linesP line (map Z.of_nat (seq l n))) = flat_map f (seq l n).
Proof.
  intros Hok. induction n as [|n IH]; intros l k K; [reflexivity|]. cbn [seq map linesP flat_map].
  destruct (K l ltac:(lia)) as (H1 & txt & H2). rewrite texts_first, H1, H2. cbn [texts]. rewrite Hok. f_equal. apply IH. intros j Hj. apply K. lia.
Qed.

Lemma emit_shown ok m g gw sep k : (forall n, ok n = true) -> (1 <= g)%nat -> Answers gw g ->
  texts w ok k (emitP t items sep (Z.of_nat g) gw (zpos m (Z.of_nat g))) = shown (length cols) (concat (layout_lines m g rows)).
Proof.
  intros Hok Hg HA. unfold emitP. rewrite (proj1 HI), lineCountOf_nat by exact Hg. set (L := lineCount (length rows) g). rewrite (zrange_nat L).
  rewrite (lines_shown ok _ (fun l => shown (length cols) (picks (pos m g L l) (seq 0 g) rows)) Hok).
  - unfold layout_lines. fold L. unfold shown. clear. induction (seq 0 L) as [|l ls IH]; [reflexivity|].
    cbn [flat_map map concat]. rewrite map_app, concat_app, IH. reflexivity.
  - intros l Hl. rewrite (zrange_nat g), <- (proj1 HI).
    destruct (groups_shown gw g (pos m g L l) (zpos m (Z.of_nat g) (Z.of_nat L) (Z.of_nat l)) HA) with (n := g) (s := 0%nat) as (G1 & bs & G2).
    + intros j. destruct m; cbn [zpos pos]; lia.
    + lia.
    + destruct (ptexts_pbind w _ (fun blocks => Ret (Ok (GoBase.join sep blocks))) bs G2) as [P1 P2]. cbv beta in P1, P2. rewrite P1, P2, G1.
      cbn. rewrite app_nil_r. eauto.
Qed.

Lemma answers_default g : Answers (getWidthP_default t) g.
Proof. intros i k Hi _. apply (default_ok t cols _ _ HC). lia. Qed.
Lemma answers_compact m g : (1 <= g)%nat -> Answers (getWidth_compact (slen (ptColumns t)) (flat (cols := cols') (c := c) (rows := rows) m g)) g.
Proof.
  intros Hg i k Hi Hk. pose proof (reads_compact (c := c) HP m g Hg k Hk) as [R1 R2]. rewrite ncols' in R1.
  destruct (nth_error (gwidths cols' c m rows g k) i) as [x|] eqn:Ex; [|apply nth_error_None in Ex; lia].
  exists x. specialize (R2 i x Ex). unfold ColumnCount, plainTable in R2. cbn [tSpec Columns] in R2. unfold slen in R2 |- *. rewrite map_length in R2. exact R2.
Qed.

(** *** Searching *)
Lemma pmap_shown {A B} (f : A -> prog (outcome E B)) (h : A -> list str) l :
  (forall a, In a l -> ptexts w (f a) = h a /\ exists b, value w (f a) = Ok b) ->
  ptexts w (pmap f l) = flat_map h l /\ exists bs, value w (pmap f l) = Ok bs.
Proof.
  induction l as [|a l IH]; intros K; cbn [pmap flat_map]; [cbn; eauto|].
  destruct (K a (or_introl eq_refl)) as (K1 & b & K2). destruct IH as (I1 & bs & I2); [intros; apply K; right; auto|].
  destruct (ptexts_pbind w (f a) (fun b => pbind (pmap f l) (fun bs => Ret (Ok (b :: bs)))) b K2) as [P1 P2]. rewrite P1, P2.
  destruct (ptexts_pbind w (pmap f l) (fun bs => Ret (Ok (b :: bs))) bs I2) as [P3 P4]. rewrite P3, P4, K1, I1. cbn. rewrite app_nil_r. eauto.
Qed.

Lemma maxCell_shown i : (i < length cols)%nat -> forall js mw, (forall j, In j js -> (j < length rows)%nat) ->
  ptexts w (maxCellP items (Z.of_nat i) (map Z.of_nat js) mw) = flat_map (fun j => match get2 rows j i with Some s => [s] | None => [] end) js
  /\ exists n, value w (maxCellP items (Z.of_nat i) (map Z.of_nat js) mw) = Ok n.
Proof.
  intros Hi. induction js as [|j js IH]; intros mw Hj; cbn [map maxCellP flat_map]; [cbn; eauto|].
  specialize (Hj j (or_introl eq_refl)) as Hj0. destruct (nth_error rows j) as [row|] eqn:Er; [|apply nth_error_None in Er; lia].
  rewrite (proj2 HI j row Er). unfold pbind. cbn [bind]. unfold get2 at 1. rewrite Er.
  assert (Hl : (length cols <= length row)%nat) by (rewrite Forall_forall in HL; apply HL; eapply nth_error_In; eauto).
  destruct (nth_error row i) as [s|] eqn:Es; [|apply nth_error_None in Es; lia]. rewrite (index_nat (E := E) row i s Es).
  cbn [ptexts value app]. destruct (IH (if w s >? mw then w s else mw) ltac:(intros; apply Hj; right; auto)) as [I1 I2]. rewrite I1. auto.
Qed.

Lemma group_rows {A} m g (l : list A) k : (k < g)%nat ->
  group (layout_lines m g l) k = flat_map (fun j => match nth_error l j with Some x => [x] | None => [] end) (group (layout_lines m g (seq 0 (length l))) k).
Proof.
  intros Hk. rewrite group_is by lia. rewrite flat_map_flat.
  unfold group, layout_lines. rewrite flat_map_concat_map, map_map, <- flat_map_concat_map.
  apply flat_map_ext. intros i. rewrite picks_nth by apply pos_mono. destruct (Nat.ltb_spec k g); [|lia]. cbn [plus].
  destruct (Nat.ltb_spec (pos m g (lineCount (length l) g) i k) (length l)) as [L|L]; [cbn [flat_map]; rewrite app_nil_r; reflexivity|].
  rewrite (proj2 (nth_error_None _ _)) by exact L. reflexivity.
Qed.

Definition measured m g : list str :=
  flat_map (fun k => flat_map (fun i => column_of i (group (layout_lines m g rows) k)) (seq 0 (length cols))) (seq 0 g).
Lemma measured_round m g : (1 <= g)%nat -> Round m (length cols) g rows (measured m g).
Proof. intros Hg. exists (layout_lines m g rows). split; [apply layout_ok, Hg|reflexivity]. Qed.

Lemma flat_map_in {A B} (f h : A -> list B) l : (forall a, In a l -> f a = h a) -> flat_map f l = flat_map h l.
Proof. intros K. induction l as [|a l IH]; [reflexivity|]. cbn [flat_map]. rewrite K by (left; auto). rewrite IH; auto. intros; apply K; right; auto. Qed.

Lemma widths_shown m g idxs : (1 <= g)%nat -> (forall k, (k < g)%nat -> idxs (Z.of_nat k) = gidx m (length rows) g (Z.of_nat k)) ->
  ptexts w (widthsP items (slen (ptColumns t)) idxs (Z.of_nat g)) = measured m g.
Proof.
  intros Hg Hidx. unfold widthsP. rewrite HC. unfold slen. rewrite map_length, !zrange_nat.
  destruct (pmap_shown (fun groupI => pmap (fun colI => maxCellP items colI (idxs groupI) 0) (map Z.of_nat (seq 0 (length cols))))
    (fun kz => flat_map (fun iz => column_of (Z.to_nat iz) (group (layout_lines m g rows) (Z.to_nat kz))) (map Z.of_nat (seq 0 (length cols))))
    (map Z.of_nat (seq 0 g))) as (P1 & bs & P2).
  - intros kz Hk. apply in_map_iff in Hk. destruct Hk as (k & <- & Hk). apply in_seq in Hk. rewrite Nat2Z.id.
    apply pmap_shown. intros iz Hi. apply in_map_iff in Hi. destruct Hi as (i & <- & Hi). apply in_seq in Hi. rewrite Nat2Z.id.
    rewrite Hidx, group_gidx by lia. destruct (maxCell_shown i ltac:(lia) (group (layout_lines m g (seq 0 (length rows))) k) 0) as [M1 M2].
    + intros j Hj. rewrite group_is in Hj by lia. apply in_flat_map in Hj. destruct Hj as (l & _ & Hj).
      destruct (Nat.ltb_spec (pos m g (lineCount (length rows) g) l k) (length rows)) as [L|L]; cbn in Hj; [|tauto].
      destruct Hj as [<-|[]]. exact L.
    + split; [|exact M2]. rewrite M1, (group_rows m g rows k) by lia. unfold column_of. generalize (group (layout_lines m g (seq 0 (length rows))) k). intros js. rewrite flat_map_flat. apply flat_map_ext. intros j. unfold get2.
      destruct (nth_error rows j); cbn [flat_map]; [rewrite app_nil_r|]; reflexivity.
  - destruct (ptexts_pbind w _ (fun rs => Ret (Ok (concat rs))) bs P2) as [Q1 Q2]. rewrite Q1, P1. cbn [ptexts]. rewrite app_nil_r.
    unfold measured. rewrite flat_map_concat_map, map_map, <- flat_map_concat_map. apply flat_map_ext. intros k.
    rewrite flat_map_concat_map, map_map, <- flat_map_concat_map. rewrite Nat2Z.id. apply flat_map_ext. intros i. rewrite Nat2Z.id. reflexivity.
Qed.

Definition tried m g : list str := if worth_b m (length rows) g then measured m g else [].

Lemma mergedH_shown g : (1 <= g)%nat -> ptexts w (mergedWidthsHP t items (Z.of_nat g)) = measured H g.
Proof. intros Hg. unfold mergedWidthsHP. apply (widths_shown H g); [exact Hg|]. intros k Hk. rewrite (proj1 HI). reflexivity. Qed.

Lemma mergedV_shown g : (2 <= g)%nat -> ptexts w (mergedWidthsVP t items (Z.of_nat g)) = tried V g.
Proof.
  intros Hg. pose proof (mergedV_ok (c := c) HP g Hg) as K. rewrite (mergedV_value c t t' items _ is_plain) in K.
  unfold mergedWidthsVP in *. rewrite (proj1 HI) in *. rewrite lineCountOf_nat in * by lia. set (L := lineCount (length rows) g) in *. cbv zeta in *.
  unfold tried. destruct (Z.of_nat L =? 0); [discriminate|]. destruct (Z.of_nat g >? _).
  - destruct (worth_b V (length rows) g); [discriminate|reflexivity].
  - destruct (worth_b V (length rows) g).
    + match goal with |- ptexts w (pbind ?p ?f) = _ => assert (ptexts w p = measured V g) as E1; [apply (widths_shown V g); [lia|intros; reflexivity]|];
        rewrite value_pbind in K; destruct (value w p) as [l|e|q] eqn:Ev; try discriminate; destruct (ptexts_pbind w p f l Ev) as [Q1 _]; rewrite Q1, E1 end.
      cbn. apply app_nil_r.
    + rewrite value_pbind in K. match type of K with obind ?x _ = _ => destruct x; discriminate end.
Qed.

Definition calcP (m : mode) : nat -> PT -> PItems E -> Z -> Z -> Z -> Z -> list Z -> prog (option (outcome E (Z * list Z))) :=
  match m with H => compactHP | V => compactVP end.

Lemma calcP_value m fuel mw mg gi extra cw : value w (calcP m fuel t items mw mg gi extra cw) = calc m fuel c t' (plainItems w items) mw mg gi extra cw.
Proof. destruct m; symmetry; [apply compactH_value|apply compactV_value]; apply is_plain. Qed.

Lemma calcP_step m f sep maxWidth (g0 extra : nat) cw : (1 <= g0)%nat ->
  ptexts w (calcP m (S f) t items (clampWidth maxWidth) (u16 (slen sep)) (Z.of_nat g0) (Z.of_nat extra) cw)
  = tried m (g0 + extra + 1) ++
    if acceptable_b c cols' sep maxWidth m rows (g0 + extra + 1)
    then ptexts w (calcP m f t items (clampWidth maxWidth) (u16 (slen sep)) (Z.of_nat g0) (Z.of_nat (S extra)) (flat (cols := cols') (c := c) (rows := rows) m (g0 + extra + 1)))
    else [].
Proof.
  intros Hg0. set (g := (g0 + extra + 1)%nat).
  assert (Eg : Z.of_nat g0 + Z.of_nat extra + 1 = Z.of_nat g) by lia.
  assert (Ee : Z.of_nat extra + 1 = Z.of_nat (S extra)) by lia.
  assert (Es : slen (ptColumns t) = ColumnCount (tSpec t')) by (unfold ColumnCount; cbn; rewrite slen_map; reflexivity).
  unfold acceptable_b. destruct m; cbn [calcP compactHP compactVP]; rewrite Eg, Ee, ptexts_bind.
  - rewrite mergedH_shown by lia. rewrite <- (mergedH_value c t t' items _ is_plain), (mergedH_ok (c := c) HP) by lia.
    rewrite Es, (total_flat (c := c) HP), clamp_effective. unfold tried. cbn [worth_b andb]. f_equal.
    destruct (Z.gtb_spec (total sep cols' (gwidths cols' c H rows g) g mod 65536) (effective maxWidth)) as [K1|K1];
    destruct (Z.leb_spec (total sep cols' (gwidths cols' c H rows g) g mod 65536) (effective maxWidth)) as [K2|K2]; try lia; reflexivity.
  - rewrite mergedV_shown by lia. rewrite <- (mergedV_value c t t' items _ is_plain), (mergedV_ok (c := c) HP) by lia. f_equal.
    destruct (worth_b V (length rows) g); cbn [andb]; [|reflexivity].
    rewrite Es, (total_flat (c := c) HP), clamp_effective.
    destruct (Z.gtb_spec (total sep cols' (gwidths cols' c V rows g) g mod 65536) (effective maxWidth)) as [K1|K1];
    destruct (Z.leb_spec (total sep cols' (gwidths cols' c V rows g) g mod 65536) (effective maxWidth)) as [K2|K2]; try lia; reflexivity.
Qed.

Lemma calcP_shown m sep maxWidth (g0 : nat) extra' : (1 <= g0)%nat -> forall f extra cw, (extra <= extra' < extra + f)%nat ->
  (forall g, (g0 + extra < g <= g0 + extra')%nat -> acceptable_b c cols' sep maxWidth m rows g = true) ->
  acceptable_b c cols' sep maxWidth m rows (g0 + extra' + 1) = false ->
  ptexts w (calcP m f t items (clampWidth maxWidth) (u16 (slen sep)) (Z.of_nat g0) (Z.of_nat extra) cw)
  = flat_map (tried m) (seq (g0 + extra + 1) (S (extra' - extra))).
Proof.
  intros Hg0. induction f as [|f IH]; intros extra cw He Ha Hn; [lia|]. rewrite calcP_step by exact Hg0. cbn [seq flat_map].
  f_equal. destruct (Nat.eq_dec extra extra') as [->|Hne].
  - rewrite Hn, Nat.sub_diag. reflexivity.
  - rewrite Ha by lia. rewrite IH by (try lia; auto; intros; apply Ha; lia).
    replace (extra' - extra)%nat with (S (extra' - S extra)) by lia. f_equal. f_equal. lia.
Qed.

(** *** Both *)
Notation g0 sep maxWidth := (g_init (t := t') (cols := cols') sep maxWidth).
Lemma groupCountP_is sep maxWidth : groupCountP t maxWidth sep
  = if reckoned t' cols' sep mod 65536 =? 0 then Panic DivideByZero else Ok (Z.of_nat (g0 sep maxWidth)).
Proof.
  rewrite <- (groupCount_plain c t t' _ _ is_plain), (estimate_ok t' cols' maxWidth sep (pr_columns _ _ _ _ HP)).
  unfold g_init. rewrite Z2Nat.id; [reflexivity|]. pose proof (estimate_pos t' cols' sep maxWidth). lia.
Qed.

Lemma mergeP_unfold m fuel maxWidth sep compact : reckoned t' cols' sep mod 65536 <> 0 ->
  mergeP m fuel t items maxWidth sep compact =
  let finish gc getWidth := emitP t items sep gc getWidth (zpos m gc) in
  if compact then
    first (calcP m fuel t items (clampWidth maxWidth) (u16 (slen sep)) (Z.of_nat (g0 sep maxWidth)) 0 []) (fun r =>
    match r with
    | None => WRet Running
    | Some (Panic p) => WRet (Panicked p)
    | Some (Err e) => WRet (Failed e)
    | Some (Ok (extra, cellWidth)) =>
      if extra >? 0
      then finish (Z.of_nat (g0 sep maxWidth) + extra) (getWidth_compact (slen (ptColumns t)) cellWidth)
      else finish (Z.of_nat (g0 sep maxWidth)) (getWidthP_default t)
    end)
  else finish (Z.of_nat (g0 sep maxWidth)) (getWidthP_default t).
Proof.
  intros Hr. destruct m; unfold mergeP, mergeHP, mergeVP; rewrite groupCountP_is; (destruct (Z.eqb_spec (reckoned t' cols' sep mod 65536) 0); [lia|]); reflexivity.
Qed.

Lemma rounds_of m sep maxWidth g : let g1 := g0 sep maxWidth in (1 <= g1 <= g)%nat ->
  (forall g', (g1 < g' <= g)%nat -> acceptable_b c cols' sep maxWidth m rows g' = true) ->
  exists rounds, Rounds m (length cols) rows g1 g rounds /\ flat_map (tried m) (seq (S g1) (S (g - g1))) = concat rounds.
Proof.
  intros g1 Hg Ha.
  assert (A : forall n, (n <= g - g1)%nat -> flat_map (tried m) (seq (S g1) n) = concat (map (measured m) (seq (S g1) n))).
  { intros n Hn. rewrite flat_map_concat_map. f_equal. apply map_ext_in. intros g' Hg'. apply in_seq in Hg'. unfold tried.
    specialize (Ha g' ltac:(lia)). unfold acceptable_b in Ha. apply andb_prop in Ha. rewrite (proj1 Ha). reflexivity. }
  assert (F : forall n, Forall2 (fun g' r => Round m (length cols) g' rows r) (seq (S g1) n) (map (measured m) (seq (S g1) n))).
  { intros n. assert (Hs : (1 <= S g1)%nat) by lia. revert Hs. generalize (S g1). induction n as [|n IH]; intros s Hs; cbn [seq map]; constructor; [apply measured_round; lia|]. apply IH. lia. }
  assert (ES : flat_map (tried m) (seq (S g1) (S (g - g1))) = flat_map (tried m) (seq (S g1) (g - g1)) ++ tried m (S g)).
  { rewrite seq_S, flat_map_app. cbn [flat_map]. rewrite app_nil_r. f_equal. f_equal. lia. }
  rewrite ES, A by lia. pose proof (worth_spec m rows (S g) ltac:(lia)) as W. unfold tried. destruct (worth_b m (length rows) (S g)).
  - exists (map (measured m) (seq (S g1) (S (g - g1)))). split.
    + exists (S (g - g1)). split; [apply F|]. left. split; [apply W; reflexivity|reflexivity].
    + rewrite seq_S, map_app, concat_app. cbn [map concat]. rewrite app_nil_r. f_equal. f_equal. lia.
  - exists (map (measured m) (seq (S g1) (g - g1))). split; [|rewrite app_nil_r; reflexivity].
    exists (g - g1)%nat. split; [apply F|]. right. split; [intros K; apply W in K; discriminate|reflexivity].
Qed.

(** What merging measures. *)
Theorem merging ok m fuel maxWidth sep compact k : (forall n, ok n = true) ->
  snd (effect w ok k (mergeP m fuel t items maxWidth sep compact)) = Finished ->
  exists g1 g lines rounds, Z.of_nat g1 = estimate t' cols' sep maxWidth /\ Layout m g rows lines
    /\ (if compact then Search c cols' sep maxWidth m rows g1 g /\ Rounds m (length cols) rows g1 g rounds else g = g1 /\ rounds = [])
    /\ texts w ok k (mergeP m fuel t items maxWidth sep compact) = concat rounds ++ shown (length cols) (concat lines).
Proof.
  intros Hok Hf. pose proof (estimate_pos t' cols' sep maxWidth) as Hpos.
  assert (E1 : Z.of_nat (g0 sep maxWidth) = estimate t' cols' sep maxWidth) by (unfold g_init; lia).
  assert (Hg1 : (1 <= g0 sep maxWidth)%nat) by lia.
  destruct (Z.eq_dec (reckoned t' cols' sep mod 65536) 0) as [Z0|Z0].
  { exfalso. destruct m; unfold mergeP, mergeHP, mergeVP in Hf; rewrite groupCountP_is, Z0 in Hf; discriminate. }
  rewrite mergeP_unfold in * by exact Z0. cbv zeta in *. destruct compact.
  - rewrite effect_first in Hf. rewrite texts_first. rewrite calcP_value in *.
    destruct (calc_spec (c := c) HP m sep maxWidth (g0 sep maxWidth) Hg1 fuel 0 []) as [[K1 K2]|(extra & K1 & K2 & K3 & K4)];
      change (Z.of_nat 0) with 0 in *; [rewrite K1 in Hf; discriminate|].
    rewrite K2 in *. pose proof (calcP_shown m sep maxWidth (g0 sep maxWidth) extra Hg1 fuel 0 [] ltac:(lia)
      ltac:(intros g Hg; apply K3; lia) K4) as T. change (Z.of_nat 0) with 0 in T. rewrite T. clear T.
    set (g := (g0 sep maxWidth + extra)%nat).
    destruct (rounds_of m sep maxWidth g ltac:(unfold g; lia)) as (rounds & R1 & R2).
    { intros g' Hg'. apply K3. unfold g in Hg'. lia. }
    exists (g0 sep maxWidth), g, (layout_lines m g rows), rounds. split; [exact E1|]. split; [apply layout_ok; unfold g; lia|]. split.
    + split; [|exact R1]. split; [unfold g; lia|]. split.
      * intros g' Hg'. apply acceptable_spec; [lia|]. apply K3. unfold g in Hg'. lia.
      * intros Ha. apply acceptable_spec in Ha; [|unfold g; lia]. unfold g in Ha. rewrite <- Nat.add_1_r, K4 in Ha. discriminate.
    + rewrite <- R2. replace (S (g0 sep maxWidth)) with (g0 sep maxWidth + 0 + 1)%nat by lia.
      replace (g - g0 sep maxWidth)%nat with (extra - 0)%nat by (unfold g; lia). f_equal.
      destruct (Z.gtb_spec (Z.of_nat extra) 0) as [L|L].
      * destruct (Nat.eqb_spec 0 extra); [lia|]. rewrite <- Nat2Z.inj_add. fold g.
        apply emit_shown; [exact Hok|unfold g; lia|]. apply answers_compact. unfold g. lia.
      * assert (extra = 0%nat) by lia. subst extra. unfold g. rewrite Nat.add_0_r. apply emit_shown; [exact Hok|exact Hg1|apply answers_default].
  - exists (g0 sep maxWidth), (g0 sep maxWidth), (layout_lines m (g0 sep maxWidth) rows), []. split; [exact E1|]. split; [apply layout_ok, Hg1|].
    split; [auto|]. cbn [concat app]. apply emit_shown; [exact Hok|exact Hg1|apply answers_default].
Qed.
End Programs.

(** ** How often, and what is computed *)
Lemma rounds_perm m ncols rows g1 g rounds : Rounds m ncols rows g1 g rounds -> Forall (fun r => Permutation r (shown ncols rows)) rounds.
Proof.
  intros (n & HF & _). assert (Hs : (1 <= S g1)%nat) by lia. revert Hs HF. generalize (S g1). revert rounds.
  induction n as [|n IH]; intros rounds s Hs HF; cbn [seq] in HF; inversion HF; subst; constructor; [eapply round_perm; eauto|eapply IH; [|eauto]; lia].
Qed.
Lemma shown_len ncols rows : Forall (fun row : list str => (ncols <= length row)%nat) rows -> length (shown ncols rows) = (length rows * ncols)%nat.
Proof.
  unfold shown. induction 1 as [|row rows Hr _ IH]; [reflexivity|]. cbn [map concat length Nat.mul]. rewrite app_length, firstn_length, IH. lia.
Qed.
Lemma shown_perm ncols rows rows' : Permutation rows rows' -> Permutation (shown ncols rows) (shown ncols rows').
Proof. intros P. unfold shown. rewrite <- !flat_map_concat_map. apply Permutation_flat_map, P. Qed.
Lemma rounds_all (cells print : list str) rounds : Forall (fun r => Permutation r cells) rounds -> Permutation print cells ->
  Permutation (concat rounds ++ print) (concat (repeat cells (S (length rounds)))).
Proof.
  intros HF HPm. induction HF as [|r rounds Hr _ IH]; cbn [concat repeat length app].
  - rewrite app_nil_r. exact HPm.
  - rewrite <- app_assoc. apply Permutation_app; [exact Hr|]. exact IH.
Qed.

Section Counting.
Context {Item Val E : Type}.
Variable c : Condition.
Notation w := (vwidth c).
Context (t : PTable Item Val E) (cols : list (PColumn Item Val E)) (items : PItems E) (rows : list (list str)).
Hypothesis HC : ptColumns t = map Some cols.
Hypothesis HB : Forall Built cols.
Hypothesis HI : Holds items rows.
Hypothesis HL : Forall (fun row => (length cols <= length row)%nat) rows.
Notation t' := (plainTable c t).
Notation cols' := (plainColumns c cols).

(** Every cell as often as any other: once for each round, and once more. *)
Theorem times m fuel maxWidth sep compact : 
  snd (effect w (fun _ => true) 0 (mergeP m fuel t items maxWidth sep compact)) = Finished ->
  exists g1 g n, Z.of_nat g1 = estimate t' cols' sep maxWidth
    /\ (if compact then Search c cols' sep maxWidth m rows g1 g /\ ((Worth m rows (S g) /\ n = S (g - g1)) \/ (~ Worth m rows (S g) /\ n = (g - g1)%nat))
        else n = 0%nat)
    /\ Permutation (texts w (fun _ => true) 0 (mergeP m fuel t items maxWidth sep compact)) (concat (repeat (shown (length cols) rows) (S n))).
Proof.
  intros Hf. destruct (merging c t cols items rows HC HB HI HL (fun _ => true) m fuel maxWidth sep compact 0 (fun _ => eq_refl) Hf)
    as (g1 & g & lines & rounds & E1 & HLy & HR & HT).
  assert (Hg1 : (1 <= g1)%nat) by (pose proof (estimate_pos t' cols' sep maxWidth); lia).
  assert (Hg : (1 <= g)%nat) by (destruct compact; destruct HR as [K _]; [destruct K as [K _]; lia|lia]).
  pose proof (shown_perm (length cols) _ _ (layout_groups m g rows lines Hg HLy)) as P.
  exists g1, g, (length rounds). split; [exact E1|]. split.
  - destruct compact; [|destruct HR as [_ ->]; reflexivity]. destruct HR as [HS (n & HF & Hn)]. split; [exact HS|].
    assert (length rounds = n) as ->; [|exact Hn]. clear - HF. rewrite <- (seq_length n (S g1)). symmetry. induction HF; cbn; congruence.
  - rewrite HT. apply rounds_all; [|exact P]. destruct compact; [destruct HR as [_ HR]; eapply rounds_perm; eauto|destruct HR as [_ ->]; constructor].
Qed.
End Counting.

Lemma concat_repeat_len {A} (l : list A) n : length (concat (repeat l n)) = (n * length l)%nat.
Proof. induction n as [|n IH]; [reflexivity|]. cbn [repeat concat Nat.mul]. rewrite app_length, IH. reflexivity. Qed.
Lemma concat_repeat_in {A} (l : list A) n x : In x (concat (repeat l (S n))) <-> In x l.
Proof.
  split.
  - intros K. apply in_concat in K. destruct K as (y & K & Hx). apply repeat_spec in K. subst y. exact Hx.
  - intros Hx. cbn [repeat concat]. apply in_or_app. auto.
Qed.
Lemma filter_perm {A} (f : A -> bool) l l' : Permutation l l' -> Permutation (filter f l) (filter f l').
Proof.
  induction 1; cbn [filter]; auto; repeat match goal with |- context [if f ?a then _ else _] => destruct (f a) end; eauto using Permutation.
Qed.
Lemma zeros_times c l n : zeros c (concat (repeat l n)) = (n * zeros c l)%nat.
Proof. unfold zeros. induction n as [|n IH]; [reflexivity|]. cbn [repeat concat Nat.mul]. rewrite filter_app, app_length, IH. reflexivity. Qed.
Lemma visible_times c l n : visible c (concat (repeat l (S n))) = visible c l.
Proof. unfold visible. apply distinct_same. intros x. rewrite !filter_In, concat_repeat_in. reflexivity. Qed.

(** With room in the cache for all the cells, each is computed once; but those
    that take no width each time. *)
Theorem computed {A} cap c ok (p : wprog A) out a log cells n : (1 <= cap)%nat -> runL cap c ok 0 [] p = (out, a, log) ->
  Permutation (texts (vwidth c) ok 0 p) (concat (repeat cells (S n))) -> (distinct cells <= cap)%nat ->
  count (map snd log) = (S n * zeros c cells + visible c cells)%nat.
Proof.
  intros Hcap HR HPm Hd. destruct (program_runs cap c ok p out a log Hcap HR) as (_ & HT & _ & _ & K).
  assert (D : distinct (map fst log) = distinct cells).
  { rewrite HT. apply distinct_same. intros x. rewrite <- (concat_repeat_in cells n). split; apply Permutation_in; [exact HPm|symmetry; exact HPm]. }
  rewrite K by lia. rewrite HT. f_equal.
  - rewrite <- zeros_times. unfold zeros. apply Permutation_length, filter_perm, HPm.
  - rewrite <- (visible_times c cells n). unfold visible. apply distinct_same. intros x. rewrite !filter_In.
    split; intros [H1 H2]; (split; [|exact H2]); [apply (Permutation_in _ HPm H1)|apply (Permutation_in _ (Permutation_sym HPm) H1)].
Qed.

(** ** The other functions *)
Section Others.
Context {Item Val E : Type}.
Variable w : str -> Z.
Lemma alone_texts {A} ok n (p : prog A) : texts w ok n (alone p) = ptexts w p.
Proof. unfold alone. rewrite texts_first. cbn. apply app_nil_r. Qed.

Lemma format_measures (t : PTable Item Val E) (cols : list (PColumn Item Val E)) item row ok n : ptColumns t = map Some cols -> ptWidth t <> None ->
  Forall2 (fun col s => Gives col item s) cols row -> texts w ok n (alone (formatItemP t item)) = row.
Proof. intros Hc Hw HG. rewrite alone_texts. unfold formatItemP. rewrite Hc. apply (formatItem_texts w item cols row HG t [] Hw). Qed.

Lemma align_measures (t : PTable Item Val E) (cols : list (PColumn Item Val E)) row ok n : ptColumns t = map Some cols -> Forall Built cols ->
  texts w ok n (alone (alignItemP t row)) = if (length row =? length cols)%nat then aligned cols row else [].
Proof.
  intros Hc HB. rewrite alone_texts. unfold alignItemP. rewrite Hc. unfold slen. rewrite map_length.
  destruct (Nat.eqb_spec (length row) (length cols)) as [L|L]; [|replace (Z.of_nat (length row) =? Z.of_nat (length cols)) with false by lia; reflexivity].
  replace (Z.of_nat (length row) =? Z.of_nat (length cols)) with true by lia. cbn [negb]. generalize (@nil str) as done. revert row L.
  clear Hc. unfold aligned. induction HB as [|col cols Hb HB IH]; intros [|s row] L done; try discriminate; [reflexivity|]. cbn [map alignItemP_loop combine flat_map].
  destruct Hb as [E0|[E0|[E0|E0]]]; rewrite E0; [apply IH; cbn in L; lia| | |]; rewrite ptexts_bind; cbn [ptexts alignLeftP alignRightP alignCenterP value app];
    f_equal; apply IH; cbn in L; lia.
Qed.

Lemma header_measures (t : PTable Item Val E) (cols : list (PColumn Item Val E)) sep ok n : ptColumns t = map Some cols ->
  texts w ok n (alone (headerP t sep)) = titles t cols.
Proof.
  intros Hc. rewrite alone_texts. unfold headerP. rewrite Hc. generalize (@nil byte) as acc. clear Hc. unfold titles.
  induction cols as [|col cols IH]; intros acc; [reflexivity|]. cbn [map headerP_loop flat_map]. rewrite ptexts_bind, IH. f_equal.
  unfold padHeaderP, widthP. destruct (_ =? 0); [reflexivity|]. cbn [ptexts alignCenterP]. f_equal. unfold first_fitting.
  destruct (Z.gtb_spec (slen (pcTitle col)) (wread (ptWidth t) (pcName col))), (Z.leb_spec (slen (pcTitle col)) (wread (ptWidth t) (pcName col))); try lia; auto.
  destruct (Z.gtb_spec (slen (pcShortTitle col)) (wread (ptWidth t) (pcName col))), (Z.leb_spec (slen (pcShortTitle col)) (wread (ptWidth t) (pcName col))); try lia; auto.
Qed.
End Others.

(** ** The vertical search *)
Lemma vertical_tries {Item Val E} c (cols : list (Column Item Val E)) sep maxWidth rows g1 g n : rows <> [] -> (1 <= g1)%nat ->
  Search c cols sep maxWidth V rows g1 g -> (Worth V rows (S g) /\ n = S (g - g1)) \/ (~ Worth V rows (S g) /\ n = (g - g1)%nat) ->
  (n <= 2 \/ n * (n - 2) < 2 * length rows)%nat.
Proof.
  intros Hr Hg HS Hn. assert (n <= g)%nat by (destruct HS as [K _]; destruct Hn as [[_ ->]|[_ ->]]; lia).
  destruct (search_far c cols sep maxWidth rows g1 g Hr Hg HS) as [K|K].
  - left. destruct Hn as [[_ ->]|[_ ->]]; lia.
  - right. assert (n * (n - 2) <= g * (g - 2))%nat by (apply Nat.mul_le_mono; lia). lia.
Qed.
