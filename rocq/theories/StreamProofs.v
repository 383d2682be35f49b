(** * StreamProofs: rows printed at once, and rows printed at the end. *)
From Verif Require Import GoBase Runewidth Width AlignSpec Table TableContract CacheProofs AlignProofs TableOpsProofs StreamSpec.
From Coq Require Import ZifyBool ZifyNat.
Local Open Scope Z_scope.

Lemma align_length a c s w : 0 <= w < 65536 ->
  slen (align a c s w) = slen s + Z.max 0 (w - vwidth c s).
Proof.
  intros Hw. destruct (align_spaces a c s w Hw) as (l & r & -> & (Hl & Hr & Hs & _)).
  unfold slen, spaces in *. rewrite !app_length, !repeat_length. lia.
Qed.

Lemma align_same a c s w w' : 0 <= w -> w <= w' < 65536 -> vwidth c s <= w ->
  align a c s w = align a c s w' <-> w = w'.
Proof.
  intros H0 H1 H2. split; [|intros ->; reflexivity]. intros Q. apply (f_equal slen) in Q.
  rewrite !align_length in Q by lia. lia.
Qed.

Section Types.
Context {Item Val E : Type}.
Notation Table := (Table Item Val E).

Lemma nth_ext' {A} (l l' : list A) : List.length l = List.length l' ->
  (forall i x y, nth_error l i = Some x -> nth_error l' i = Some y -> x = y) -> l = l'.
Proof.
  revert l'. induction l as [|a l IH]; intros [|b l'] HL H; try discriminate; [reflexivity|].
  f_equal; [exact (H O a b eq_refl eq_refl)|]. apply IH; [cbn in HL; congruence|].
  intros i x y Hx Hy. exact (H (S i) x y Hx Hy).
Qed.

Lemma nth_same {A B} (l : list A) (l' : list B) i x : List.length l = List.length l' -> nth_error l i = Some x ->
  exists y, nth_error l' i = Some y.
Proof.
  intros HL Hx. destruct (nth_error l' i) eqn:K; [eauto|]. apply nth_error_None in K.
  assert (i < List.length l)%nat by (apply nth_error_Some; congruence). lia.
Qed.

(** One row aligned with two tables, the second grown from the first. *)
Lemma page c (t t' : Table) row line line' : tSpec t' = tSpec t -> BuiltInAll c (Columns (tSpec t)) ->
  ~ In None (Columns (tSpec t)) ->
  (forall n, 0 <= Width t n /\ Width t n <= Width t' n < 65536) ->
  (forall n w, SeenIn c (Columns (tSpec t)) row n w -> w <= Width t n) ->
  snd (AlignFormattedItem t row) = Ok line -> snd (AlignFormattedItem t' row) = Ok line' ->
  line = line' <-> forall col, In (Some col) (Columns (tSpec t)) -> colAlignment col <> None ->
    Width t (colName col) = Width t' (colName col).
Proof.
  intros Hs HB Hn HW HF H1 H2.
  assert (HL : List.length row = List.length (Columns (tSpec t))).
  { destruct (Nat.eq_dec (List.length row) (List.length (Columns (tSpec t)))) as [L|L]; [exact L|].
    rewrite Align_bad_length in H1 by exact L. discriminate. }
  destruct (Align_good t row HL Hn) as (cells & E1 & L1 & N1).
  destruct (Align_good t' row) as (cells' & E2 & L2 & N2); [rewrite Hs; exact HL|rewrite Hs; exact Hn|].
  rewrite E1 in H1. rewrite E2 in H2. cbn [snd] in H1, H2. injection H1 as <-. injection H2 as <-.
  rewrite Hs in N2. split.
  - intros Q col Hin Ha. apply In_nth_error in Hin. destruct Hin as (i & Hi).
    destruct (nth_same _ row i _ (eq_sym HL) Hi) as (s & Hsi).
    pose proof (N1 i col s Hi Hsi) as A1. pose proof (N2 i col s Hi Hsi) as A2. rewrite Q, A2 in A1.
    destruct (colAlignment col) as [al|] eqn:Ea; [|congruence].
    destruct (HB col al (nth_error_In _ _ Hi) Ea) as (a & ->). injection A1 as A1.
    destruct (HW (colName col)). apply (align_same a c s); [lia|lia| |congruence].
    apply HF. exists i, col, s. auto.
  - intros Q. apply nth_ext'; [lia|]. intros i x y Hx Hy.
    destruct (nth_same _ row i _ L1 Hx) as (s & Hsi).
    destruct (nth_same _ (Columns (tSpec t)) i _ HL Hsi) as ([col|] & Hi).
    2:{ exfalso. apply Hn. eapply nth_error_In; eauto. }
    rewrite (N1 i col s Hi Hsi) in Hx. rewrite (N2 i col s Hi Hsi) in Hy.
    destruct (colAlignment col) as [al|] eqn:Ea; [|congruence].
    rewrite <- (Q col) in Hy; [congruence|eapply nth_error_In; eauto|congruence].
Qed.

Lemma Formats_max c (t : Table) items t' rows : columnWidth t <> None -> Formats c t items t' rows ->
  forall n, IsMax (fun w => w = Width t n \/ exists j row, nth_error rows j = Some row
    /\ SeenIn c (Columns (tSpec t)) row n w) (Width t' n).
Proof.
  intros Hm HF. induction HF as [t|t item rest t1 row t2 rows E0 HF IH]; intros n.
  - split; [auto|]. intros x [->|(j & row & K & _)]; [lia|destruct j; discriminate].
  - destruct (FormatItem_spec c t item t1 _ Hm E0) as (pre & vs & _ & Hs & Hm1 & _).
    destruct (FormatItem_widths c t item t1 _ Hm E0 n) as [A B]. destruct (IH Hm1 n) as [A' B']. rewrite Hs in *. split.
    + destruct A' as [->|(j & r & K & S1)]; [|right; exists (S j), r; auto].
      destruct A as [->|S1]; [auto|right; exists O, row; auto].
    + intros x Hx. specialize (B' (Width t1 n) (or_introl eq_refl)) as B1.
      destruct Hx as [->|([|j] & r & K & S1)].
      * specialize (B _ (or_introl eq_refl)). lia.
      * cbn in K. injection K as <-. specialize (B _ (or_intror S1)). lia.
      * apply B'. right. eauto.
Qed.

Lemma Streams_formats c (t : Table) items t' lines : Streams c t items t' lines -> forall t2 rows,
  Formats c t items t2 rows -> t2 = t' /\ List.length lines = List.length rows.
Proof.
  induction 1 as [t|t item rest t1 row line t2 lines E0 E1 HS IH]; intros t3 rows HF; inversion HF; subst; [auto|].
  match goal with K : FormatItem c t item = _ |- _ => rewrite E0 in K; injection K as <- <- end.
  match goal with K : Formats c t1 _ _ _ |- _ => destruct (IH _ _ K) as [-> Hl] end. cbn [List.length]. auto.
Qed.

(** The table when one of the lines is printed. *)
Lemma Streams_at c i : forall (t : Table) items t' lines rows line, columnWidth t <> None ->
  Streams c t items t' lines -> Formats c t items t' rows -> nth_error lines i = Some line ->
  exists ti row, Formats c t (firstn (S i) items) ti (firstn (S i) rows)
    /\ Formats c ti (skipn (S i) items) t' (skipn (S i) rows)
    /\ nth_error rows i = Some row /\ snd (AlignFormattedItem ti row) = Ok line.
Proof.
  induction i as [|i IH]; intros t items t' lines rows line Hm HS HF Hi;
    inversion HS; subst; try discriminate; inversion HF; subst;
    match goal with K : FormatItem c t _ = (?a, Ok ?b), K' : FormatItem c t _ = (?a', Ok ?b') |- _ =>
      rewrite K in K'; injection K' as <- <- end; cbn [nth_error] in Hi.
  - injection Hi as <-. do 2 eexists. cbn [firstn skipn]. split; [|split; [eassumption|split; [reflexivity|eassumption]]].
    eapply f_cons; [eassumption|constructor].
  - match goal with K : FormatItem c t _ = _ |- _ => pose proof K as E0 end.
    destruct (FormatItem_spec c t _ _ _ Hm E0) as (_ & _ & _ & _ & Hm1 & _).
    match goal with K : Streams c _ _ _ _, K' : Formats c ?a rest _ _ |- _ => idtac | _ => idtac end.
    edestruct IH as (ti & row' & A & B & C & D); [exact Hm1|eassumption|eassumption|exact Hi|].
    exists ti, row'. cbn [firstn skipn nth_error]. split; [|auto]. eapply f_cons; [exact E0|exact A].
Qed.

Lemma nth_firstn {A} (l : list A) : forall n j x, nth_error (firstn n l) j = Some x <-> (j < n)%nat /\ nth_error l j = Some x.
Proof.
  induction l as [|a l IH]; intros [|n] [|j] x; cbn [firstn nth_error]; try (split; [discriminate|intros [? ?]; (lia || discriminate)]).
  - split; [intros K; split; [lia|exact K]|tauto].
  - rewrite IH. split; intros [? ?]; (split; [lia|assumption]).
Qed.

Lemma nth_skipn' {A} (l : list A) : forall n j, nth_error (skipn n l) j = nth_error l (n + j).
Proof. induction l as [|a l IH]; intros [|n] j; cbn [skipn nth_error Nat.add]; auto. destruct j; reflexivity. Qed.

Lemma stream c (t : Table) items t' lines t2 rows lines2 : columnWidth t <> None ->
  (forall n, 0 <= Width t n < 65536) -> BuiltInAll c (Columns (tSpec t)) ->
  Streams c t items t' lines -> Formats c t items t2 rows -> Aligned t2 rows lines2 ->
  t' = t2 /\ List.length lines = List.length lines2 /\
  forall i line line2, nth_error lines i = Some line -> nth_error lines2 i = Some line2 ->
  (line = line2 <-> forall col, In (Some col) (Columns (tSpec t)) -> colAlignment col <> None ->
     forall j row w, (i < j)%nat -> nth_error rows j = Some row ->
     SeenIn c (Columns (tSpec t)) row (colName col) w -> KnownBy c t (Columns (tSpec t)) rows i (colName col) w).
Proof.
  intros Hm Hr HB HS HF HA. destruct (Streams_formats c t items t' lines HS t2 rows HF) as [-> HL].
  split; [reflexivity|]. split; [rewrite HL; exact (CacheProofs.Forall2_len _ _ _ HA)|].
  intros i line line2 H1 H2.
  destruct (Streams_at c i t items t' lines rows line Hm HS HF H1) as (ti & row & FA & FB & Hrow & Hline).
  destruct (Formats_spec c t _ ti _ Hm FA) as (Hmi & Hsi & _ & _ & HR).
  destruct (Formats_spec c ti _ t' _ Hmi FB) as (Hm2 & Hs2 & Hmono & _ & _).
  pose proof (Formats_range c t _ ti _ Hm FA Hr) as Ri. pose proof (Formats_range c ti _ t' _ Hmi FB Ri) as R2.
  assert (Hline2 : snd (AlignFormattedItem t' row) = Ok line2).
  { clear - HA Hrow H2. revert i Hrow H2. induction HA as [|r l rs ls K HA IH]; intros [|i] K1 K2; try discriminate; cbn in K1, K2; [congruence|eauto]. }
  assert (Hin : In row (firstn (S i) rows)) by (eapply nth_error_In; apply nth_firstn; split; [|exact Hrow]; lia).
  rewrite Forall_forall in HR. destruct (HR row Hin) as (HLr & Hn & Hseen).
  rewrite (page c ti t' row line line2); [|congruence|rewrite Hsi; exact HB|rewrite Hsi; exact Hn
    |intros n; specialize (Ri n); specialize (R2 n); specialize (Hmono n); lia|rewrite Hsi; exact Hseen|exact Hline|exact Hline2].
  rewrite Hsi. split; intros Q col Hcol Ha.
  - intros j row' w Hj Hrow' Hw. specialize (Q col Hcol Ha).
    destruct (Formats_max c ti _ t' _ Hmi FB (colName col)) as [_ B].
    assert (Hwi : w <= Width ti (colName col)).
    { rewrite Q. apply B. right. exists (j - S i)%nat, row'. rewrite nth_skipn', Hsi.
      split; [replace (S i + (j - S i))%nat with j by lia; exact Hrow'|exact Hw]. }
    destruct (Formats_max c t _ ti _ Hm FA (colName col)) as [[A|(j' & r & A & S1)] _].
    + left. lia.
    + right. apply nth_firstn in A. exists j', r, (Width ti (colName col)). split; [lia|]. tauto.
  - apply Z.le_antisymm; [apply Hmono|].
    destruct (Formats_max c ti _ t' _ Hmi FB (colName col)) as [[A|(j & r & A & S1)] _]; [lia|].
    rewrite nth_skipn' in A. rewrite Hsi in S1.
    destruct (Formats_max c t _ ti _ Hm FA (colName col)) as [_ B].
    destruct (Q col Hcol Ha (S i + j)%nat r _ ltac:(lia) A S1) as [K|(j' & r' & w' & Hj' & A' & S' & K)].
    + specialize (B _ (or_introl eq_refl)). lia.
    + assert (w' <= Width ti (colName col)); [|lia]. apply B. right. exists j', r'. split; [|exact S'].
      apply nth_firstn. split; [lia|exact A'].
Qed.

(** Nothing grows a second time. *)
Lemma FormatItem_again_loop c item cols : forall (t : Table) done vs,
  AllOk (cell item) cols vs -> (forall n w, SeenIn c cols vs n w -> w <= Width t n) ->
  formatItem_loop c t cols item done = (t, Ok (done ++ vs)).
Proof.
  induction cols as [|o cols IH]; intros t done vs HA HW; inversion HA; subst; cbn [formatItem_loop]; [rewrite app_nil_r; reflexivity|].
  destruct o as [col|]; [|discriminate].
  match goal with K : cell item (Some col) = Ok ?v |- _ => rename v into v0; cbn [cell] in K; rename K into K0 end.
  destruct (colGetter col) as [g|]; [|discriminate]. destruct (getValue g item) as [va| |]; try discriminate. rewrite K0.
  unfold raise_width. assert (vwidth c v0 <= Width t (colName col)) by (apply HW; exists O, col, v0; auto).
  fold (Width t (colName col)). destruct (Z.gtb_spec (vwidth c v0) (Width t (colName col))); [lia|].
  rewrite (IH t _ l'); [rewrite <- app_assoc; reflexivity|assumption|].
  intros n w (i & cl & s & A & B & C & D). apply HW. exists (S i), cl, s. auto.
Qed.

Lemma FormatItem_again c item (t : Table) vs :
  AllOk (cell item) (Columns (tSpec t)) vs -> (forall n w, SeenIn c (Columns (tSpec t)) vs n w -> w <= Width t n) ->
  FormatItem c t item = (t, Ok vs).
Proof. intros HA HW. exact (FormatItem_again_loop c item (Columns (tSpec t)) t [] vs HA HW). Qed.

Lemma Formats_allok c (t : Table) items t' rows : columnWidth t <> None -> Formats c t items t' rows ->
  Forall2 (fun item row => AllOk (cell item) (Columns (tSpec t)) row) items rows.
Proof.
  intros Hm HF. induction HF as [t|t item rest t1 row t2 rows E0 HF IH]; constructor.
  - apply (FormatItem_ok c t item row Hm). eauto.
  - destruct (FormatItem_spec c t item t1 _ Hm E0) as (pre & vs & _ & Hs & Hm1 & _). rewrite <- Hs. auto.
Qed.

Lemma again c (t : Table) items rows :
  Forall2 (fun item row => AllOk (cell item) (Columns (tSpec t)) row) items rows ->
  Forall (fun row => forall n w, SeenIn c (Columns (tSpec t)) row n w -> w <= Width t n) rows ->
  forall t' lines, Streams c t items t' lines -> t' = t /\ Aligned t rows lines.
Proof.
  induction 1 as [|item row items rows HA H IH]; intros HW t' lines HS; inversion HS; subst; [split; [auto|constructor]|].
  inversion HW; subst. match goal with K : FormatItem c t item = _ |- _ => rewrite (FormatItem_again c item t row) in K by assumption; injection K as <- <- end.
  match goal with K : Streams c t items _ _ |- _ => destruct (IH ltac:(assumption) _ _ K) as [-> HA'] end.
  split; [reflexivity|]. constructor; assumption.
Qed.

(** Formatted once, then printed as they are formatted again. *)
Lemma second c (t : Table) items t2 rows t' lines : columnWidth t <> None ->
  Formats c t items t2 rows -> Streams c t2 items t' lines -> t' = t2 /\ Aligned t2 rows lines.
Proof.
  intros Hm HF HS. destruct (Formats_spec c t items t2 rows Hm HF) as (_ & Hs & _ & _ & HR).
  pose proof (Formats_allok c t items t2 rows Hm HF) as HA. rewrite <- Hs in HA, HR.
  apply (again c t2 items rows HA); [|exact HS].
  rewrite Forall_forall in *. intros row Hrow. destruct (HR row Hrow) as (_ & _ & K). exact K.
Qed.

Lemma streams_total c items : forall (t : Table) t2 rows, columnWidth t <> None -> Formats c t items t2 rows ->
  exists lines, Streams c t items t2 lines.
Proof.
  induction items as [|item items IH]; intros t t2 rows Hm HF; inversion HF; subst; [eexists; constructor|].
  match goal with K : FormatItem c t item = _ |- _ => rename K into E0 end.
  destruct (FormatItem_spec c t item t1 _ Hm E0) as (pre & vs & _ & Hs & Hm1 & _).
  match goal with K : Formats c t1 _ _ _ |- _ => destruct (IH _ _ _ Hm1 K) as (lines & HS) end.
  assert (HF1 : Formats c t [item] t1 [row]) by (econstructor; [exact E0|constructor]).
  destruct (Formats_spec c t _ t1 _ Hm HF1) as (_ & _ & _ & _ & HR). inversion HR; subst.
  match goal with K : _ /\ _ |- _ => destruct K as (HL & Hn & _) end. rewrite <- Hs in HL, Hn.
  destruct (Align_good t1 row HL Hn) as (cells & E1 & _). exists (cells :: lines).
  econstructor; [exact E0|rewrite E1; reflexivity|exact HS].
Qed.

End Types.
