(** * ColourProofs: attributes stay in cells that take them back. *)
From Coq Require Import ZifyBool ZifyNat.
From Verif Require Import GoBase Utf8 Utf8Proofs GraphemeSpec EscapeSpec TextSpec Runewidth ConditionSpec Width
  ScanProofs StringWidthProofs WidthProofs LocaleProofs AlignSpec AlignProofs RunewidthProofs Table TableContract TableOpsProofs
  Merge MergeSpec MergeTheory WrapSpec TemplateSpec TemplateProofs TerminalSpec TerminalProofs TerminalMerge ColourSpec.
Local Open Scope Z_scope.

(** The mode, what is drawn and what is added to the changes depend neither on
    the column nor on earlier changes. *)
Lemma step_style c m x x' st st0 r : exists more, tStyle (step c (mkT m x st) r) = more ++ st
  /\ tStyle (step c (mkT m x' (st ++ st0)) r) = more ++ st ++ st0
  /\ tMode (step c (mkT m x' (st ++ st0)) r) = tMode (step c (mkT m x st) r).
Proof.
  assert (K : forall ps fin, exists more, tStyle (execute fin ps (mkT (InCsi ps) x st)) = more ++ st
    /\ tStyle (execute fin ps (mkT (InCsi ps) x' (st ++ st0))) = more ++ st ++ st0).
  { intros ps fin. unfold execute. cbn [tMode tCol tStyle].
    destruct (fin =? 109); [exists [ps]; auto|]. exists []. repeat (destruct (_ =? _); auto). }
  unfold step. cbn [tMode tCol tStyle]. destruct m as [| |ps| |].
  - exists []. repeat match goal with |- context [if ?b then _ else _] => destruct b; cbn; auto end.
  - exists []. repeat match goal with |- context [if ?b then _ else _] => destruct b; cbn; auto end.
  - destruct ((0x20 <=? r) && (r <=? 0x3F)); [exists []; auto|].
    destruct ((0x40 <=? r) && (r <=? 0x7E)).
    + unfold execute. cbn [tMode tCol tStyle]. destruct (r =? 109); [exists [rev ps]; auto|]. exists [].
      repeat match goal with |- context [if ?b then _ else _] => destruct b; cbn; auto end.
    + exists []. destruct (r =? 0x1B); cbn; auto.
  - exists []. repeat match goal with |- context [if ?b then _ else _] => destruct b; cbn; auto end.
  - exists []. repeat match goal with |- context [if ?b then _ else _] => destruct b; cbn; auto end.
Qed.

Lemma in_force_app a st0 : in_force st0 = [] -> in_force (a ++ st0) = in_force a.
Proof. intros H. induction a as [|ps a IH]; cbn; [auto|]. destruct (resets ps); congruence. Qed.

Lemma from_clean c rs : forall m x x' st st0, in_force st0 = [] ->
  ink c (mkT m x' (st ++ st0)) rs = ink c (mkT m x st) rs
  /\ tMode (fold_left (step c) rs (mkT m x' (st ++ st0))) = tMode (fold_left (step c) rs (mkT m x st))
  /\ in_force (tStyle (fold_left (step c) rs (mkT m x' (st ++ st0)))) = in_force (tStyle (fold_left (step c) rs (mkT m x st))).
Proof.
  induction rs as [|r rs IH]; intros m x x' st st0 H.
  - cbn. rewrite in_force_app by auto. auto.
  - cbn [ink fold_left tMode tStyle]. destruct (step_style c m x x' st st0 r) as (more & E1 & E2 & E3).
    destruct (step c (mkT m x st) r) as [m1 x1 s1] eqn:S1. destruct (step c (mkT m x' (st ++ st0)) r) as [m2 x2 s2] eqn:S2.
    cbn [tMode tStyle] in *. subst s1 s2 m2. rewrite app_assoc.
    destruct (IH m1 x1 x2 (more ++ st) st0 H) as (I1 & I2 & I3). rewrite I1, I2, I3, in_force_app by auto. auto.
Qed.

(** A terminal that prints without attributes. *)
Definition Clean (t : terminal) : Prop := tMode t = Ground /\ in_force (tStyle t) = [].
Lemma home_clean : Clean home.
Proof. split; reflexivity. Qed.

Lemma paint_clean c t s : Clean t -> paint c t s = paint c home s.
Proof.
  destruct t as [m x st]. intros [H1 H2]. cbn in *. subst m. unfold paint, home.
  apply (from_clean c (runes s) Ground 0 x [] st H2).
Qed.
Lemma show_clean c t s : Clean t -> Closed c s -> Clean (show c t s).
Proof.
  destruct t as [m x st]. intros [H1 H2] (V & M & F). cbn in *. subst m. unfold show, home in *.
  destruct (from_clean c (runes s) Ground 0 x [] st H2) as (_ & E2 & E3). cbn [app] in *. split; congruence.
Qed.

Lemma ink_app c rs rs' : forall t, ink c t (rs ++ rs') = ink c t rs ++ ink c (fold_left (step c) rs t) rs'.
Proof. induction rs as [|r rs IH]; intros t; cbn [app ink fold_left]; [reflexivity|]. rewrite IH, app_assoc. reflexivity. Qed.
Lemma paint_app c t a b : ValidUTF8 a -> paint c t (a ++ b) = paint c t a ++ paint c (show c t a) b.
Proof. intros H. unfold paint, show. rewrite runes_valid_app by auto. apply ink_app. Qed.

Lemma paint_next c a b : Closed c a -> paint c home (a ++ b) = paint c home a ++ paint c home b.
Proof.
  intros H. rewrite paint_app by apply H. f_equal. apply paint_clean, show_clean; auto. apply home_clean.
Qed.
Lemma closed_nil c : Closed c [].
Proof. split; [constructor|]. split; reflexivity. Qed.
Lemma valid_app a b : ValidUTF8 a -> ValidUTF8 b -> ValidUTF8 (a ++ b).
Proof. intros Ha Hb. unfold ValidUTF8. rewrite WidthProofs.decode_valid_app by auto. apply Forall_app; auto. Qed.
Lemma closed_app c a b : Closed c a -> Closed c b -> Closed c (a ++ b).
Proof.
  intros Ha Hb. split; [apply valid_app; [apply Ha|apply Hb]|]. rewrite show_app by apply Ha.
  apply show_clean; auto. apply show_clean; auto. apply home_clean.
Qed.
Lemma closed_concat c l : Forall (Closed c) l -> Closed c (concat l).
Proof. induction 1; cbn; [apply closed_nil|apply closed_app; auto]. Qed.
Lemma paint_concat c l : Forall (Closed c) l -> paint c home (concat l) = concat (map (paint c home) l).
Proof.
  induction 1 as [|s l Hs _ IH]; [reflexivity|]. cbn [concat map]. rewrite paint_next, IH by auto. reflexivity.
Qed.

(** ** Exactly the closed texts do not touch what follows *)
Definition star : str := [x78].
Lemma star_runes : runes star = [0x78].
Proof. vm_compute. reflexivity. Qed.
Lemma only_closed c a : ValidUTF8 a ->
  (Closed c a <-> forall b, paint c home (a ++ b) = paint c home a ++ paint c home b).
Proof.
  intros V. split; [intros H b; apply paint_next; exact H|]. intros H. specialize (H star).
  rewrite paint_app in H by auto. apply app_inv_head in H. unfold paint in H. rewrite star_runes in H.
  split; auto. destruct (show c home a) as [m x st]. cbn [ink tMode tStyle home app] in *.
  destruct m; try discriminate. split; [reflexivity|]. injection H as H. exact H.
Qed.

(** ** Texts drawn without attributes, and coloured ones *)
Lemma simple_drawn r : 0 <= r -> Stands r -> drawn r = true.
Proof. intros H0 H. destruct (stands_ground r H0 H) as (H1 & H2 & H3 & H4 & H5 & H6). unfold drawn. lia. Qed.
Lemma ink_simple c rs : Forall (fun r => 0 <= r) rs -> Forall Stands rs -> forall x st,
  ink c (mkT Ground x st) rs = map (fun r => (r, in_force st)) rs.
Proof.
  induction 1 as [|r rs Hr _ IH]; intros Hs x st; [reflexivity|]. inversion Hs; subst. cbn [ink map tMode tStyle].
  rewrite simple_drawn, step_stands, IH by auto. reflexivity.
Qed.

Lemma paint_simple c s st : SimpleText s -> forall x, paint c (mkT Ground x st) s = map (fun r => (r, in_force st)) (runes s).
Proof. intros [_ H] x. apply ink_simple; auto. apply runes_nonneg. Qed.

Lemma show_simple_any c s : SimpleText s -> forall x st, exists x', show c (mkT Ground x st) s = mkT Ground x' st.
Proof. intros [_ H] x st. eexists. unfold show. apply fold_stands; auto. apply runes_nonneg. Qed.

Lemma simple_closed c s : SimpleText s -> Closed c s /\ paint c home s = bare (runes s).
Proof.
  intros H. split.
  - split; [apply H|]. unfold home. destruct (show_simple_any c s H 0 []) as (x' & ->). split; reflexivity.
  - apply (paint_simple c s [] H 0).
Qed.

Lemma blank_simple s : Blank s -> SimpleText s.
Proof. intros (k & ->). pose proof (spaces_simple (Z.of_nat k)) as H. unfold spaces in H. rewrite Nat2Z.id in H. exact H. Qed.

Lemma newline_closed c : Closed c [x0a] /\ paint c home [x0a] = [].
Proof. split; [|reflexivity]. split; [|split; reflexivity]. repeat constructor. discriminate. Qed.

Lemma bare_text c s : Blank s \/ SimpleText s -> Closed c s /\ paint c home s = bare (runes s).
Proof. intros [H|H]; apply simple_closed; auto using blank_simple. Qed.

(** ESC [ p m *)
Lemma fold_csi c l : Forall (fun r => 0x20 <= r <= 0x3F) l -> forall acc x st,
  fold_left (step c) l (mkT (InCsi acc) x st) = mkT (InCsi (rev l ++ acc)) x st
  /\ ink c (mkT (InCsi acc) x st) l = [].
Proof.
  intros H acc x st. split; [apply fold_params; exact H|]. revert acc.
  induction H as [|r l Hr _ IH]; intros acc; [reflexivity|]. cbn [ink tMode app]. unfold step. cbn [tMode tCol tStyle].
  destruct (Z.leb_spec 0x20 r); [|lia]. destruct (Z.leb_spec r 0x3F); [|lia]. cbn [andb]. apply IH.
Qed.

Lemma attribute_shown c p : Forall (fun b => 0x20 <= bv b <= 0x3F) p ->
  ValidUTF8 (x1b :: x5b :: p ++ [x6d]) /\ forall x st,
  show c (mkT Ground x st) (x1b :: x5b :: p ++ [x6d]) = mkT Ground x (map bv p :: st)
  /\ paint c (mkT Ground x st) (x1b :: x5b :: p ++ [x6d]) = [].
Proof.
  intros H.
  assert (A : ascii_str (x1b :: x5b :: p ++ [x6d])).
  { constructor; [vm_compute; reflexivity|]. constructor; [vm_compute; reflexivity|]. apply Forall_app. split.
    - eapply Forall_impl; [|exact H]. cbn. intros b Hb. lia.
    - repeat constructor. }
  split.
  { unfold ValidUTF8. rewrite decode_ascii_str by exact A. rewrite Forall_map. apply Forall_forall. intros b _ K.
    injection K as K. pose proof (bv_range b). unfold RuneError in K. lia. }
  intros x st. unfold show, paint. rewrite runes_ascii_str by exact A. cbn [map]. rewrite map_app.
  assert (HP : Forall (fun r => 0x20 <= r <= 0x3F) (map bv p)) by (rewrite Forall_map; exact H).
  destruct (fold_csi c (map bv p) HP [] x st) as [F I].
  assert (S2 : step c (step c (mkT Ground x st) (bv x1b)) (bv x5b) = mkT (InCsi []) x st) by reflexivity.
  split.
  - cbn [fold_left]. rewrite S2, fold_left_app, F, app_nil_r. cbn [fold_left map]. change (bv x6d) with 109.
    unfold step. cbn [tMode]. cbn -[rev map]. rewrite rev_involutive. reflexivity.
  - cbn [ink tMode]. change (drawn (bv x1b)) with false. cbn [app]. rewrite S2, ink_app, I, F. reflexivity.
Qed.

Lemma coloured_closed c p s : Forall (fun b => 0x20 <= bv b <= 0x3F) p -> ValidUTF8 s -> tMode (show c home s) = Ground ->
  Closed c (coloured p s).
Proof.
  intros Hp Hs Hm. destruct (attribute_shown c p Hp) as [V1 S1]. destruct (attribute_shown c [] ltac:(constructor)) as [V2 S2].
  cbn [app] in V2, S2. unfold coloured. split; [auto using valid_app|].
  rewrite show_app by auto. unfold home at 1 2. destruct (S1 0 []) as [-> _]. rewrite show_app by auto.
  assert (M : exists x st, show c (mkT Ground 0 [map bv p]) s = mkT Ground x st).
  { destruct (show c (mkT Ground 0 [map bv p]) s) as [m x st] eqn:K. exists x, st. f_equal.
    assert (G : forall rs m x x' st st', tMode (fold_left (step c) rs (mkT m x st)) = tMode (fold_left (step c) rs (mkT m x' st'))).
    { clear. induction rs as [|r rs IH]; intros m x x' st st'; [reflexivity|]. cbn [fold_left].
      destruct (step_style c m x x' [] st' r) as (more2 & _ & _ & E2).
      destruct (step_style c m x x [] st r) as (more3 & _ & _ & E3). cbn [app] in *.
      destruct (step c (mkT m x st) r) as [m1 x1 s1]. destruct (step c (mkT m x' st') r) as [m2 x2 s2]. cbn [tMode] in *.
      rewrite E3, <- E2. apply IH. }
    unfold show, home in *. specialize (G (runes s) Ground 0 0 [] [map bv p]). rewrite Hm, K in G. symmetry. exact G. }
  destruct M as (x & st & ->). destruct (S2 x st) as [-> _]. split; reflexivity.
Qed.

Lemma coloured_paint c p s : Forall (fun b => 0x20 <= bv b <= 0x3F) p -> SimpleText s ->
  paint c home (coloured p s) = map (fun r => (r, in_force [map bv p])) (runes s).
Proof.
  intros Hp Hs. destruct (attribute_shown c p Hp) as [V1 S1]. destruct (attribute_shown c [] ltac:(constructor)) as [V2 S2].
  cbn [app] in V2, S2. unfold coloured. rewrite paint_app by auto. unfold home. destruct (S1 0 []) as [-> ->].
  rewrite paint_app by apply Hs. rewrite paint_simple by auto.
  destruct (show_simple_any c s Hs 0 [map bv p]) as (x' & ->). destruct (S2 x' [map bv p]) as [_ ->]. cbn [app]. apply app_nil_r.
Qed.

Lemma coloured_both c p s : Forall (fun b => 0x20 <= bv b <= 0x3F) p ->
  (ValidUTF8 s -> tMode (show c home s) = Ground -> Closed c (coloured p s)) /\
  (SimpleText s -> paint c home (coloured p s) = map (fun r => (r, in_force [map bv p])) (runes s)).
Proof. intros H. split; [apply coloured_closed, H|apply coloured_paint, H]. Qed.

(** ** Merging *)
Section Types.
Context {Item Val E : Type}.

Lemma proper_closed c sep items p : ClosedItems c items -> Closed c sep -> Proper (E := E) Blank sep items p ->
  Closed c (filled items p).
Proof.
  intros Hi Hs. destruct p as [s|i j]; cbn [Proper filled].
  - intros [H | [-> | [-> | ->]]]; auto.
    + apply simple_closed, blank_simple, H.
    + apply simple_closed, (spaces_simple 1).
    + apply newline_closed.
  - intros (Hr & row & E1 & Hj). rewrite E1. specialize (Hi i row Hr E1). rewrite Forall_forall in Hi. apply Hi, nth_In, Hj.
Qed.

Theorem merge_paint c (t : Table Item Val E) m fuel ok items maxWidth sep compact :
  Forall (fun mc => match mc with Some col => BuiltIn c col | None => True end) (Columns (tSpec t)) ->
  ClosedItems c items -> Closed c sep ->
  let r := merge m fuel c t ok items maxWidth sep compact in
  exists forms, Forall (Forall (Proper Blank sep items)) forms /\ written r = map (fill items) forms
    /\ paint c home (concat (written r)) = concat (map (fun p => paint c home (filled items p)) (concat forms))
    /\ Forall (Closed c) (written r) /\ paint c home (concat (written r)) = concat (map (paint c home) (written r)).
Proof.
  intros Hb Hi Hs r. destruct (merge_template Blank c t m fuel ok items maxWidth sep compact (builtin_columns c t Hb)) as (T & st & HT & HM).
  specialize (HM items). exists T. split; [exact HT|].
  assert (E1 : written r = map (fill items) T).
  { unfold r. rewrite HM; [reflexivity|]. split; [reflexivity|]. intros i. destruct (fiGet items i); reflexivity. }
  split; [exact E1|]. rewrite E1.
  assert (L : Forall (Closed c) (map (fill items) T)).
  { rewrite Forall_map. rewrite Forall_forall in HT. apply Forall_forall. intros form Hf. unfold fill. apply closed_concat.
    rewrite Forall_map. apply Forall_forall. intros p Hp. specialize (HT form Hf). rewrite Forall_forall in HT. eapply proper_closed; eauto. }
  assert (K : Forall (Closed c) (map (filled items) (concat T))).
  { rewrite Forall_map. apply Forall_forall. intros p Hp. apply in_concat in Hp. destruct Hp as (form & H1 & H2).
    rewrite Forall_forall in HT. specialize (HT form H1). rewrite Forall_forall in HT. eapply proper_closed; eauto. }
  split.
  - rewrite <- (map_map (filled items) (paint c home)), <- paint_concat by exact K. f_equal.
    clear. induction T as [|form T IH]; [reflexivity|]. cbn [map concat]. rewrite map_app, concat_app, IH. reflexivity.
  - split; [exact L|]. apply paint_concat, L.
Qed.

Lemma runes_spaces n : runes (spaces n) = repeat 32 (Z.to_nat n).
Proof.
  rewrite runes_ascii_str.
  - unfold spaces. generalize (Z.to_nat n). induction n0 as [|k IH]; cbn; [reflexivity|]. rewrite IH. reflexivity.
  - unfold spaces, ascii_str. apply Forall_forall. intros b Hb. apply repeat_spec in Hb. subst b. reflexivity.
Qed.

Lemma aligned_around a c s w : 0 <= w < 65536 -> Closed c s -> Around c s (align a c s w).
Proof.
  intros Hw Hs. destruct (align_spaces a c s w Hw) as (l & r & -> & _).
  destruct (simple_closed c _ (spaces_simple l)) as [C1 P1]. destruct (simple_closed c _ (spaces_simple r)) as [C2 P2].
  split; [auto using closed_app|]. exists (Z.to_nat l), (Z.to_nat r). rewrite !paint_next by auto. rewrite P1, P2, !runes_spaces. reflexivity.
Qed.
Lemma itself_around c s : Closed c s -> Around c s s.
Proof. intros H. split; auto. exists 0%nat, 0%nat. cbn. symmetry. apply app_nil_r. Qed.

Lemma loop_around c (t : Table Item Val E) : (forall name, 0 <= Width t name < 65536) -> forall cols,
  Forall (fun mc : option (Column Item Val E) => match mc with Some col => colAlignment col = None \/ exists a, colAlignment col = Some (align a c) | None => True end) cols ->
  forall done todo cells, length todo = length cols -> Forall (Closed c) todo ->
  snd (alignFormatted_loop t cols done todo) = Ok cells -> exists tail, cells = done ++ tail /\ Forall2 (Around c) todo tail.
Proof.
  intros Hw. induction 1 as [|mc cols Hm _ IH]; intros done todo cells HL HC H; destruct todo as [|s todo]; try discriminate HL.
  - cbn in H. injection H as <-. exists []. auto.
  - cbn in HL. injection HL as HL. inversion HC; subst. destruct mc as [col|]; [|discriminate H]. cbn [alignFormatted_loop] in H.
    destruct Hm as [Hm|(a & Hm)]; rewrite Hm in H; apply IH in H; auto; destruct H as (tail & -> & HT); rewrite <- app_assoc.
    + exists (s :: tail). split; [reflexivity|]. constructor; auto using itself_around.
    + eexists (_ :: tail). split; [reflexivity|]. constructor; auto using aligned_around.
Qed.

Theorem align_paint c (t : Table Item Val E) row cells :
  Forall (fun mc => match mc with Some col => BuiltIn c col | None => True end) (Columns (tSpec t)) ->
  (forall name, 0 <= Width t name < 65536) -> Forall (Closed c) row -> snd (AlignFormattedItem t row) = Ok cells ->
  Forall2 (Around c) row cells.
Proof.
  intros Hb Hw HC H. unfold AlignFormattedItem in H. destruct (Z.eqb_spec (slen row) (ColumnCount (tSpec t))) as [HL|]; [|discriminate H].
  cbn [negb] in H. apply (loop_around c) in H; auto.
  - destruct H as (tail & -> & H). exact H.
  - unfold ColumnCount, slen in HL. lia.
Qed.
End Types.
