(** * SlicesProofs: merging with slices. *)
From Coq Require Import ZifyBool ZifyNat.
From Verif Require Import GoBase Utf8 Runewidth Width AlignSpec Table TableContract Merge MergeSpec MergeLayout MergeRender MergeSearch MergeTheory Slices SlicesSpec.
Local Open Scope Z_scope.

Lemma made_nil : OnlyMade [].
Proof. constructor. Qed.
Lemma made_app a b : OnlyMade a -> OnlyMade b -> OnlyMade (a ++ b).
Proof. intros. apply Forall_app. auto. Qed.
Lemma made_one n : 0 <= n -> OnlyMade [Made n].
Proof. intros. repeat constructor. eauto. Qed.

Section Types.
Context {Item Val E : Type}.
Context (grow : Z -> Z).
Notation mem := (mem (E := E)).

Lemma snd_mbind {A B} (m : mem A) (f : A -> mem B) : snd (mbind m f) = obind (snd m) (fun a => snd (f a)).
Proof. unfold mbind. destruct (snd m); reflexivity. Qed.
Lemma fst_mbind {A B} (m : mem A) (f : A -> mem B) :
  fst (mbind m f) = fst m ++ match snd m with Ok a => fst (f a) | _ => [] end.
Proof. unfold mbind. destruct (snd m); cbn [fst]; rewrite ?app_nil_r; reflexivity. Qed.
Lemma mbind_ok {A B} evs (a : A) (f : A -> mem B) : mbind (evs, Ok a) f = (evs ++ fst (f a), snd (f a)).
Proof. reflexivity. Qed.
Lemma mbind_quiet {A B} (o : outcome E A) (f : A -> mem B) :
  mbind (quiet o) f = match o with Ok a => f a | Err e => ([], Err e) | Panic p => ([], Panic p) end.
Proof. unfold mbind, quiet. cbn [fst snd]. destruct o; auto. cbn [app]. destruct (f a); reflexivity. Qed.

Lemma append_room {A} (s : slice A) a : slen (elems s) < room s ->
  append (E := E) grow s a = ([], Ok {| elems := elems s ++ [a]; room := room s |}).
Proof. intros. unfold append. destruct (Z.ltb_spec (slen (elems s)) (room s)); [reflexivity|lia]. Qed.

Lemma omap_len {A B} (f : A -> outcome E B) l : forall bs, omap f l = Ok bs -> length bs = length l.
Proof.
  induction l as [|a l IH]; intros bs; cbn [omap]; [intros e; injection e as <-; reflexivity|].
  destruct (f a); cbn [obind]; try discriminate. destruct (omap f l) as [bs'| |] eqn:Eo; cbn [obind]; try discriminate.
  intros e. injection e as <-. cbn [length]. rewrite (IH bs'); reflexivity.
Qed.

(** ** The widths of the search *)
Lemma columns_ok c (items : FormattedItemList E) idxs colIs : forall w, slen (elems w) + slen colIs <= room w ->
  columnsA grow c items idxs colIs w
  = ([], obind (omap (fun colI => maxCell c items colI idxs 0) colIs) (fun ws => Ok {| elems := elems w ++ ws; room := room w |})).
Proof.
  induction colIs as [|colI colIs IH]; intros w Hw; cbn [columnsA omap].
  - cbn [obind]. rewrite app_nil_r. destruct w; reflexivity.
  - rewrite mbind_quiet. destruct (maxCell c items colI idxs 0) as [mw|e|p]; cbn [obind]; try reflexivity.
    unfold slen in *. cbn [length] in Hw. rewrite append_room by (unfold slen; lia). rewrite mbind_ok. cbn [app].
    rewrite IH by (cbn [elems room]; unfold slen; rewrite app_length; cbn [length]; lia). cbn [fst snd elems room].
    destruct (omap _ colIs) as [ws|e|p]; cbn [obind]; try reflexivity. rewrite <- app_assoc. reflexivity.
Qed.
Lemma widths_fill c (items : FormattedItemList E) colN idxs groupIs : forall w, slen (elems w) + slen groupIs * slen (zrange colN) <= room w ->
  widthsA grow c items colN idxs groupIs w
  = ([], obind (omap (fun groupI => omap (fun colI => maxCell c items colI (idxs groupI) 0) (zrange colN)) groupIs)
           (fun rs => Ok {| elems := elems w ++ concat rs; room := room w |})).
Proof.
  induction groupIs as [|g groupIs IH]; intros w Hw; cbn [widthsA omap].
  - cbn [obind concat]. rewrite app_nil_r. destruct w; reflexivity.
  - unfold slen in *. cbn [length] in Hw. rewrite columns_ok by (unfold slen; nia).
    destruct (omap (fun colI => maxCell c items colI (idxs g) 0) (zrange colN)) as [ws|e|p] eqn:Ew; cbn [obind]; try reflexivity.
    apply omap_len in Ew. rewrite mbind_ok. cbn [app].
    rewrite IH by (cbn [elems room]; unfold slen; rewrite app_length; nia). cbn [fst snd elems room].
    destruct (omap _ groupIs) as [rs|e|p]; cbn [obind concat]; try reflexivity. rewrite <- app_assoc. reflexivity.
Qed.
Lemma zrange_len n : 0 <= n -> slen (zrange n) = n.
Proof. intros. unfold slen, zrange. rewrite map_length, seq_length. lia. Qed.

(** The model without slices, for both modes. *)
Definition merged (m : mode) c (t : Table Item Val E) items g : outcome E (option (list Z)) :=
  match m with H => obind (mergedRowsWidthH c t items g) (fun l => Ok (Some l)) | V => mergedRowsWidthV c t items g end.
Lemma columnCount_nonneg (t : Table Item Val E) : 0 <= ColumnCount (tSpec t).
Proof. unfold ColumnCount, slen. lia. Qed.
Lemma fill_ok c (t : Table Item Val E) (items : FormattedItemList E) idxs g : 0 <= g ->
  mbind (make0 (g * ColumnCount (tSpec t))) (fun width =>
    mbind (widthsA grow c items (ColumnCount (tSpec t)) idxs (zrange g) width) (fun width => mret (Some width)))
  = ([Made (g * ColumnCount (tSpec t))],
     obind (widthsOf c items (ColumnCount (tSpec t)) idxs g) (fun l => Ok (Some {| elems := l; room := g * ColumnCount (tSpec t) |}))).
Proof.
  intros Hg. pose proof (columnCount_nonneg t) as HC. unfold make0. destruct (Z.ltb_spec (g * ColumnCount (tSpec t)) 0); [nia|].
  rewrite mbind_ok, widths_fill by (cbn [elems room]; rewrite !zrange_len by auto; change (slen []) with 0; lia).
  cbn [elems room app]. unfold widthsOf. destruct (omap _ (zrange g)); reflexivity.
Qed.
Definition with_room (r : Z) (o : option (list Z)) : option (slice Z) := option_map (fun l => {| elems := l; room := r |}) o.
Lemma merged_same m c (t : Table Item Val E) items g : 0 <= g ->
  snd (mergedA grow m c t items g) = obind (merged m c t items g) (fun o => Ok (with_room (g * ColumnCount (tSpec t)) o)).
Proof.
  intros Hg. unfold mergedA, merged, mergedRowsWidthH, mergedRowsWidthV. destruct m.
  - rewrite fill_ok by auto. cbn [snd]. destruct (widthsOf _ _ _ _ _); reflexivity.
  - destruct (lineCountOf _ _ =? 0); [reflexivity|]. destruct (g >? _); [reflexivity|].
    rewrite fill_ok by auto. cbn [snd]. destruct (widthsOf _ _ _ _ _); reflexivity.
Qed.
Lemma merged_events m c (t : Table Item Val E) items g : 0 <= g -> fst (mergedA grow m c t items g) = [] \/ fst (mergedA grow m c t items g) = [Made (g * ColumnCount (tSpec t))].
Proof.
  intros Hg. unfold mergedA. destruct m; [rewrite fill_ok by auto; auto|].
  destruct (lineCountOf _ _ =? 0); [left; reflexivity|]. destruct (g >? _); [left; reflexivity|]. rewrite fill_ok by auto. auto.
Qed.
Lemma merged_made m c (t : Table Item Val E) items g : 0 <= g -> OnlyMade (fst (mergedA grow m c t items g)).
Proof.
  intros Hg. destruct (merged_events m c t items g Hg) as [-> | ->]; [constructor|]. apply made_one.
  pose proof (columnCount_nonneg t). nia.
Qed.
Lemma merged_some m c (t : Table Item Val E) items g l : 0 <= g -> merged m c t items g = Ok (Some l) -> fst (mergedA grow m c t items g) = [Made (g * ColumnCount (tSpec t))].
Proof.
  intros Hg. unfold mergedA, merged, mergedRowsWidthV. destruct m; intros Hs; [rewrite fill_ok by auto; auto|].
  destruct (lineCountOf _ _ =? 0); [discriminate|]. destruct (g >? _); [discriminate|]. rewrite fill_ok by auto. auto.
Qed.
Lemma merged_none m c (t : Table Item Val E) items g : merged m c t items g = Ok None -> fst (mergedA grow m c t items g) = [].
Proof.
  unfold mergedA, merged, mergedRowsWidthV. destruct m.
  - destruct (mergedRowsWidthH c t items g); discriminate.
  - destruct (lineCountOf _ _ =? 0); [discriminate|]. destruct (g >? _); [reflexivity|].
    destruct (widthsOf _ _ _ _ _); discriminate.
Qed.

Lemma calc_same m c (t : Table Item Val E) items maxWidth margin g0 f : 1 <= g0 -> forall extra cw, 0 <= extra ->
  snd (calcA grow m f c t items maxWidth margin g0 extra cw) = calc m f c t items maxWidth margin g0 extra cw
  /\ OnlyMade (fst (calcA grow m f c t items maxWidth margin g0 extra cw)).
Proof.
  intros Hg0. induction f as [|f IH]; intros extra cw He.
  - split; [destruct m; reflexivity|constructor].
  - cbn [calcA]. set (g := g0 + extra + 1). pose proof (merged_same m c t items g ltac:(lia)) as Hs.
    pose proof (merged_made m c t items g ltac:(lia)) as Hm. rewrite Hs.
    assert (HC : calc m (S f) c t items maxWidth margin g0 extra cw =
      match merged m c t items g with
      | Panic p => Some (Panic p) | Err e => Some (Err e) | Ok None => Some (Ok (extra, cw))
      | Ok (Some l) => if totalWidthOf margin g (u16 (ColumnCount (tSpec t))) l >? maxWidth then Some (Ok (extra, cw))
                       else calc m f c t items maxWidth margin g0 (extra + 1) l end).
    { destruct m; cbn [calc compactCalcH_loop compactCalcV_loop merged]; fold g; [|reflexivity].
      destruct (mergedRowsWidthH c t items g); reflexivity. }
    rewrite HC. destruct (merged m c t items g) as [[l|]|e|p]; cbn [obind with_room option_map elems]; try (split; auto; fail).
    destruct (totalWidthOf _ _ _ l >? maxWidth); [split; auto|]. destruct (IH (extra + 1) l ltac:(lia)) as [I1 I2].
    cbn [fst snd]. split; [exact I1|]. apply made_app; auto.
Qed.

(** ** The lines *)
Lemma store_at (cell : slice str) pre old post i s : elems cell = pre ++ old :: post -> slen pre = i ->
  store (E := E) cell i s = ([], Ok {| elems := pre ++ s :: post; room := room cell |}).
Proof.
  intros Hc Hi. unfold store. rewrite Hc. unfold slen in *. rewrite app_length. cbn [length].
  destruct (Z.ltb_spec i 0); [lia|]. destruct (Z.leb_spec (Z.of_nat (length pre + S (length post))) i); [lia|]. cbn [orb].
  subst i. rewrite Nat2Z.id, firstn_app, Nat.sub_diag, firstn_all, firstn_O, app_nil_r.
  change (old :: post) with ([old] ++ post). rewrite app_assoc.
  replace (S (length pre)) with (length (pre ++ [old])) by (rewrite app_length; cbn; lia).
  rewrite skipn_app, skipn_all, Nat.sub_diag. reflexivity.
Qed.
Lemma cells_same c getWidth (cols : list (option (Column Item Val E))) item groupI : forall colI cell pre,
  elems cell = pre ++ repeat [] (length cols) -> slen pre = colI ->
  cellsA c getWidth cols item colI groupI cell
  = ([], obind (cells_loop c getWidth cols item colI groupI) (fun ws => Ok {| elems := pre ++ ws; room := room cell |})).
Proof.
  induction cols as [|[col|] cols IH]; intros colI cell pre Hc Hi; cbn [cellsA cells_loop].
  - cbn [obind]. cbn [length repeat] in Hc. destruct cell as [el rm]. cbn [elems room] in *. subst el. reflexivity.
  - rewrite mbind_quiet. destruct (index item colI) as [txt|e|p]; cbn [obind]; try reflexivity.
    rewrite mbind_quiet. destruct (getWidth colI groupI) as [w|e|p]; cbn [obind]; try reflexivity.
    cbn [length repeat] in Hc. set (al := match colAlignment col with Some f => f | None => AlignmentLeft c end).
    rewrite (store_at cell pre [] (repeat [] (length cols)) colI (al txt w) Hc Hi), mbind_ok. cbn [app].
    rewrite (IH (colI + 1) _ (pre ++ [al txt w])).
    + cbn [fst snd room]. destruct (cells_loop c getWidth cols item (colI + 1) groupI) as [ws|e|p]; cbn [obind]; try reflexivity.
      rewrite <- app_assoc. reflexivity.
    + cbn [elems]. rewrite <- app_assoc. reflexivity.
    + unfold slen in *. rewrite app_length. cbn [length]. lia.
  - reflexivity.
Qed.
Lemma render_same c (t : Table Item Val E) items getWidth i k :
  renderA c t items getWidth i k
  = (match fiGet items i with Ok _ => [Made (ColumnCount (tSpec t))] | _ => [] end, renderItem c t items getWidth i k).
Proof.
  unfold renderA, renderItem. rewrite mbind_quiet. destruct (fiGet items i) as [item|e|p]; cbn [obind]; try reflexivity.
  pose proof (columnCount_nonneg t) as HC. unfold makeZ. destruct (Z.ltb_spec (ColumnCount (tSpec t)) 0); [lia|]. rewrite mbind_ok.
  rewrite (cells_same c getWidth (Columns (tSpec t)) item k 0 _ []).
  - destruct (cells_loop _ _ _ _ _ _); reflexivity.
  - cbn [elems app]. f_equal. unfold ColumnCount, slen. rewrite Nat2Z.id. reflexivity.
  - reflexivity.
Qed.
Lemma groups_same itemN itemIdx (render : Z -> Z -> mem str) groups : (forall i k, OnlyMade (fst (render i k))) ->
  forall line, slen (elems line) + slen groups <= room line ->
  snd (groupsA grow itemN itemIdx render groups line)
  = obind (groups_loop itemN itemIdx (fun i k => snd (render i k)) groups) (fun bs => Ok {| elems := elems line ++ bs; room := room line |})
  /\ OnlyMade (fst (groupsA grow itemN itemIdx render groups line)).
Proof.
  intros HR. induction groups as [|k groups IH]; intros line HL; cbn [groupsA groups_loop].
  - cbn [obind]. rewrite app_nil_r. split; [destruct line; reflexivity|constructor].
  - unfold slen in HL. cbn [length] in HL. destruct (itemIdx k >=? itemN).
    + rewrite append_room by (unfold slen; lia). split; [reflexivity|constructor].
    + specialize (HR (itemIdx k) k) as HRk. rewrite snd_mbind, fst_mbind. destruct (snd (render (itemIdx k) k)) as [b|e|p]; cbn [obind];
        rewrite ?app_nil_r; auto.
      rewrite append_room by (unfold slen; lia). rewrite mbind_ok. cbn [app fst snd].
      destruct (IH {| elems := elems line ++ [b]; room := room line |}) as [I1 I2].
      { cbn [elems room]. unfold slen. rewrite app_length. cbn [length]. lia. }
      rewrite I1. cbn [elems room]. split; [|apply made_app; auto].
      destruct (groups_loop _ _ _ groups) as [bs|e|p]; cbn [obind]; try reflexivity. rewrite <- app_assoc. reflexivity.
Qed.
Lemma groups_loop_ext itemN itemIdx (r r' : Z -> Z -> outcome E str) groups : (forall i k, r i k = r' i k) ->
  groups_loop itemN itemIdx r groups = groups_loop itemN itemIdx r' groups.
Proof. intros Hr. induction groups as [|k groups IH]; cbn [groups_loop]; auto. rewrite Hr, IH. reflexivity. Qed.
Lemma render_made c (t : Table Item Val E) items getWidth i k : OnlyMade (fst (renderA c t items getWidth i k)).
Proof. rewrite render_same. cbn [fst]. destruct (fiGet items i); [apply made_one, columnCount_nonneg|constructor|constructor]. Qed.
Lemma line_same c (t : Table Item Val E) items sep g getWidth idx : 0 <= g ->
  snd (lineA grow c t items sep g getWidth idx)
  = obind (groups_loop (fiLen items) idx (renderItem c t items getWidth) (zrange g)) (fun bs => Ok (GoBase.join sep bs))
  /\ OnlyMade (fst (lineA grow c t items sep g getWidth idx)).
Proof.
  intros Hg. unfold lineA, make0. destruct (Z.ltb_spec g 0); [lia|]. rewrite mbind_ok. cbn [fst snd].
  destruct (groups_same (fiLen items) idx (renderA c t items getWidth) (zrange g) (render_made c t items getWidth)
              {| elems := []; room := g |}) as [K1 K2].
  { cbn [elems room]. rewrite zrange_len by auto. change (slen []) with 0. lia. }
  rewrite snd_mbind, fst_mbind, K1.
  rewrite (groups_loop_ext _ _ (fun i k => snd (renderA c t items getWidth i k)) (renderItem c t items getWidth))
    by (intros; rewrite render_same; reflexivity).
  split.
  - clear K1 K2. destruct (groups_loop (fiLen items) idx (renderItem c t items getWidth) (zrange g)); reflexivity.
  - apply made_app; [apply made_one; auto|]. apply made_app; auto. clear K1 K2. destruct (groups_loop _ _ _ _); apply made_nil.
Qed.
Lemma lines_same ok (line : Z -> mem str) ls : (forall l, OnlyMade (fst (line l))) -> forall k acc,
  snd (linesA ok line ls k acc) = lines_loop ok (fun l => snd (line l)) ls k acc /\ OnlyMade (fst (linesA ok line ls k acc)).
Proof.
  intros HL. induction ls as [|l ls IH]; intros k acc; cbn [linesA lines_loop]; [split; [reflexivity|constructor]|].
  destruct (snd (line l)) as [txt|e|p]; [|split; [reflexivity|apply HL]..]. destruct (ok k); [|split; [reflexivity|apply HL]].
  destruct (IH (S k) (acc ++ [txt ++ [x0a]])) as [I1 I2]. cbn [fst snd]. split; auto. apply made_app; auto.
Qed.
Lemma emit_same c (t : Table Item Val E) items sep ok g getWidth pos : 0 <= g ->
  snd (emitA grow c t items sep ok g getWidth pos) = emitLines c t items sep ok g getWidth pos
  /\ OnlyMade (fst (emitA grow c t items sep ok g getWidth pos)).
Proof.
  intros Hg. unfold emitA, emitLines.
  destruct (lines_same ok (fun lineI => lineA grow c t items sep g getWidth (pos (lineCountOf (fiLen items) g) lineI))
              (zrange (lineCountOf (fiLen items) g))) with (k := 0%nat) (acc := @nil str) as [K1 K2].
  { intros l. apply line_same. auto. }
  split; auto. rewrite K1. apply lines_loop_ext. intros l _. apply line_same. auto.
Qed.

Lemma init_pos (t : Table Item Val E) w sep g : initialGroupCount t w sep = Ok g -> 1 <= g.
Proof.
  unfold initialGroupCount. destruct (TableWidth t _); cbn [obind]; try discriminate. destruct (_ =? 0); [discriminate|].
  intros e. injection e as <-. destruct (Z.ltb_spec (u16 (clampWidth w + u16 (slen sep)) / u16 (a + u16 (slen sep))) 1); lia.
Qed.
Lemma calc_extra m c (t : Table Item Val E) items maxWidth margin g0 f : forall extra cw e' cw', 0 <= extra ->
  calc m f c t items maxWidth margin g0 extra cw = Some (Ok (e', cw')) -> 0 <= e'.
Proof.
  induction f as [|f IH]; intros extra cw e' cw' He; [destruct m; discriminate|].
  destruct m; cbn [calc compactCalcH_loop compactCalcV_loop].
  - destruct (mergedRowsWidthH _ _ _ _) as [l|e|p]; try discriminate.
    destruct (_ >? _); [intros K; injection K as <- _; auto|]. apply (IH (extra + 1)). lia.
  - destruct (mergedRowsWidthV _ _ _ _) as [[l|]|e|p]; try discriminate; [|intros K; injection K as <- _; auto].
    destruct (_ >? _); [intros K; injection K as <- _; auto|]. apply (IH (extra + 1)). lia.
Qed.

(** Merging with slices prints what merging prints, and only makes slices. *)
Lemma merge_same_made m fuel c (t : Table Item Val E) ok items w sep compact :
  snd (mergeA grow m fuel c t ok items w sep compact) = merge m fuel c t ok items w sep compact
  /\ OnlyMade (fst (mergeA grow m fuel c t ok items w sep compact)).
Proof.
  unfold mergeA.
  assert (HM : merge m fuel c t ok items w sep compact =
    match initialGroupCount t w sep with
    | Panic p => {| written := []; stop := Panicked p |}
    | Err e => {| written := []; stop := Failed e |}
    | Ok g0 =>
      let finish gc getWidth := emitLines c t items sep ok gc getWidth (zpos m gc) in
      if compact then
        match calc m fuel c t items (clampWidth w) (u16 (slen sep)) g0 0 [] with
        | None => {| written := []; stop := Running |}
        | Some (Panic p) => {| written := []; stop := Panicked p |}
        | Some (Err e) => {| written := []; stop := Failed e |}
        | Some (Ok (extra, cellWidth)) =>
          if extra >? 0 then finish (g0 + extra) (getWidth_compact (ColumnCount (tSpec t)) cellWidth)
          else finish g0 (getWidth_default t)
        end
      else finish g0 (getWidth_default t)
    end) by (destruct m; reflexivity).
  rewrite HM. clear HM. destruct (initialGroupCount t w sep) as [g0|e|p] eqn:Eg; [|split; [reflexivity|constructor]..].
  apply init_pos in Eg. cbv zeta.
  assert (HF : forall gc getWidth, 0 <= gc ->
    let r := emitA grow c t items sep ok gc getWidth
      (match m with H => fun lineCount lineI groupI => lineI * gc + groupI | V => fun lineCount lineI groupI => groupI * lineCount + lineI end) in
    snd r = emitLines c t items sep ok gc getWidth (zpos m gc) /\ OnlyMade (fst r)).
  { intros gc getWidth Hg. destruct m; apply emit_same; auto. }
  destruct compact; [|apply HF; lia].
  destruct (calc_same m c t items (clampWidth w) (u16 (slen sep)) g0 fuel Eg 0 [] ltac:(lia)) as [K1 K2]. rewrite K1.
  destruct (calc m fuel c t items (clampWidth w) (u16 (slen sep)) g0 0 []) as [[[extra cw]|e|p]|] eqn:Ec; try (split; auto; fail).
  apply calc_extra in Ec; [|lia]. cbn [fst snd]. destruct (extra >? 0).
  - destruct (HF (g0 + extra) (getWidth_compact (ColumnCount (tSpec t)) cw) ltac:(lia)) as [F1 F2]. split; auto. apply made_app; auto.
  - destruct (HF g0 (getWidth_default t) ltac:(lia)) as [F1 F2]. split; auto. apply made_app; auto.
Qed.
End Types.
