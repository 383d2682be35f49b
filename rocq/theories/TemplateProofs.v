(** * TemplateProofs: what merging prints depends on the cells' widths only. *)
From Coq Require Import ZifyBool ZifyNat.
From Verif Require Import GoBase Runewidth Width AlignSpec AlignProofs Table Merge MergeSpec TemplateSpec.
Local Open Scope Z_scope.

Section Proofs.
Context {Item Val E : Type} (Q : str -> Prop) (c : Condition) (t : Table Item Val E) (n : Z) (M : Z -> outcome E (list Z)) (sep : str).
Notation form := (list piece).
(** The items are known by their number [n] and by what each gives, with widths
    for cells. *)
Definition Measures (c : Condition) (n : Z) (M : Z -> outcome E (list Z)) (items : FormattedItemList E) : Prop :=
  fiLen items = n /\
  forall i, M i = match fiGet items i with Ok row => Ok (map (vwidth c) row) | Err e => Err e | Panic p => Panic p end.
Definition ProperM (p : piece) : Prop :=
  match p with
  | Text s => Q s \/ s = [space] \/ s = sep \/ s = [x0a]
  | Cell i j => 0 <= i < n /\ exists ws, M i = Ok ws /\ (j < length ws)%nat
  end.
Notation Proper := ProperM.

Definition ofmap {A B} (f : A -> B) (o : outcome E A) : outcome E B := match o with Ok a => Ok (f a) | Err e => Err e | Panic p => Panic p end.
Definition oall {A} (P : A -> Prop) (o : outcome E A) : Prop := match o with Ok a => P a | _ => True end.

(** ** Joining *)
Fixpoint joinT (s : str) (l : list form) : form :=
  match l with [] => [] | [x] => x | x :: rest => x ++ Text s :: joinT s rest end.
Lemma fill_app (items : FormattedItemList E) a b : fill items (a ++ b) = fill items a ++ fill items b.
Proof. unfold fill. rewrite map_app, concat_app. reflexivity. Qed.
Lemma fill_join (items : FormattedItemList E) s l : fill items (joinT s l) = join s (map (fill items) l).
Proof.
  induction l as [|x l IH]; [reflexivity|]. destruct l as [|y l]; [reflexivity|].
  change (joinT s (x :: y :: l)) with (x ++ Text s :: joinT s (y :: l)). change (map (fill items) (x :: y :: l)) with (fill items x :: map (fill items) (y :: l)).
  rewrite fill_app. change (Text s :: joinT s (y :: l)) with ([Text s] ++ joinT s (y :: l)). rewrite fill_app, IH. unfold fill at 2. cbn. rewrite app_nil_r. reflexivity.
Qed.
Lemma join_proper s l : Proper (Text s) -> Forall (Forall Proper) l -> Forall Proper (joinT s l).
Proof.
  intros HS HF. induction HF as [|x l HX HF IH]; [constructor|]. destruct l as [|y l]; [exact HX|].
  change (joinT s (x :: y :: l)) with (x ++ Text s :: joinT s (y :: l)). apply Forall_app. split; [exact HX|]. constructor; [exact HS|exact IH].
Qed.

(** ** One item *)
Lemma cells_form getW i ws groupI : M i = Ok ws -> 0 <= i < n -> forall cols colI, 0 <= colI ->
  Forall (fun mc => match mc with Some col => Pads Q c (alignment_of c col) | None => True end) cols ->
  exists F : outcome E (list form), oall (Forall (Forall Proper)) F /\
  forall items row, Measures c n M items -> fiGet items i = Ok row -> cells_loop (Item := Item) (Val := Val) c getW cols row colI groupI = ofmap (map (fill items)) F.
Proof.
  intros HM Hi. induction cols as [|mc cols IH]; intros colI Hc HF.
  - exists (Ok []). split; [constructor|]. reflexivity.
  - inversion HF as [|? ? HP HF']; subst. destruct mc as [col|].
    2:{ exists (Panic NilDereference). split; [exact Logic.I|]. reflexivity. }
    destruct HP as (l & r & HQ & HP). destruct (IH (colI + 1) ltac:(lia) HF') as (F & FP & FE).
    exists (obind (index ws colI) (fun x => obind (getW colI groupI) (fun w => obind F (fun cells =>
      Ok ([Text (l x w); Cell i (Z.to_nat colI); Text (r x w)] :: cells))))). split.
    + unfold index, at_index. replace (colI <? 0) with false by lia. destruct (nth_error ws (Z.to_nat colI)) as [x|] eqn:En; cbn [obind oall]; [|exact Logic.I].
      destruct (getW colI groupI) as [w|e|p]; cbn [obind oall]; try exact Logic.I. destruct F as [cells|e|p]; cbn [obind oall] in *; try exact Logic.I.
      constructor; [|exact FP]. constructor; [left; apply HQ|]. constructor; [|constructor; [left; apply HQ|constructor]].
      split; [exact Hi|]. exists ws. split; [exact HM|]. apply nth_error_Some. congruence.
    + intros items row HI HG. specialize (FE items row HI HG). destruct HI as [Hn HI]. pose proof (HI i) as K. rewrite HM, HG in K. injection K as ->.
      cbn [cells_loop]. fold (alignment_of c col). rewrite FE. unfold index, at_index. replace (colI <? 0) with false by lia. rewrite nth_error_map.
      destruct (nth_error row (Z.to_nat colI)) as [s|] eqn:En; cbn [option_map obind ofmap]; [|reflexivity].
      destruct (getW colI groupI) as [w|e|p]; cbn [obind ofmap]; try reflexivity. destruct F as [cells|e|p]; cbn [obind ofmap]; try reflexivity.
      cbn [map]. f_equal. f_equal. unfold fill. cbn [map concat filled]. rewrite HG, (nth_error_nth _ _ _ En), HP, app_nil_r. reflexivity.
Qed.
Lemma render_form getW groupI i : 0 <= i < n -> PadsColumns Q c t ->
  exists F : outcome E form, oall (Forall Proper) F /\
  forall items, Measures c n M items -> renderItem c t items getW i groupI = ofmap (fill items) F.
Proof.
  intros Hi HP. destruct (M i) as [ws|e|p] eqn:HM.
  - destruct (cells_form getW i ws groupI HM Hi (Columns (tSpec t)) 0 ltac:(lia) HP) as (F & FP & FE).
    exists (ofmap (joinT innerSep) F). split.
    + destruct F as [l|e|p]; cbn in *; try exact Logic.I. apply join_proper; [|exact FP]. right. left. reflexivity.
    + intros items HI. unfold renderItem. pose proof (proj2 HI i) as K. rewrite HM in K. destruct (fiGet items i) as [row|e|p] eqn:HG; try discriminate.
      cbn [obind]. rewrite (FE items row HI HG). destruct F as [l|e|p]; cbn [obind ofmap]; try reflexivity. rewrite fill_join. reflexivity.
  - exists (Err e). split; [exact Logic.I|]. intros items [_ HI]. specialize (HI i). rewrite HM in HI. unfold renderItem.
    destruct (fiGet items i); try discriminate. injection HI as ->. reflexivity.
  - exists (Panic p). split; [exact Logic.I|]. intros items [_ HI]. specialize (HI i). rewrite HM in HI. unfold renderItem.
    destruct (fiGet items i); try discriminate. injection HI as ->. reflexivity.
Qed.

(** ** Lines *)
Lemma groups_form getW (P : Z -> Z) : PadsColumns Q c t -> forall gs, Forall (fun g => 0 <= P g) gs ->
  exists F : outcome E (list form), oall (Forall (Forall Proper)) F /\
  forall items, Measures c n M items -> groups_loop n P (renderItem c t items getW) gs = ofmap (map (fill items)) F.
Proof.
  intros HP gs HF. induction HF as [|g gs Hg HF IH].
  - exists (Ok []). split; [constructor|reflexivity].
  - destruct IH as (F & FP & FE). cbn [groups_loop]. destruct (Z.geb_spec (P g) n) as [K|K].
    + exists (Ok [[]]). split; [repeat constructor|]. reflexivity.
    + destruct (render_form getW g (P g) ltac:(lia) HP) as (B & BP & BE).
      exists (obind B (fun b => obind F (fun bs => Ok (b :: bs)))). split.
      * destruct B; cbn in *; try exact Logic.I. destruct F; cbn in *; try exact Logic.I. constructor; auto.
      * intros items HI. rewrite BE, FE by exact HI. destruct B; cbn; try reflexivity. destruct F; cbn; reflexivity.
Qed.
Lemma lines_form ok (line : FormattedItemList E -> Z -> outcome E str) ls : Forall (fun l => exists F : outcome E form, oall (Forall Proper) F /\
    forall items, Measures c n M items -> line items l = ofmap (fill items) F) ls ->
  forall k, exists T st, Forall (Forall Proper) T /\ forall items acc, Measures c n M items ->
  lines_loop ok (line items) ls k acc = {| written := acc ++ map (fill items) T; stop := st |}.
Proof.
  intros HF. induction HF as [|l ls (F & FP & FE) HF IH]; intros k.
  - exists [], Finished. split; [constructor|]. intros items acc HI. cbn. rewrite app_nil_r. reflexivity.
  - destruct F as [f|e|p].
    + destruct (ok k) eqn:Ek.
      * destruct (IH (S k)) as (T & st & TP & TE). exists ((f ++ [Text [x0a]]) :: T), st. split.
        -- constructor; [|exact TP]. apply Forall_app. split; [exact FP|]. constructor; [right; right; right; reflexivity|constructor].
        -- intros items acc HI. cbn [lines_loop]. rewrite FE by exact HI. cbn [ofmap]. rewrite Ek, TE by exact HI. cbn [map]. rewrite fill_app, <- app_assoc. reflexivity.
      * exists [], (Panicked WriteFailed). split; [constructor|]. intros items acc HI. cbn [lines_loop]. rewrite FE by exact HI. cbn [ofmap map]. rewrite Ek, app_nil_r. reflexivity.
    + exists [], (Failed e). split; [constructor|]. intros items acc HI. cbn [lines_loop]. rewrite FE by exact HI. cbn [ofmap map]. rewrite app_nil_r. reflexivity.
    + exists [], (Panicked p). split; [constructor|]. intros items acc HI. cbn [lines_loop]. rewrite FE by exact HI. cbn [ofmap map]. rewrite app_nil_r. reflexivity.
Qed.
Lemma emit_form ok gc getW pos : PadsColumns Q c t -> (forall l g, 0 <= l < lineCountOf n gc -> 0 <= g < gc -> 0 <= pos (lineCountOf n gc) l g) ->
  exists T st, Forall (Forall Proper) T /\ forall items, Measures c n M items ->
  emitLines c t items sep ok gc getW pos = {| written := map (fill items) T; stop := st |}.
Proof.
  intros HP Hpos.
  assert (RZ : forall m x, In x (zrange m) -> 0 <= x < m).
  { intros m x Hx. unfold zrange in Hx. apply in_map_iff in Hx. destruct Hx as (y & <- & Hy). apply in_seq in Hy. lia. }
  edestruct (lines_form ok (fun items lineI => obind (groups_loop n (pos (lineCountOf n gc) lineI) (renderItem c t items getW) (zrange gc)) (fun blocks => Ok (join sep blocks)))
    (zrange (lineCountOf n gc))) as (T & st & TP & TE).
  - apply Forall_forall. intros l Hl. apply RZ in Hl. destruct (groups_form getW (pos (lineCountOf n gc) l) HP (zrange gc)) as (F & FP & FE).
    { apply Forall_forall. intros g Hg. apply RZ in Hg. apply Hpos; assumption. }
    exists (ofmap (joinT sep) F). split.
    + destruct F; cbn in *; try exact Logic.I. apply join_proper; [|exact FP]. right. right. left. reflexivity.
    + intros items HI. rewrite FE by exact HI. destruct F; cbn [obind ofmap]; try reflexivity. rewrite fill_join. reflexivity.
  - exists T, st. split; [exact TP|]. intros items HI. unfold emitLines. rewrite (proj1 HI). exact (TE items [] HI).
Qed.

(** ** The search *)
Lemma maxCell_same items items' colI : Measures c n M items -> Measures c n M items' -> forall idxs mw, maxCell c items colI idxs mw = maxCell c items' colI idxs mw.
Proof.
  intros [_ HI] [_ HI']. induction idxs as [|i idxs IH]; intros mw; [reflexivity|]. cbn [maxCell]. pose proof (HI i) as K. rewrite (HI' i) in K.
  destruct (fiGet items i) as [row|e|p], (fiGet items' i) as [row'|e'|p']; try discriminate; cbn [obind]; try (injection K as ->; reflexivity).
  injection K as K. unfold index, at_index. destruct (colI <? 0); [reflexivity|].
  pose proof (nth_error_map (vwidth c) (Z.to_nat colI) row) as N1. pose proof (nth_error_map (vwidth c) (Z.to_nat colI) row') as N2. rewrite K, N1 in N2.
  destruct (nth_error row (Z.to_nat colI)), (nth_error row' (Z.to_nat colI)); cbn [option_map obind] in *; try discriminate; [|reflexivity].
  injection N2 as ->. apply IH.
Qed.
Lemma omap_ext {A B} (f g : A -> outcome E B) l : (forall a, f a = g a) -> omap f l = omap g l.
Proof. intros HE. induction l as [|a l IH]; [reflexivity|]. cbn [omap]. rewrite HE, IH. reflexivity. Qed.
Lemma widths_same items items' colN idxs gc : Measures c n M items -> Measures c n M items' -> widthsOf c items colN idxs gc = widthsOf c items' colN idxs gc.
Proof.
  intros HI HI'. unfold widthsOf. rewrite (omap_ext _ (fun groupI => omap (fun colI => maxCell c items' colI (idxs groupI) 0) (zrange colN))); [reflexivity|].
  intros g. apply omap_ext. intros k. apply maxCell_same; assumption.
Qed.
Lemma calcH_same items items' maxWidth margin g0 : Measures c n M items -> Measures c n M items' -> forall fuel extra cw,
  compactCalcH_loop fuel c t items maxWidth margin g0 extra cw = compactCalcH_loop fuel c t items' maxWidth margin g0 extra cw.
Proof.
  intros HI HI'. induction fuel as [|fuel IH]; intros extra cw; [reflexivity|]. cbn [compactCalcH_loop].
  unfold mergedRowsWidthH. rewrite (proj1 HI), (proj1 HI'), (widths_same items items') by assumption. destruct (widthsOf _ _ _ _ _); try reflexivity. rewrite IH. reflexivity.
Qed.
Lemma calcV_same items items' maxWidth margin g0 : Measures c n M items -> Measures c n M items' -> forall fuel extra cw,
  compactCalcV_loop fuel c t items maxWidth margin g0 extra cw = compactCalcV_loop fuel c t items' maxWidth margin g0 extra cw.
Proof.
  intros HI HI'. induction fuel as [|fuel IH]; intros extra cw; [reflexivity|]. cbn [compactCalcV_loop].
  replace (mergedRowsWidthV c t items (g0 + extra + 1)) with (mergedRowsWidthV c t items' (g0 + extra + 1)).
  2:{ unfold mergedRowsWidthV. rewrite (proj1 HI), (proj1 HI'). destruct (_ =? 0); [reflexivity|]. destruct (_ >? _); [reflexivity|].
      rewrite (widths_same items items') by assumption. reflexivity. }
  destruct (mergedRowsWidthV _ _ _ _) as [[l|]|e|p]; try reflexivity. rewrite IH. reflexivity.
Qed.
(** ** The functions *)
Definition Formed (f : FormattedItemList E -> run E) : Prop :=
  exists T st, Forall (Forall Proper) T /\ forall items, Measures c n M items -> f items = {| written := map (fill items) T; stop := st |}.
Lemma nothing st : Formed (fun _ => {| written := []; stop := st |}).
Proof. exists [], st. split; [constructor|reflexivity]. Qed.
Lemma formed_same f g : (forall items, Measures c n M items -> f items = g items) -> Formed f -> Formed g.
Proof. intros HE (T & st & TP & TE). exists T, st. split; [exact TP|]. intros items HI. rewrite <- HE by exact HI. apply TE, HI. Qed.
Lemma merge_form m fuel ok maxWidth compact items0 : Measures c n M items0 -> PadsColumns Q c t ->
  Formed (fun items => merge m fuel c t ok items maxWidth sep compact).
Proof.
  intros H0 HP.
  assert (HH : forall gc getW, Formed (fun items => emitLines c t items sep ok gc getW (fun lineCount lineI groupI => lineI * gc + groupI))).
  { intros gc getW. apply emit_form; [exact HP|]. intros l g Hl Hg. pose proof (Z.mul_nonneg_nonneg l gc). lia. }
  assert (HV : forall gc getW, Formed (fun items => emitLines c t items sep ok gc getW (fun lineCount lineI groupI => groupI * lineCount + lineI))).
  { intros gc getW. apply emit_form; [exact HP|]. intros l g Hl Hg. pose proof (Z.mul_nonneg_nonneg g (lineCountOf n gc)). lia. }
  destruct (initialGroupCount t maxWidth sep) as [gc|e|p] eqn:Eg.
  2,3: unfold merge; destruct m; unfold MergeRowsHorizontal, MergeRowsVertical; rewrite Eg; apply nothing.
  destruct compact.
  2:{ destruct m; cbn [merge]; unfold MergeRowsHorizontal, MergeRowsVertical; rewrite Eg; [apply HH|apply HV]. }
  destruct m; cbn [merge]; unfold MergeRowsHorizontal, MergeRowsVertical; rewrite Eg.
  - eapply formed_same; [intros items HI; rewrite (calcH_same items items0) by assumption; reflexivity|].
    destruct (compactCalcH_loop _ _ _ _ _ _ _ _ _) as [[[extra cw]|e|p]|]; try apply nothing. destruct (extra >? 0); apply HH.
  - eapply formed_same; [intros items HI; rewrite (calcV_same items items0) by assumption; reflexivity|].
    destruct (compactCalcV_loop _ _ _ _ _ _ _ _ _) as [[[extra cw]|e|p]|]; try apply nothing. destruct (extra >? 0); apply HV.
Qed.
End Proofs.

Section Public.
Context {Item Val E : Type}.
Lemma merge_template (Q : str -> Prop) c (t : Table Item Val E) m fuel ok items maxWidth sep compact : PadsColumns Q c t ->
  exists T st, Forall (Forall (Proper Q sep items)) T /\
  forall items', SameWidths c items items' -> merge m fuel c t ok items' maxWidth sep compact = {| written := map (fill items') T; stop := st |}.
Proof.
  intros HP. set (M := fun i => ofmap (map (vwidth c)) (fiGet items i)).
  destruct (merge_form Q c t (fiLen items) M sep m fuel ok maxWidth compact items) as (T & st & TP & TE); [split; [reflexivity|]; intros i; reflexivity|exact HP|].
  exists T, st. split.
  - eapply Forall_impl; [|exact TP]. intros l HL. eapply Forall_impl; [|exact HL]. intros [s|i j]; [exact (fun h => h)|].
    intros (Hi & ws & Hw & Hj). split; [exact Hi|]. unfold M in Hw. destruct (fiGet items i) as [row|e|p]; try discriminate. injection Hw as <-.
    exists row. split; [reflexivity|]. rewrite map_length in Hj. exact Hj.
  - intros items' [Hn HS]. apply TE. split; [exact Hn|]. intros i. specialize (HS i). unfold M.
    destruct (fiGet items i), (fiGet items' i); cbn [ofmap]; try contradiction; rewrite HS; reflexivity.
Qed.
(** Built-in alignments pad with spaces. *)
Lemma builtin_pads c a : Pads Blank c (align a c).
Proof.
  destruct a.
  - exists (fun _ _ => []), (fun x w => if x >=? w then [] else spaces (u16 (w - x))). split.
    + intros x w. split; [exists O; reflexivity|]. destruct (x >=? w); [exists O; reflexivity|eexists; reflexivity].
    + intros s w. cbn [align]. unfold AlignmentLeft. destruct (_ >=? _); [rewrite app_nil_r|]; reflexivity.
  - exists (fun x w => if x >=? w then [] else spaces (u16 (w - x))), (fun _ _ => []). split.
    + intros x w. split; [|exists O; reflexivity]. destruct (x >=? w); [exists O; reflexivity|eexists; reflexivity].
    + intros s w. cbn [align]. unfold AlignmentRight. rewrite app_nil_r. destruct (_ >=? _); reflexivity.
  - exists (fun x w => if x >=? w then [] else spaces (Z.quot (u16 (w - x) - 1) 2 + 1)), (fun x w => if x >=? w then [] else spaces (u16 (w - x) - (Z.quot (u16 (w - x) - 1) 2 + 1))). split.
    + intros x w. destruct (x >=? w); split; try (exists O; reflexivity); eexists; reflexivity.
    + intros s w. cbn [align]. unfold AlignmentCenter. destruct (_ >=? _); [rewrite app_nil_r|]; reflexivity.
Qed.
Lemma builtin_columns c (t : Table Item Val E) : Forall (fun mc => match mc with Some col => BuiltIn c col | None => True end) (Columns (tSpec t)) -> PadsColumns Blank c t.
Proof.
  intros HF. unfold PadsColumns. eapply Forall_impl; [|exact HF]. intros [col|]; [|auto]. intros [K|(a & K)]; unfold alignment_of; rewrite K; [exact (builtin_pads c ALeft)|apply builtin_pads].
Qed.
(** Rows aligned in place. *)
Lemma align_template_loop (Q : str -> Prop) c (t : Table Item Val E) ws : forall cols, PadsAligned Q c cols ->
  exists pads res, Forall (fun lr => (Q (fst lr) \/ fst lr = []) /\ (Q (snd lr) \/ snd lr = [])) pads /\ length pads = length ws /\
  forall row done, map (vwidth c) row = ws -> alignFormatted_loop t cols done row = (done ++ around pads row, match res with None => Ok (done ++ around pads row) | Some p => Panic p end).
Proof.
  assert (BASE : forall ws, exists pads : list (str * str), Forall (fun lr => (Q (fst lr) \/ fst lr = []) /\ (Q (snd lr) \/ snd lr = [])) pads /\ length pads = length ws /\
    forall row, map (vwidth c) row = ws -> around pads row = row).
  { clear. intros ws. exists (repeat ([], []) (length ws)). split; [|split; [apply repeat_length|]].
    - induction (length ws); cbn; constructor; auto.
    - intros row <-. induction row as [|s row IH]; [reflexivity|]. cbn. rewrite app_nil_r. f_equal. exact IH. }
  induction ws as [|x ws IH]; intros cols HC.
  - destruct (BASE []) as (pads & P1 & P2 & P3). destruct cols as [|[col|] cols].
    + exists pads, None. split; [exact P1|]. split; [exact P2|]. intros row done Hr. rewrite (P3 row Hr). reflexivity.
    + exists pads, (Some IndexOutOfRange). split; [exact P1|]. split; [exact P2|]. intros row done Hr. rewrite (P3 row Hr). destruct row; [|discriminate]. reflexivity.
    + exists pads, (Some NilDereference). split; [exact P1|]. split; [exact P2|]. intros row done Hr. rewrite (P3 row Hr). reflexivity.
  - destruct cols as [|[col|] cols].
    + destruct (BASE (x :: ws)) as (pads & P1 & P2 & P3). exists pads, None. split; [exact P1|]. split; [exact P2|]. intros row done Hr. rewrite (P3 row Hr). reflexivity.
    + inversion HC as [|? ? HP HC']; subst. destruct (IH cols HC') as (pads & res & P1 & P2 & P3). destruct (colAlignment col) as [al|] eqn:Ea.
      * destruct HP as (l & r & HQ & HP). exists ((l x (Width t (colName col)), r x (Width t (colName col))) :: pads), res.
        split; [constructor; [split; left; apply HQ|exact P1]|]. split; [cbn; congruence|]. intros row done Hr. destruct row as [|s row]; [discriminate|].
        injection Hr as Hx Hr. cbn [alignFormatted_loop]. rewrite Ea, (P3 row _ Hr), HP, Hx. cbn [around fst snd]. rewrite <- !app_assoc. reflexivity.
      * exists (([], []) :: pads), res.
        split; [constructor; [split; right; reflexivity|exact P1]|]. split; [cbn; congruence|]. intros row done Hr. destruct row as [|s row]; [discriminate|].
        injection Hr as Hx Hr. cbn [alignFormatted_loop]. rewrite Ea, (P3 row _ Hr). cbn [around fst snd app]. rewrite app_nil_r, <- !app_assoc. reflexivity.
    + destruct (BASE (x :: ws)) as (pads & P1 & P2 & P3). exists pads, (Some NilDereference). split; [exact P1|]. split; [exact P2|]. intros row done Hr. rewrite (P3 row Hr). reflexivity.
Qed.
Lemma align_template (Q : str -> Prop) c (t : Table Item Val E) ws : PadsAligned Q c (Columns (tSpec t)) -> slen ws = ColumnCount (tSpec t) ->
  exists pads res, Forall (fun lr => (Q (fst lr) \/ fst lr = []) /\ (Q (snd lr) \/ snd lr = [])) pads /\ length pads = length ws /\
  forall row, map (vwidth c) row = ws -> AlignFormattedItem t row = (around pads row, match res with None => Ok (around pads row) | Some p => Panic p end).
Proof.
  intros HC Hw. destruct (align_template_loop Q c t ws _ HC) as (pads & res & P1 & P2 & P3). exists pads, res. split; [exact P1|]. split; [exact P2|].
  intros row Hr. unfold AlignFormattedItem. replace (slen row) with (slen ws) by (rewrite <- Hr; unfold slen; rewrite map_length; reflexivity).
  rewrite Hw, Z.eqb_refl. cbn [negb]. exact (P3 row [] Hr).
Qed.
(** What is recorded. *)
Lemma loop_extends c cols item : forall (t : Table Item Val E) done t1 texts, formatItem_loop c t cols item done = (t1, Ok texts) ->
  exists l, texts = done ++ l /\ length l = length cols.
Proof.
  induction cols as [|[col|] cols IH]; intros t done t1 texts e; cbn [formatItem_loop] in e; [|destruct (colGetter col) as [g|]|]; try discriminate.
  - injection e as <- <-. exists []. rewrite app_nil_r. auto.
  - destruct (getValue g item) as [v|x|p]; try discriminate. destruct (getFormat g item v) as [s|x|p]; try discriminate.
    destruct (raise_width t (colName col) (vwidth c s)) as [t' [u|x|p]]; try discriminate. apply IH in e. destruct e as (l & -> & Hl).
    exists (s :: l). rewrite <- app_assoc. cbn. auto.
Qed.
Lemma format_same_loop c item item' : forall cols (t : Table Item Val E) done done' t1 t2 l l', length done = length done' ->
  formatItem_loop c t cols item done = (t1, Ok (done ++ l)) -> formatItem_loop c t cols item' done' = (t2, Ok (done' ++ l')) ->
  map (vwidth c) l = map (vwidth c) l' -> t1 = t2.
Proof.
  induction cols as [|[col|] cols IH]; intros t done done' t1 t2 l l' HD e e' HM; cbn [formatItem_loop] in e, e'; [|destruct (colGetter col) as [g|]|]; try discriminate.
  - congruence.
  - destruct (getValue g item) as [v|x|p]; try discriminate. destruct (getFormat g item v) as [s|x|p]; try discriminate.
    destruct (getValue g item') as [v'|x|p]; try discriminate. destruct (getFormat g item' v') as [s'|x|p]; try discriminate.
    destruct (raise_width t (colName col) (vwidth c s)) as [u o] eqn:E1. destruct o as [o|x|p]; try discriminate.
    destruct (raise_width t (colName col) (vwidth c s')) as [u' o'] eqn:E2. destruct o' as [o'|x|p]; try discriminate.
    pose proof (loop_extends _ _ _ _ _ _ _ e) as (k & Hk & _). pose proof (loop_extends _ _ _ _ _ _ _ e') as (k' & Hk' & _).
    rewrite <- app_assoc in Hk, Hk'. apply app_inv_head in Hk, Hk'. subst l l'. cbn [app map] in HM. injection HM as Hs HM. rewrite Hs in E1. rewrite E1 in E2. injection E2 as <- _.
    change (s :: k) with ([s] ++ k) in e. change (s' :: k') with ([s'] ++ k') in e'. rewrite app_assoc in e, e'.
    eapply (IH u (done ++ [s]) (done' ++ [s']) t1 t2 k k'); eauto. rewrite !app_length. cbn. lia.
Qed.
Lemma format_same c (t : Table Item Val E) item item' t1 t2 texts texts' : FormatItem c t item = (t1, Ok texts) -> FormatItem c t item' = (t2, Ok texts') ->
  map (vwidth c) texts = map (vwidth c) texts' -> t1 = t2.
Proof. intros e e' HM. exact (format_same_loop c item item' _ t [] [] t1 t2 texts texts' eq_refl e e' HM). Qed.
End Public.
