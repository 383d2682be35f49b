(** * MergeRender: the lines printed for given groups and widths. *)
From Verif Require Import GoBase Runewidth Width AlignSpec Table Merge TableContract TableOpsProofs MergeSpec MergeLayout.
From Coq Require Import ZifyBool ZifyNat.

Lemma zrange_nat n : zrange (Z.of_nat n) = map Z.of_nat (seq 0 n).
Proof. unfold zrange. rewrite Nat2Z.id. reflexivity. Qed.

Lemma join_same sep l : GoBase.join sep l = TableContract.join sep l.
Proof. reflexivity. Qed.

Section Types.
Context {Item Val E : Type}.
Implicit Types (t : Table Item Val E) (cols : list (Column Item Val E)) (items : FormattedItemList E).

Lemma index_nat {A} (l : list A) i a : nth_error l i = Some a -> index (E := E) l (Z.of_nat i) = Ok a.
Proof.
  intros H. unfold index, at_index. destruct (Z.ltb_spec (Z.of_nat i) 0); [lia|]. rewrite Nat2Z.id, H. reflexivity.
Qed.

Lemma cells_ok c (getWidth : Z -> Z -> outcome E Z) item k cols : forall ws (i : nat),
  length ws = length cols -> (i + length cols <= length item)%nat ->
  (forall j w, nth_error ws j = Some w -> getWidth (Z.of_nat (i + j)) k = Ok w) ->
  cells_loop c getWidth (map Some cols) item (Z.of_nat i) k = Ok (cells c cols ws (skipn i item)).
Proof.
  induction cols as [|col cols IH]; intros ws i Hl Hi Hw.
  - destruct ws; reflexivity.
  - destruct ws as [|w ws]; [discriminate|]. cbn [map cells_loop].
    destruct (skipn i item) as [|s rest] eqn:Es.
    { exfalso. pose proof (skipn_length i item) as L. rewrite Es in L. cbn in L, Hi. lia. }
    assert (Hs : nth_error item i = Some s).
    { pose proof (nth_skipn i item 0) as K. rewrite Es, Nat.add_0_r in K. symmetry. exact K. }
    assert (Hrest : skipn (S i) item = rest).
    { apply nth_ext. intros j. pose proof (nth_skipn i item (S j)) as K. rewrite Es in K. cbn [nth_error] in K.
      rewrite K, nth_skipn. f_equal. lia. }
    rewrite (index_nat _ _ _ Hs). cbn [obind].
    pose proof (Hw 0%nat w eq_refl) as H0. rewrite Nat.add_0_r in H0. rewrite H0. cbn [obind].
    replace (Z.of_nat i + 1)%Z with (Z.of_nat (S i)) by lia.
    rewrite (IH ws (S i)).
    + rewrite Hrest. reflexivity.
    + cbn in Hl. lia.
    + cbn in Hi. lia.
    + intros j w' Hj. replace (S i + j)%nat with (i + S j)%nat by lia. apply Hw. exact Hj.
Qed.

(** [getWidth] reads the widths [W]. *)
Definition Reads (getWidth : Z -> Z -> outcome E Z) (n g : nat) (W : nat -> list Z) : Prop :=
  forall k, (k < g)%nat -> length (W k) = n /\
  forall i w, nth_error (W k) i = Some w -> getWidth (Z.of_nat i) (Z.of_nat k) = Ok w.

Section Printing.
Context {c : Condition} {t : Table Item Val E} {cols : list (Column Item Val E)} {items : FormattedItemList E}
  {rows : list (list str)}.
Hypothesis HP : Printable t cols items rows.

Lemma render_ok getWidth W g i k row : Reads getWidth (length cols) g W -> (k < g)%nat -> nth_error rows i = Some row ->
  renderItem c t items getWidth (Z.of_nat i) (Z.of_nat k) = Ok (block c cols (W k) row).
Proof.
  intros HR Hk Hrow. destruct HP as [Hc [Hn Hg] Hl]. unfold renderItem. rewrite (Hg i row Hrow). cbn [obind].
  rewrite Hc. destruct (HR k Hk) as [HL HW].
  rewrite Forall_forall in Hl. specialize (Hl row (nth_error_In _ _ Hrow)).
  change 0%Z with (Z.of_nat 0). rewrite (cells_ok c getWidth row (Z.of_nat k) cols (W k) 0); auto.
Qed.

Lemma groups_ok getWidth W g (p : nat -> nat) (P : Z -> Z) : Reads getWidth (length cols) g W ->
  (forall k, P (Z.of_nat k) = Z.of_nat (p k)) -> forall n s, (s + n <= g)%nat ->
  groups_loop (fiLen items) P (renderItem c t items getWidth) (map Z.of_nat (seq s n)) =
  Ok (blocks_from c cols W s (picks p (seq s n) rows) ++
      if (length (picks p (seq s n) rows) <? n)%nat then [[]] else []).
Proof.
  intros HR Hpos. assert (HN : fiLen items = Z.of_nat (length rows)) by (destruct HP as [_ [K _] _]; exact K).
  induction n as [|n IH]; intros s Hs; [reflexivity|].
  cbn [seq map groups_loop picks]. rewrite Hpos, HN.
  destruct (nth_error rows (p s)) as [row|] eqn:Er.
  - pose proof (nth_some_lt _ _ _ Er). destruct (Z.geb_spec (Z.of_nat (p s)) (Z.of_nat (length rows))); [lia|].
    rewrite (render_ok getWidth W g (p s) s row HR) by (auto; lia). cbn [obind].
    rewrite <- HN, IH by lia. cbn [obind blocks_from app length].
    reflexivity.
  - apply nth_error_None in Er. destruct (Z.geb_spec (Z.of_nat (p s)) (Z.of_nat (length rows))); [|lia]. reflexivity.
Qed.

Definition zpos (m : mode) (gc : Z) : Z -> Z -> Z -> Z :=
  match m with
  | H => fun lineCount lineI groupI => (lineI * gc + groupI)%Z
  | V => fun lineCount lineI groupI => (groupI * lineCount + lineI)%Z
  end.

(** The lines, given what the writer does. *)
Definition write (ok : nat -> bool) (ls : list str) : run E :=
  lines_loop ok (fun i => match nth_error ls (Z.to_nat i) with Some s => Ok s | None => Panic IndexOutOfRange end)
    (zrange (slen ls)) 0 [].

Lemma lines_loop_ext ok (f f' : Z -> outcome E str) ls k acc : (forall l, In l ls -> f l = f' l) ->
  lines_loop ok f ls k acc = lines_loop ok f' ls k acc.
Proof.
  revert k acc. induction ls as [|l ls IH]; intros k acc H; [reflexivity|]. cbn [lines_loop].
  rewrite (H l) by (left; auto). destruct (f' l); auto. destruct (ok k); auto.
  apply IH. intros. apply H. right. auto.
Qed.

Lemma emit_ok ok sep m g getWidth W : (1 <= g)%nat -> Reads getWidth (length cols) g W ->
  emitLines c t items sep ok (Z.of_nat g) getWidth (zpos m (Z.of_nat g)) =
  write ok (map (line_text c cols sep W g) (layout_lines m g rows)).
Proof.
  intros Hg HR. assert (HN : fiLen items = Z.of_nat (length rows)) by (destruct HP as [_ [K _] _]; exact K).
  unfold emitLines, write. rewrite HN, lineCountOf_nat by auto. set (L := lineCount (length rows) g).
  assert (EL : slen (map (line_text c cols sep W g) (layout_lines m g rows)) = Z.of_nat L).
  { unfold slen. rewrite map_length, layout_len. reflexivity. }
  rewrite EL. apply lines_loop_ext. intros li Hli. rewrite zrange_nat in Hli. apply in_map_iff in Hli.
  destruct Hli as (l & <- & Hl). apply in_seq in Hl. rewrite Nat2Z.id.
  rewrite <- HN. rewrite zrange_nat.
  rewrite (groups_ok getWidth W g (pos m g L l)); auto.
  - cbn [obind]. unfold layout_lines. fold L. rewrite map_map, nth_map, nth_seq.
    destruct (Nat.ltb_spec l L); [|lia]. reflexivity.
  - intros k. destruct m; cbn [zpos pos]; lia.
Qed.
End Printing.

(** ** Writing *)
Lemma write_loop_all ls : forall pre acc,
  lines_loop (E := E) (fun _ => true) (fun i => match nth_error (pre ++ ls) (Z.to_nat i) with Some s => Ok s | None => Panic IndexOutOfRange end)
    (map Z.of_nat (seq (length pre) (length ls))) (length pre) acc =
  {| written := acc ++ map (fun s => s ++ [x0a]) ls; stop := Finished |}.
Proof.
  induction ls as [|s ls IH]; intros pre acc.
  - cbn. rewrite app_nil_r. reflexivity.
  - cbn [length seq map lines_loop]. rewrite Nat2Z.id, nth_error_app2, Nat.sub_diag by lia. cbn [nth_error].
    specialize (IH (pre ++ [s]) (acc ++ [s ++ [x0a]])). rewrite app_length in IH. cbn [length] in IH.
    rewrite <- app_assoc in IH. cbn [app] in IH. replace (length pre + 1)%nat with (S (length pre)) in IH by lia.
    etransitivity; [exact IH|]. rewrite <- app_assoc. reflexivity.
Qed.

Lemma write_all ls : write (fun _ => true) ls = {| written := map (fun s => s ++ [x0a]) ls; stop := Finished |}.
Proof. unfold write. unfold slen. rewrite zrange_nat. apply (write_loop_all ls [] []). Qed.

Lemma lines_loop_ok_ext ok ok' (f : Z -> outcome E str) ls k acc : (forall i, ok i = ok' i) ->
  lines_loop ok f ls k acc = lines_loop ok' f ls k acc.
Proof.
  intros H. revert k acc. induction ls as [|l ls IH]; intros k acc; [reflexivity|]. cbn [lines_loop].
  destruct (f l); auto. rewrite H. destruct (ok' k); auto.
Qed.

(** A writer that fails. *)
Lemma lines_loop_fails (f : Z -> outcome E str) ok n ls : forall k acc,
  (forall i, (i < n)%nat -> ok i = true) -> ok n = false -> (k <= n)%nat -> length acc = k ->
  let r := lines_loop (fun _ => true) f ls k acc in
  lines_loop ok f ls k acc =
  if (n <? length (written r))%nat
  then {| written := firstn n (written r); stop := Panicked WriteFailed |} else r.
Proof.
  induction ls as [|l ls IH]; intros k acc Hok Hn Hk Hacc.
  - cbn [lines_loop written]. destruct (Nat.ltb_spec n (length acc)); [lia|reflexivity].
  - cbn [lines_loop]. destruct (f l) as [s|e|p].
    + destruct (Nat.eq_dec k n) as [->|Hne].
      * rewrite Hn. 
        assert (Hpre : forall ls k acc, exists more, written (lines_loop (fun _ => true) f ls k acc) = acc ++ more).
        { clear. induction ls as [|l ls IH]; intros k acc; cbn [lines_loop].
          - exists []. rewrite app_nil_r. reflexivity.
          - destruct (f l).
            + destruct (IH (S k) (acc ++ [a ++ [x0a]])) as (more & ->). rewrite <- app_assoc. eauto.
            + exists []. rewrite app_nil_r. reflexivity.
            + exists []. rewrite app_nil_r. reflexivity. }
        destruct (Hpre ls (S n) (acc ++ [s ++ [x0a]])) as (more & ->).
        destruct (Nat.ltb_spec n (length ((acc ++ [s ++ [x0a]]) ++ more))) as [L|L].
        -- rewrite <- Hacc, <- app_assoc, firstn_app, firstn_all, Nat.sub_diag. cbn. rewrite app_nil_r. reflexivity.
        -- rewrite !app_length in L. cbn in L. lia.
      * rewrite (Hok k) by lia. apply IH; auto; [lia|]. rewrite app_length. cbn. lia.
    + cbn [written]. destruct (Nat.ltb_spec n (length acc)); [lia|reflexivity].
    + cbn [written]. destruct (Nat.ltb_spec n (length acc)); [lia|reflexivity].
Qed.

Lemma lines_loop_never_fails (f : Z -> outcome E str) ok ls : forall k acc,
  (forall i, (k <= i < k + length ls)%nat -> ok i = true) ->
  lines_loop ok f ls k acc = lines_loop (fun _ => true) f ls k acc.
Proof.
  induction ls as [|l ls IH]; intros k acc Hok; [reflexivity|]. cbn [lines_loop]. destruct (f l); auto.
  rewrite Hok by (cbn; lia). apply IH. intros. apply Hok. cbn. lia.
Qed.

(** The same for the functions. *)
Lemma merge_fails m fuel c t items ok n maxWidth sep compact :
  (forall i, (i < n)%nat -> ok i = true) -> ok n = false ->
  let r := merge m fuel c t (fun _ => true) items maxWidth sep compact in
  merge m fuel c t ok items maxWidth sep compact =
  if (n <? length (written r))%nat
  then {| written := firstn n (written r); stop := Panicked WriteFailed |} else r.
Proof.
  intros Hok Hn.
  assert (HE : forall gc gw pos, let r := emitLines c t items sep (fun _ => true) gc gw pos in
    emitLines c t items sep ok gc gw pos =
    if (n <? length (written r))%nat
    then {| written := firstn n (written r); stop := Panicked WriteFailed |} else r).
  { intros. unfold r, emitLines. apply lines_loop_fails; auto. lia. }
  destruct m; unfold merge, MergeRowsHorizontal, MergeRowsVertical;
    (destruct (initialGroupCount t maxWidth sep); [|cbn; destruct n; reflexivity|cbn; destruct n; reflexivity]);
    (destruct compact; [|apply HE]);
    (match goal with |- context[match ?x with Some _ => _ | None => _ end] =>
       destruct x as [[[extra cw]|e|p]|]; [|cbn; destruct n; reflexivity|cbn; destruct n; reflexivity|cbn; destruct n; reflexivity] end);
    destruct (extra >? 0)%Z; apply HE.
Qed.

Lemma merge_always_ok m fuel c t items ok maxWidth sep compact : (forall i, ok i = true) ->
  merge m fuel c t ok items maxWidth sep compact = merge m fuel c t (fun _ => true) items maxWidth sep compact.
Proof.
  intros Hok.
  assert (HE : forall gc gw pos, emitLines c t items sep ok gc gw pos = emitLines c t items sep (fun _ => true) gc gw pos).
  { intros. unfold emitLines. apply lines_loop_ok_ext. auto. }
  destruct m; unfold merge, MergeRowsHorizontal, MergeRowsVertical;
    destruct (initialGroupCount t maxWidth sep); auto;
    (destruct compact; [|apply HE]);
    (match goal with |- context[match ?x with Some _ => _ | None => _ end] => destruct x as [[[extra cw]|e|p]|]; auto end);
    destruct (extra >? 0)%Z; apply HE.
Qed.

End Types.
