(** * LiveAlign: aligning in place while columns are added. *)
From Coq Require Import ZifyBool ZifyNat.
From Verif Require Import GoBase Runewidth Width Table Merge TableContract MergeSpec Calls CallsSpec CallsProofs CallsFinal Live LiveSpec LiveProofs LiveFormat.
Local Open Scope Z_scope.

Section Align.
Context {Item Val E G L : Type}.
Notation lmem := (lmem G L).
Notation event := (event Item Val E G L).
Notation act := (act Item Val E G L).
Notation surroundings := (surroundings Item Val E G L).

Lemma replace_len {A} (l : list A) i x : length (replace l i x) = length l.
Proof. revert i. induction l as [|a l IH]; intros [|i]; cbn; auto. Qed.
Lemma replace_nth {A} (l : list A) i x d j : (i < length l)%nat -> nth j (replace l i x) d = if (j =? i)%nat then x else nth j l d.
Proof.
  revert i j. induction l as [|a l IH]; intros [|i] [|j] Hi; cbn in *; try lia; auto. rewrite IH by lia. reflexivity.
Qed.
Lemma replace_first {A} (l : list A) i x : firstn i (replace l i x) = firstn i l.
Proof. revert i. induction l as [|a l IH]; intros [|i]; cbn; auto. rewrite IH. reflexivity. Qed.
Lemma replace_rest {A} (l : list A) i x : skipn (S i) (replace l i x) = skipn (S i) l.
Proof. revert i. induction l as [|a l IH]; intros [|i]; auto. apply IH. Qed.
Lemma replace_at {A} (l : list A) i x : (i < length l)%nat -> nth_error (replace l i x) i = Some x.
Proof. revert i. induction l as [|a l IH]; intros [|i] Hi; cbn in *; try lia; auto. apply IH. lia. Qed.

Lemma nth_error_all {A} (l l' : list A) : (forall i, nth_error l i = nth_error l' i) -> l = l'.
Proof.
  revert l'. induction l as [|a l IH]; intros [|b l'] K; auto; try (specialize (K 0%nat); discriminate).
  f_equal; [specialize (K 0%nat); injection K as ->; reflexivity|]. apply IH. intros i. exact (K (S i)).
Qed.
Lemma nth_error_first {A} (l : list A) n i : nth_error (firstn n l) i = if (i <? n)%nat then nth_error l i else None.
Proof.
  revert l i. induction n as [|n IH]; intros l i; [destruct i; reflexivity|]. destruct l as [|a l]; [destruct i as [|i]; cbn [firstn nth_error]; [reflexivity|]; destruct (S i <? S n)%nat; reflexivity|].
  destruct i as [|i]; [reflexivity|]. cbn [firstn nth_error]. rewrite IH. reflexivity.
Qed.

(** The slice is within an array there is. *)
Definition There (m : lmem) (f : header) : Prop := (hArr f < length (lRows m))%nat /\ (hLen f <= length (nth (hArr f) (lRows m) []))%nat.
Lemma row_len (m : lmem) f : length (row_in m f) = hLen f.
Proof. unfold row_in. rewrite map_length, seq_length. reflexivity. Qed.
Lemma row_nth (m : lmem) f j : (j < hLen f)%nat -> nth_error (row_in m f) j = Some (nth j (nth (hArr f) (lRows m) []) []).
Proof.
  intros Hj. unfold row_in. rewrite nth_error_map.
  assert (nth_error (seq 0 (hLen f)) j = Some j) as ->; [|reflexivity].
  rewrite (nth_error_nth' _ 0%nat) by (rewrite seq_length; lia). rewrite seq_nth by lia. reflexivity.
Qed.
Lemma row_set (m : lmem) f j s : There m f -> (j < hLen f)%nat -> row_in (set_row m (hArr f) j s) f = replace (row_in m f) j s.
Proof.
  intros [H1 H2] Hj. apply nth_error_all. intros i. destruct (Nat.lt_ge_cases i (hLen f)) as [Hi|Hi].
  - rewrite row_nth by exact Hi. unfold set_row. cbn [lRows]. rewrite replace_nth by exact H1. rewrite Nat.eqb_refl. rewrite replace_nth by lia.
    rewrite (nth_error_nth' (replace (row_in m f) j s) []) by (rewrite replace_len, row_len; lia). rewrite replace_nth by (rewrite row_len; lia).
    destruct (i =? j)%nat; [reflexivity|]. f_equal. symmetry. apply nth_error_nth. apply row_nth. exact Hi.
  - rewrite (proj2 (nth_error_None _ _)) by (rewrite row_len; lia). symmetry. apply nth_error_None. rewrite replace_len, row_len. lia.
Qed.
Lemma there_set (m : lmem) f j s : There m f -> There (set_row m (hArr f) j s) f.
Proof.
  intros [H1 H2]. unfold There, set_row. cbn [lRows]. rewrite replace_len. split; [exact H1|]. rewrite replace_nth by exact H1. rewrite Nat.eqb_refl, replace_len. exact H2.
Qed.
Lemma rows_same (m m' : lmem) f : There m f -> (forall a, (a < length (lRows m))%nat -> nth_error (lRows m') a = nth_error (lRows m) a) -> There m' f /\ row_in m' f = row_in m f.
Proof.
  intros [H1 H2] K. specialize (K (hArr f) H1).
  assert (e : nth (hArr f) (lRows m') [] = nth (hArr f) (lRows m) []).
  { rewrite (nth_error_nth' (lRows m) [] H1) in K. apply nth_error_nth with (d := []) in K. exact K. }
  split.
  - split; [|rewrite e; exact H2]. apply nth_error_Some. rewrite K. apply nth_error_Some. exact H1.
  - unfold row_in. rewrite e. reflexivity.
Qed.

Definition align_end (rest : list (option (kcol G L))) (todo : list str) (tail : list act) (r : outcome (Z * Z) header) : Prop :=
  (rest = [] /\ todo = [] /\ tail = [] /\ exists f, r = Ok f)
  \/ (exists more, rest = None :: more /\ tail = [] /\ r = Panic NilDereference)
  \/ (exists k al s w p more, rest = Some k :: more /\ kAlign k = Some al /\ nth_error todo 0 = Some s /\
       tail = [Looked (kName k) w; Called (CAlign al s w) (Panic p)] /\ r = Panic p).
Lemma align_loop {W} (env : surroundings W) m0 f : OnlyAdds env -> RowsKept env -> hLen f = hLen (lSlice m0) -> forall k j w m w' m' r tr, (j + k = hLen (lSlice m0))%nat ->
  Ext m0 m -> There m f -> lrun env (alignL (lSlice m0) (seq j k) f) w m = (w', m', r, tr) ->
  exists done rest todo tail, skipn j (cols_now m0) = map (fun x => Some (kcCol x)) done ++ rest /\ skipn j (row_in m f) = map kcText done ++ todo /\
    Forall align_ok done /\ acts tr = flat_map align_acts done ++ tail /\ skipn j (row_in m' f) = map kcOut done ++ todo /\ firstn j (row_in m' f) = firstn j (row_in m f) /\
    align_end rest todo tail r.
Proof.
  intros OA RK Hf. induction k as [|k IH]; intros j w m w' m' r tr Hj X T e.
  - cbn in e. injection e as <- <- <- <-. exists [], [], [], []. rewrite !skipn_all2 by (unfold cols_now; rewrite ?cols_len, ?row_len; lia). repeat (split; [auto|]).
    left. eauto.
  - cbn [seq alignL lrun lfield] in e.
    pose proof (skipn_nth _ _ _ (ext_at m0 m j X ltac:(lia))) as Ec. pose proof (skipn_nth _ _ _ (row_nth m f j ltac:(lia))) as Er. rewrite Ec, Er.
    destruct (deref m (ptr m (lSlice m0) j)) as [col|] eqn:D.
    2: { cbn in e. injection e as <- <- <- <-. eexists [], _, _, []. split; [reflexivity|]. split; [reflexivity|]. split; [constructor|]. split; [reflexivity|].
         split; [rewrite Er; reflexivity|]. split; [reflexivity|]. right. left. eauto. }
    destruct (kAlign col) as [al|] eqn:Ea.
    + replace (j <? hLen f)%nat with true in e by (symmetry; apply Nat.ltb_lt; lia). cbn [negb lrun] in e.
      set (txt := nth j (nth (hArr f) (lRows m) []) []) in *. set (v := lWidths m (kName col)) in *.
      destruct (env (CAlign al txt v) w m) as [[w1 m1] o] eqn:Eo.
      assert (RS : There m1 f /\ row_in m1 f = row_in m f).
      { apply rows_same; [exact T|]. intros a Ha. pose proof (proj1 RK al txt v w m a Ha) as R. rewrite Eo in R. exact R. }
      destruct RS as [T1 R1]. pose proof (ext_env env m0 _ w m w1 m1 o OA X Eo) as X1.
      destruct o as [s|[]|p].
      * destruct (lrun env (LStore (hArr f) j s (alignL (lSlice m0) (seq (S j) k) f)) w1 m1) as [[[w2 m2] r2] t2] eqn:K. injection e as <- <- <- <-.
        cbn [lrun] in K. cbv zeta in K. destruct (lrun env (alignL _ _ _) w1 _) as [[[w3 m3] r3] t3] eqn:K2. injection K as <- <- <- <-.
        destruct (IH (S j) _ _ _ _ _ _ ltac:(lia) (ext_row m0 m1 (hArr f) j s X1) (there_set m1 f j s T1) K2) as (done & rest & todo & tail & I1 & I2 & I3 & I4 & I5 & I6 & I7).
        rewrite row_set in I2, I6 by (auto; lia). rewrite R1 in I2, I6. rewrite replace_rest in I2.
        exists ({| kcCol := col; kcText := txt; kcWidth := v; kcOut := s |} :: done), rest, todo, tail.
        split; [cbn [map app kcCol kcText]; f_equal; exact I1|]. split; [cbn [map app kcCol kcText]; f_equal; exact I2|]. split; [constructor; [intros N; cbn in N; congruence|exact I3]|].
        split. { unfold acts in *. cbn [flat_map]. unfold as_acts at 1 2 3. cbn [eAct eAfter as_answer]. rewrite I4. unfold align_acts at 2. cbn [kcCol kcText kcWidth kcOut]. rewrite Ea. reflexivity. }
        assert (Es : nth_error (row_in m3 f) j = Some s).
        { assert (Q : nth_error (firstn (S j) (row_in m3 f)) j = nth_error (firstn (S j) (replace (row_in m f) j s)) j) by (rewrite I6; reflexivity).
          rewrite !nth_error_first in Q. replace (j <? S j)%nat with true in Q by (symmetry; apply Nat.ltb_lt; lia). rewrite Q. apply replace_at. rewrite row_len. lia. }
        split; [rewrite (skipn_nth _ _ _ Es), I5; reflexivity|]. split; [|exact I7].
        assert (Q : firstn j (firstn (S j) (row_in m3 f)) = firstn j (firstn (S j) (replace (row_in m f) j s))) by (rewrite I6; reflexivity).
        rewrite !firstn_firstn in Q. replace (Nat.min j (S j)) with j in Q by lia. rewrite Q. apply replace_first.
      * cbn [lrun] in e. injection e as <- <- <- <-. eexists [], _, _, _. split; [reflexivity|]. split; [reflexivity|]. split; [constructor|]. split; [reflexivity|].
        split; [rewrite R1, Er; reflexivity|]. split; [rewrite R1; reflexivity|]. right. right. exists col, al, txt, v, p. eexists. cbn. auto 10.
    + destruct (IH (S j) _ _ _ _ _ _ ltac:(lia) X T e) as (done & rest & todo & tail & I1 & I2 & I3 & I4 & I5 & I6 & I7).
      set (txt := nth j (nth (hArr f) (lRows m) []) []) in *.
      exists ({| kcCol := col; kcText := txt; kcWidth := 0; kcOut := txt |} :: done), rest, todo, tail.
      split; [cbn [map app kcCol kcText]; f_equal; exact I1|]. split; [cbn [map app kcCol kcText]; f_equal; exact I2|]. split; [constructor; [intros _; reflexivity|exact I3]|].
      split. { rewrite I4. cbn [flat_map]. rewrite (align_none {| kcCol := col; kcText := txt; kcWidth := 0; kcOut := txt |} Ea). reflexivity. }
      assert (Es : nth_error (row_in m' f) j = Some txt).
      { assert (Q : nth_error (firstn (S j) (row_in m' f)) j = nth_error (firstn (S j) (row_in m f)) j) by (rewrite I6; reflexivity).
        rewrite !nth_error_first in Q. replace (j <? S j)%nat with true in Q by (symmetry; apply Nat.ltb_lt; lia). rewrite Q. apply row_nth. lia. }
      split; [rewrite (skipn_nth _ _ _ Es), I5; reflexivity|]. split; [|exact I7].
      assert (Q : firstn j (firstn (S j) (row_in m' f)) = firstn j (firstn (S j) (row_in m f))) by (rewrite I6; reflexivity).
      rewrite !firstn_firstn in Q. replace (Nat.min j (S j)) with j in Q by lia. exact Q.
Qed.
Lemma align_adds {W} (env : surroundings W) f w0 m0 w' m' r tr : OnlyAdds env -> RowsKept env -> Valid m0 ->
  (hArr f < length (lRows m0))%nat -> (hLen f <= length (nth (hArr f) (lRows m0) []))%nat -> hLen f = hLen (lSlice m0) ->
  lrun env (AlignFormattedItemL f) w0 m0 = (w', m', r, tr) ->
  AlignActs (cols_now m0) (row_in m0 f) (acts tr) (row_in m' f)
    (match r with Ok _ => Ok (row_in m' f) | Err e => Err e | Panic p => Panic p end).
Proof.
  intros OA RK V H1 H2 Hf e. cbn [lrun AlignFormattedItemL] in e. rewrite Hf, Nat.eqb_refl in e. cbn [negb] in e.
  destruct (align_loop env m0 f OA RK Hf (hLen (lSlice m0)) 0 w0 m0 w' m' r tr eq_refl (ext_refl m0 V) (conj H1 H2) e)
    as (done & rest & todo & tail & I1 & I2 & I3 & I4 & I5 & I6 & I7).
  exists done, rest, todo, tail. cbn [skipn] in *. repeat (split; [assumption|]).
  destruct I7 as [(-> & -> & -> & g & ->)|[(more & -> & -> & ->)|(k & al & s & v & p & more & -> & Hk & Hs & -> & ->)]].
  - left. auto.
  - right. left. eauto.
  - right. right. exists k, al, s, v, p, more. auto 10.
Qed.
End Align.
