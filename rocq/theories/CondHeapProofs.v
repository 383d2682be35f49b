(** * CondHeapProofs: Conditions in memory behave as values unless a table is shared. *)
From Verif Require Import GoBase Runewidth ConditionSpec RunewidthProofs RuneTheory CondHeap CondHeapSpec.
From Coq Require Import ZifyBool ZifyNat.
Local Open Scope Z_scope.

(** ** Updating lists *)
Lemma update_length {A} (l : list A) i a : length (update l i a) = length l.
Proof. revert i. induction l as [|x l IH]; intros [|i]; cbn; auto. Qed.
Lemma update_eq {A} (l : list A) i a : (i < length l)%nat -> nth_error (update l i a) i = Some a.
Proof. revert i. induction l as [|x l IH]; intros [|i] Hi; cbn in *; [lia|lia|auto|apply IH; lia]. Qed.
Lemma update_neq {A} (l : list A) i j a : i <> j -> nth_error (update l i a) j = nth_error l j.
Proof. revert i j. induction l as [|x l IH]; intros [|i] [|j] Hij; cbn; auto; congruence. Qed.
Lemma update_Forall {A} (P : A -> Prop) l i a : Forall P l -> P a -> Forall P (update l i a).
Proof. intros Hl Ha. revert i. induction Hl as [|x l Hx Hl IH]; intros [|i]; cbn; auto. Qed.
Lemma nth_error_lt {A} (l : list A) i a : nth_error l i = Some a -> (i < length l)%nat.
Proof. intros K. apply nth_error_Some. congruence. Qed.

(** ** The entries of a table *)
Lemma lut_entries_length ea st n : length (lut_entries ea st n) = n.
Proof. unfold lut_entries. rewrite map_length, seq_length. reflexivity. Qed.
Lemma CreateLUT_entries c : combinedLut c = [] \/ length (combinedLut c) = FullLut ->
  CreateLUT c = {| combinedLut := lut_entries (EastAsianWidth c) (StrictEmojiNeutral c) FullLut;
                   EastAsianWidth := EastAsianWidth c; StrictEmojiNeutral := StrictEmojiNeutral c |}.
Proof.
  intros Hc. unfold CreateLUT, lut_entries. cbv zeta. f_equal. f_equal. f_equal.
  destruct Hc as [Hc|Hc]; [rewrite Hc; reflexivity|]. rewrite Hc. unfold slen. rewrite Hc. destruct (_ =? 0); reflexivity.
Qed.
Lemma lut_entries_CreateLUT ea st : lut_entries ea st FullLut = combinedLut (CreateLUT (plainCondition ea st)).
Proof. rewrite (CreateLUT_entries (plainCondition ea st) (or_introl eq_refl)). cbn [combinedLut EastAsianWidth StrictEmojiNeutral plainCondition]. reflexivity. Qed.
Local Opaque FullLut lut_entries.
Lemma FullLut_pos : FullLut <> 0%nat.
Proof. pose proof FullLut_Z as K. intros E. rewrite E in K. discriminate. Qed.

(** ** Invariant *)
Definition array_ok (a : list Z) : Prop := exists ea st, a = lut_entries ea st FullLut.
Definition cond_ok (h : heap) (k : hcond) : Prop :=
  sLen (hLut k) = 0%nat \/ sLen (hLut k) = FullLut /\ (sArr (hLut k) < length (arrays h))%nat.
Definition heap_ok (h : heap) : Prop := Forall array_ok (arrays h) /\ Forall (cond_ok h) (conds h).

Lemma cond_ok_more h h' k : (length (arrays h) <= length (arrays h'))%nat -> cond_ok h k -> cond_ok h' k.
Proof. intros Hl [K|[K1 K2]]; [left; auto|right; split; [auto|lia]]. Qed.

Lemma value_ok h k : heap_ok h -> cond_ok h k ->
  combinedLut (value_of h k) = [] /\ sLen (hLut k) = 0%nat
  \/ exists ea st, sLen (hLut k) = FullLut /\ nth_error (arrays h) (sArr (hLut k)) = Some (lut_entries ea st FullLut)
       /\ combinedLut (value_of h k) = lut_entries ea st FullLut.
Proof.
  intros [Ha _] [K|[K1 K2]].
  - left. unfold value_of. cbn [combinedLut]. rewrite K. auto.
  - right. destruct (nth_error (arrays h) (sArr (hLut k))) as [a|] eqn:E; [|apply nth_error_None in E; lia].
    pose proof (proj1 (Forall_forall _ _) Ha a (nth_error_In _ _ E)) as (ea & st & ->). exists ea, st. split; [auto|]. split; [reflexivity|].
    unfold value_of. cbn [combinedLut]. rewrite (nth_error_nth _ _ _ E), K1.
    rewrite <- (lut_entries_length ea st FullLut) at 1. apply firstn_all.
Qed.

Lemma value_reachable h k : heap_ok h -> cond_ok h k -> Reachable (value_of h k).
Proof.
  intros Hh Hk. destruct (value_ok h k Hh Hk) as [[K _]|(ea & st & _ & _ & K)]; unfold value_of in *; cbn [combinedLut] in K; rewrite K.
  - apply r_fresh.
  - rewrite lut_entries_CreateLUT. apply (r_flags (CreateLUT (plainCondition ea st))). apply r_lut, r_fresh.
Qed.

Lemma value_lut h k : heap_ok h -> cond_ok h k -> combinedLut (value_of h k) = [] \/ length (combinedLut (value_of h k)) = FullLut.
Proof. intros Hh Hk. apply Reachable_lut, value_reachable; auto. Qed.

(** What CreateLUT does, in the two cases. *)
Lemma createLUT_cases h i k : heap_ok h -> nth_error (conds h) i = Some k ->
  (sLen (hLut k) = 0%nat
   /\ createLUT h i = {| arrays := arrays h ++ [lut_entries (hEA k) (hStrict k) FullLut];
         conds := update (conds h) i {| hLut := {| sArr := length (arrays h); sLen := FullLut |}; hEA := hEA k; hStrict := hStrict k |} |})
  \/ (sLen (hLut k) = FullLut /\ (sArr (hLut k) < length (arrays h))%nat
   /\ createLUT h i = {| arrays := update (arrays h) (sArr (hLut k)) (lut_entries (hEA k) (hStrict k) FullLut); conds := conds h |}).
Proof.
  intros Hh Hi. pose proof (proj1 (Forall_forall _ _) (proj2 Hh) k (nth_error_In _ _ Hi)) as Hk.
  unfold createLUT. rewrite Hi. destruct (value_ok h k Hh Hk) as [[_ K]|(ea & st & K & E & _)].
  - left. split; [auto|]. rewrite K. reflexivity.
  - right. pose proof (nth_error_lt _ _ _ E). split; [auto|]. split; [auto|]. rewrite K.
    destruct (Nat.eqb_spec FullLut 0) as [N|_]; [destruct (FullLut_pos N)|].
    rewrite (nth_error_nth _ _ _ E), skipn_all2 by (rewrite lut_entries_length; apply Nat.le_refl).
    rewrite app_nil_r. reflexivity.
Qed.

Lemma set_cond_ok h i k : heap_ok h -> cond_ok h k -> heap_ok (set_cond h i k).
Proof. intros [Ha Hc] Hk. split; [exact Ha|]. apply update_Forall; auto. Qed.

Lemma createLUT_ok h i : heap_ok h -> heap_ok (createLUT h i).
Proof.
  intros Hh. destruct (nth_error (conds h) i) as [k|] eqn:Hi; [|unfold createLUT; rewrite Hi; exact Hh].
  destruct (createLUT_cases h i k Hh Hi) as [(_ & ->)|(_ & _ & ->)]; destruct Hh as [Ha Hc]; split; cbn [arrays conds].
  - apply Forall_app. split; auto. constructor; [eexists _, _; reflexivity|constructor].
  - apply update_Forall.
    + eapply Forall_impl; [|exact Hc]. intros x. apply cond_ok_more. cbn [arrays]. rewrite app_length. cbn [length]. apply Nat.le_add_r.
    + right. cbn [hLut sLen sArr arrays]. split; [reflexivity|]. rewrite app_length. cbn [length]. rewrite Nat.add_1_r. apply Nat.lt_succ_diag_r.
  - apply update_Forall; auto. eexists _, _. reflexivity.
  - eapply Forall_impl; [|exact Hc]. intros x. apply cond_ok_more. cbn [arrays]. rewrite update_length. apply Nat.le_refl.
Qed.

Lemma hstep_ok h o : heap_ok h -> heap_ok (hstep h o).
Proof.
  intros Hh. assert (Hk : forall i k, nth_error (conds h) i = Some k -> cond_ok h k).
  { intros i k Hi. exact (proj1 (Forall_forall _ _) (proj2 Hh) k (nth_error_In _ _ Hi)). }
  destruct o as [ea st|i|i j|i ea st|i|i env loc]; cbn [hstep].
  - destruct Hh as [Ha Hc]. split; [exact Ha|]. cbn [conds]. apply Forall_app. split; auto. constructor; [left; reflexivity|constructor].
  - destruct (nth_error (conds h) i) as [k|] eqn:Hi; [|exact Hh]. destruct Hh as [Ha Hc]. split; [exact Ha|]. cbn [conds].
    apply Forall_app. split; auto. constructor; [eapply Hk; eauto|constructor].
  - destruct (nth_error (conds h) j) as [k|] eqn:Hi; [|exact Hh]. apply set_cond_ok; auto. eapply Hk; eauto.
  - destruct (nth_error (conds h) i) as [k|] eqn:Hi; [|exact Hh]. apply set_cond_ok; auto. exact (Hk i k Hi).
  - apply createLUT_ok, Hh.
  - destruct (nth_error (conds h) i) as [k|] eqn:Hi; [|exact Hh]. destruct (negb _); [|exact Hh].
    destruct (0 <? sLen (hLut k))%nat.
    + apply createLUT_ok, set_cond_ok; auto. left. reflexivity.
    + apply set_cond_ok; auto. exact (Hk i k Hi).
Qed.

Lemma hrun_ok ops : heap_ok (hrun ops).
Proof.
  unfold hrun. assert (K : forall h, heap_ok h -> heap_ok (fold_left hstep ops h)).
  { induction ops as [|o ops IH]; intros h Hh; cbn [fold_left]; [exact Hh|]. apply IH, hstep_ok, Hh. }
  apply K. split; constructor.
Qed.

Lemma hrun_snoc ops o : hrun (ops ++ [o]) = hstep (hrun ops) o.
Proof. unfold hrun. rewrite fold_left_app. reflexivity. Qed.

Lemma heap_reachable ops i c : seen (hrun ops) i = Some c -> Reachable c.
Proof.
  unfold seen. destruct (nth_error (conds (hrun ops)) i) as [k|] eqn:Hi; [|discriminate]. cbn [option_map]. intros K. injection K as <-.
  apply value_reachable; [apply hrun_ok|]. exact (proj1 (Forall_forall _ _) (proj2 (hrun_ok ops)) k (nth_error_In _ _ Hi)).
Qed.

(** ** Frames *)
Lemma value_app h k x cs : cond_ok h k -> value_of {| arrays := arrays h ++ [x]; conds := cs |} k = value_of h k.
Proof.
  intros [K|[_ K]]; unfold value_of; cbn [arrays]; [rewrite K; reflexivity|]. rewrite app_nth1 by exact K. reflexivity.
Qed.

Lemma value_update h k a x cs : cond_ok h k -> (sLen (hLut k) <> 0%nat -> sArr (hLut k) <> a) ->
  value_of {| arrays := update (arrays h) a x; conds := cs |} k = value_of h k.
Proof.
  intros [K|[K K2]] Hn; unfold value_of; cbn [arrays]; [rewrite K; reflexivity|].
  assert (E : nth (sArr (hLut k)) (update (arrays h) a x) [] = nth (sArr (hLut k)) (arrays h) []).
  { rewrite <- !nth_default_eq. unfold nth_default. rewrite update_neq; [reflexivity|].
    intros E0. apply Hn; [rewrite K; exact FullLut_pos|symmetry; exact E0]. }
  rewrite E. reflexivity.
Qed.

Lemma seen_set_cond h i j k : i <> j -> seen (set_cond h i k) j = seen h j.
Proof. intros Hij. unfold seen, set_cond. cbn [conds]. rewrite update_neq by auto. reflexivity. Qed.

Lemma seen_snoc h k j : (j < length (conds h))%nat -> seen {| arrays := arrays h; conds := conds h ++ [k] |} j = seen h j.
Proof. intros Hj. unfold seen. cbn [conds]. rewrite nth_error_app1 by exact Hj. reflexivity. Qed.

Lemma seen_lt h j c : seen h j = Some c -> (j < length (conds h))%nat.
Proof. unfold seen. intros K. apply nth_error_Some. intros E. rewrite E in K. discriminate. Qed.

Lemma createLUT_frame h i j : heap_ok h -> i <> j -> ~ Shares h i j -> seen (createLUT h i) j = seen h j.
Proof.
  intros Hh Hij Hs. destruct (nth_error (conds h) i) as [k|] eqn:Hi; [|unfold createLUT; rewrite Hi; reflexivity].
  assert (Hk : forall j k, nth_error (conds h) j = Some k -> cond_ok h k).
  { intros j0 k0 Hj0. exact (proj1 (Forall_forall _ _) (proj2 Hh) k0 (nth_error_In _ _ Hj0)). }
  destruct (createLUT_cases h i k Hh Hi) as [(K & ->)|(K & Ka & ->)]; unfold seen; cbn [conds].
  - rewrite update_neq by auto. destruct (nth_error (conds h) j) as [k'|] eqn:Hj; [|reflexivity]. cbn [option_map]. f_equal.
    apply value_app. exact (Hk j k' Hj).
  - destruct (nth_error (conds h) j) as [k'|] eqn:Hj; [|reflexivity]. cbn [option_map]. f_equal.
    apply value_update; [exact (Hk j k' Hj)|]. intros Hn Ha. apply Hs. exists k, k'. repeat split; auto.
    rewrite K. exact FullLut_pos.
Qed.

Lemma frame ops o j c : seen (hrun ops) j = Some c -> target o <> Some j ->
  (forall i, o = HLUT i -> ~ Shares (hrun ops) i j) -> seen (hrun (ops ++ [o])) j = Some c.
Proof.
  intros Hj Ht Hs. rewrite hrun_snoc. rewrite <- Hj. pose proof (hrun_ok ops) as Hh. revert Hh Hj Hs. generalize (hrun ops) as h. intros h Hh Hj Hs.
  pose proof (seen_lt h j c Hj) as Hlt.
  destruct o as [ea st|i|i i'|i ea st|i|i env loc]; cbn [hstep target] in *.
  - apply seen_snoc, Hlt.
  - destruct (nth_error (conds h) i); [apply seen_snoc, Hlt|reflexivity].
  - destruct (nth_error (conds h) i'); [apply seen_set_cond; congruence|reflexivity].
  - destruct (nth_error (conds h) i); [apply seen_set_cond; congruence|reflexivity].
  - apply createLUT_frame; auto; congruence.
  - destruct (nth_error (conds h) i) as [k|] eqn:Hi; [|reflexivity]. destruct (negb _); [|reflexivity].
    assert (Hij : i <> j) by congruence. destruct (0 <? sLen (hLut k))%nat; [|apply seen_set_cond; exact Hij].
    set (k0 := {| hLut := _; hEA := _; hStrict := _ |}).
    rewrite createLUT_frame; [apply seen_set_cond; exact Hij| |exact Hij|].
    + apply set_cond_ok; [exact Hh|left; reflexivity].
    + intros (a & b & Ea & _ & Na & _). cbn [set_cond conds] in Ea. rewrite update_eq in Ea by (eapply nth_error_lt; eauto).
      injection Ea as <-. apply Na. reflexivity.
Qed.

Lemma shared_table ops i j ci : Shares (hrun ops) i j -> seen (hrun ops) i = Some ci ->
  exists cj, seen (hrun (ops ++ [HLUT i])) j = Some cj
    /\ forall r, RuneWidth cj r = RuneWidth (plainCondition (EastAsianWidth ci) (StrictEmojiNeutral ci)) r.
Proof.
  intros (a & b & Ea & Eb & Na & Nb & Eab) Hi. rewrite hrun_snoc. pose proof (hrun_ok ops) as Hh. revert Hh Ea Eb Hi. generalize (hrun ops) as h. intros h Hh Ea Eb Hi.
  cbn [hstep]. destruct (createLUT_cases h i a Hh Ea) as [(K & _)|(K & Ka & ->)]; [congruence|].
  unfold seen in *. cbn [conds]. rewrite Ea in Hi. injection Hi as <-. rewrite Eb. cbn [option_map]. eexists. split; [reflexivity|].
  intros r. pose proof (proj1 (Forall_forall _ _) (proj2 Hh) b (nth_error_In _ _ Eb)) as [Kb|[Kb Kb2]]; [congruence|].
  change (EastAsianWidth (value_of h a)) with (hEA a). change (StrictEmojiNeutral (value_of h a)) with (hStrict a).
  pose proof (CreateLUT_transparent (plainCondition (hEA a) (hStrict a)) r (r_fresh _ _)) as T.
  cbn [plainCondition EastAsianWidth StrictEmojiNeutral] in T. fold (plainCondition (hEA a) (hStrict a)) in T. rewrite <- T. clear T.
  unfold RuneWidth, value_of. cbn [combinedLut arrays EastAsianWidth StrictEmojiNeutral].
  rewrite <- Eab. rewrite (nth_error_nth _ _ _ (update_eq _ _ _ Ka)).
  assert (F : firstn (sLen (hLut b)) (lut_entries (hEA a) (hStrict a) FullLut) = combinedLut (CreateLUT (plainCondition (hEA a) (hStrict a)))).
  { rewrite Kb. rewrite <- (lut_entries_length (hEA a) (hStrict a) FullLut) at 1. rewrite firstn_all. apply lut_entries_CreateLUT. }
  rewrite F.
  destruct (_ || _); [reflexivity|].
  assert (P : 0 <? slen (combinedLut (CreateLUT (plainCondition (hEA a) (hStrict a)))) = true).
  { unfold slen. rewrite <- lut_entries_CreateLUT, lut_entries_length. pose proof FullLut_Z. apply Z.ltb_lt. rewrite H. reflexivity. }
  rewrite P. reflexivity.
Qed.

(** ** Without copies nothing is shared *)
Definition unshared (h : heap) : Prop := forall i j, i <> j -> ~ Shares h i j.

Lemma unshared_le h h' i k : unshared h -> heap_ok h -> conds h' = update (conds h) i k ->
  (forall a, nth_error (conds h) i = Some a -> sLen (hLut k) <> 0%nat ->
     sLen (hLut a) <> 0%nat /\ sArr (hLut k) = sArr (hLut a) \/ sArr (hLut k) = length (arrays h)) -> unshared h'.
Proof.
  intros Hu Hh Ec Hk x y Hxy (a & b & Ex & Ey & Na & Nb & Eab). rewrite Ec in Ex, Ey.
  assert (Hfresh : forall z c, nth_error (conds h) z = Some c -> sLen (hLut c) <> 0%nat -> sArr (hLut c) <> length (arrays h)).
  { intros z c Hz Hn. pose proof (proj1 (Forall_forall _ _) (proj2 Hh) c (nth_error_In _ _ Hz)) as [K|[_ K]]; [congruence|]. intros E. rewrite E in K. exact (Nat.lt_irrefl _ K). }
  destruct (Nat.eq_dec i x) as [<-|Nx], (Nat.eq_dec i y) as [<-|Ny].
  - congruence.
  - rewrite (update_neq _ i y _ Ny) in Ey. pose proof (nth_error_lt _ _ _ Ex) as Hlt. rewrite update_length in Hlt. rewrite update_eq in Ex by exact Hlt.
    injection Ex as <-. destruct (nth_error (conds h) i) as [a0|] eqn:E0; [|apply nth_error_None in E0; lia].
    destruct (Hk a0 eq_refl Na) as [[N0 E1]|E1].
    + apply (Hu i y Hxy). exists a0, b. repeat split; auto. congruence.
    + apply (Hfresh y b Ey Nb). congruence.
  - rewrite (update_neq _ i x _ Nx) in Ex. pose proof (nth_error_lt _ _ _ Ey) as Hlt. rewrite update_length in Hlt. rewrite update_eq in Ey by exact Hlt.
    injection Ey as <-. destruct (nth_error (conds h) i) as [a0|] eqn:E0; [|apply nth_error_None in E0; lia].
    destruct (Hk a0 eq_refl Nb) as [[N0 E1]|E1].
    + apply (Hu x i Hxy). exists a, a0. repeat split; auto. congruence.
    + apply (Hfresh x a Ex Na). congruence.
  - rewrite (update_neq _ i x _ Nx) in Ex. rewrite (update_neq _ i y _ Ny) in Ey. apply (Hu x y Hxy). exists a, b. auto.
Qed.

Lemma unshared_createLUT h i : heap_ok h -> unshared h -> unshared (createLUT h i).
Proof.
  intros Hh Hu. destruct (nth_error (conds h) i) as [k|] eqn:Hi; [|unfold createLUT; rewrite Hi; exact Hu].
  destruct (createLUT_cases h i k Hh Hi) as [(K & ->)|(K & Ka & ->)].
  - eapply unshared_le; [exact Hu|exact Hh|reflexivity|]. intros a _ _. right. reflexivity.
  - intros x y Hxy (a & b & Ex & Ey & R). apply (Hu x y Hxy). exists a, b. auto.
Qed.

Lemma unshared_step h o : heap_ok h -> unshared h -> copies o = false -> unshared (hstep h o).
Proof.
  intros Hh Hu Ho. destruct o as [ea st|i|i j|i ea st|i|i env loc]; cbn [hstep] in *; try discriminate.
  - intros x y Hxy (a & b & Ex & Ey & Na & Nb & Eab). cbn [conds] in Ex, Ey.
    assert (Hl : forall z c, nth_error (conds h ++ [{| hLut := {| sArr := 0; sLen := 0 |}; hEA := ea; hStrict := st |}]) z = Some c ->
      sLen (hLut c) <> 0%nat -> nth_error (conds h) z = Some c).
    { intros z c Hz Hn. destruct (Nat.lt_ge_cases z (length (conds h))) as [L|L]; [rewrite nth_error_app1 in Hz; auto|].
      rewrite nth_error_app2 in Hz by exact L. destruct (z - length (conds h))%nat as [|q]; cbn in Hz; [injection Hz as <-; destruct (Hn eq_refl)|destruct q; discriminate]. }
    apply (Hu x y Hxy). exists a, b. repeat split; auto.
  - destruct (nth_error (conds h) i) as [k|] eqn:Hi; [|exact Hu]. eapply unshared_le; [exact Hu|exact Hh|reflexivity|].
    intros a Ha Hn. rewrite Hi in Ha. injection Ha as <-. left. auto.
  - apply unshared_createLUT; auto.
  - destruct (nth_error (conds h) i) as [k|] eqn:Hi; [|exact Hu]. destruct (negb _); [|exact Hu]. destruct (0 <? sLen (hLut k))%nat.
    + apply unshared_createLUT; [apply set_cond_ok; [exact Hh|left; reflexivity]|].
      eapply unshared_le; [exact Hu|exact Hh|reflexivity|]. intros a _ Hn. destruct (Hn eq_refl).
    + eapply unshared_le; [exact Hu|exact Hh|reflexivity|]. intros a Ha Hn. rewrite Hi in Ha. injection Ha as <-. left. auto.
Qed.

Lemma unshared_run ops : Forall (fun o => copies o = false) ops -> unshared (hrun ops).
Proof.
  induction ops as [|o ops IH] using rev_ind; intros Hc.
  - intros x y _ (a & b & Ex & _). destruct x; discriminate.
  - apply Forall_app in Hc. destruct Hc as [Hc Ho]. inversion Ho; subst. rewrite hrun_snoc. apply unshared_step; auto. apply hrun_ok.
Qed.

(** An operation on the condition itself is the operation on the value. *)
Lemma own_step h o i c : heap_ok h -> copies o = false -> aimed_at i o = true -> seen h i = Some c ->
  seen (hstep h o) i = Some (value_step c o).
Proof.
  intros Hh Ho Ha Hc. unfold seen in Hc. destruct (nth_error (conds h) i) as [k|] eqn:Hi; [|discriminate]. injection Hc as <-.
  pose proof (nth_error_lt _ _ _ Hi) as Hlt. pose proof (proj1 (Forall_forall _ _) (proj2 Hh) k (nth_error_In _ _ Hi)) as Hk.
  assert (LUT : forall h k, heap_ok h -> nth_error (conds h) i = Some k -> seen (createLUT h i) i = Some (CreateLUT (value_of h k))).
  { clear. intros h k Hh Hi. pose proof (nth_error_lt _ _ _ Hi) as Hlt. pose proof (proj1 (Forall_forall _ _) (proj2 Hh) k (nth_error_In _ _ Hi)) as Hk.
    rewrite CreateLUT_entries by (apply value_lut; auto).
    destruct (createLUT_cases h i k Hh Hi) as [(K & ->)|(K & Ka & ->)]; unfold seen; cbn [conds].
    - rewrite update_eq by exact Hlt. cbn [option_map]. unfold value_of. cbn [arrays hLut sArr sLen hEA hStrict EastAsianWidth StrictEmojiNeutral].
      rewrite app_nth2, Nat.sub_diag by apply Nat.le_refl. cbn [nth].
      rewrite <- (lut_entries_length (hEA k) (hStrict k) FullLut) at 1. rewrite firstn_all. reflexivity.
    - rewrite Hi. cbn [option_map]. unfold value_of. cbn [arrays EastAsianWidth StrictEmojiNeutral].
      rewrite (nth_error_nth _ _ _ (update_eq _ _ _ Ka)), K.
      rewrite <- (lut_entries_length (hEA k) (hStrict k) FullLut) at 1. rewrite firstn_all. reflexivity. }
  unfold aimed_at in Ha. destruct o as [ea st|i0|i0 j|i0 ea st|i0|i0 env loc]; cbn [target copies] in *; try discriminate;
    apply Nat.eqb_eq in Ha; subst i0; cbn [hstep value_step]; try rewrite Hi.
  - unfold seen, set_cond. cbn [conds]. rewrite update_eq by exact Hlt. reflexivity.
  - apply LUT; auto.
  - unfold handleEnv. cbn [DefaultCondition EastAsianWidth value_of].
    set (ea := match env with [] => loc | _ => str_eqb env [x31] end).
    destruct (negb (Bool.eqb (hEA k) ea)); cbn [DefaultCondition]; [|unfold seen; rewrite Hi; reflexivity].
    destruct (value_ok h k Hh Hk) as [[E K]|(ea' & st' & K & _ & E)]; unfold value_of in E; cbn [combinedLut] in E.
    + rewrite K in *. change (0 <? 0)%nat with false. cbv iota. cbn [combinedLut value_of]. cbn [firstn]. cbn [DefaultCondition].
      unfold seen, set_cond. cbn [conds]. rewrite update_eq by exact Hlt. cbn [option_map]. unfold value_of. cbn [hLut hEA hStrict arrays]. rewrite K. reflexivity.
    + rewrite K in E. assert (P : (0 <? FullLut)%nat = true) by (apply Nat.ltb_lt; pose proof FullLut_pos; destruct FullLut; [congruence|apply Nat.lt_0_succ]).
      cbn [combinedLut value_of]. rewrite K, P, E.
      assert (P2 : 0 <? slen (lut_entries ea' st' FullLut) = true).
      { unfold slen. rewrite lut_entries_length. apply Z.ltb_lt. rewrite FullLut_Z. reflexivity. }
      rewrite P2. unfold CreateLUT_default. cbn [DefaultCondition combinedLut]. change (0 <? slen []) with false. cbv iota. cbn [DefaultCondition].
      set (k0 := {| hLut := {| sArr := sArr (hLut k); sLen := 0 |}; hEA := ea; hStrict := hStrict k |}).
      rewrite (LUT (set_cond h i k0) k0); [reflexivity| |cbn [set_cond conds]; apply update_eq; exact Hlt].
      apply set_cond_ok; [exact Hh|left; reflexivity].
Qed.

Lemma independent pre ea st post : Forall (fun o => copies o = false) (pre ++ HNew ea st :: post) ->
  seen (hrun (pre ++ HNew ea st :: post)) (length (conds (hrun pre)))
  = Some (fold_left value_step (filter (aimed_at (length (conds (hrun pre)))) post) (plainCondition ea st)).
Proof.
  set (i := length (conds (hrun pre))). induction post as [|o post IH] using rev_ind; intros Hc.
  - rewrite hrun_snoc. unfold seen. cbn [hstep conds]. rewrite nth_error_app2 by apply Nat.le_refl. fold i. rewrite Nat.sub_diag. reflexivity.
  - rewrite app_comm_cons, app_assoc in Hc. apply Forall_app in Hc. destruct Hc as [Hc Ho]. inversion Ho as [|? ? Ho' _]; subst. specialize (IH Hc).
    rewrite app_comm_cons, app_assoc. rewrite filter_app, fold_left_app. cbn [filter]. destruct (aimed_at i o) eqn:Ea.
    + cbn [fold_left]. rewrite hrun_snoc. apply own_step; auto. apply hrun_ok.
    + cbn [fold_left]. apply frame; [exact IH| |].
      * intros Et. unfold aimed_at in Ea. rewrite Et, Nat.eqb_refl in Ea. discriminate.
      * intros j ->. apply (unshared_run _ Hc). intros ->. unfold aimed_at in Ea. cbn [target] in Ea. rewrite Nat.eqb_refl in Ea. discriminate.
Qed.

(** ** With a copy, rebuilding one table changes the other condition *)
Lemma copy_refuted : exists ops i c c', seen (hrun ops) i = Some c
  /\ exists j, j <> i /\ seen (hrun (ops ++ [HLUT j])) i = Some c' /\ RuneWidth c 0xA1 = 1 /\ RuneWidth c' 0xA1 = 2.
Proof.
  set (ops := [HNew false true; HLUT 0; HCopy 0; HFlags 1 true true]).
  assert (Hc : Forall (fun o => copies o = false) [HNew false true; HLUT 0]) by (repeat constructor).
  pose proof (independent [] false true [HLUT 0] Hc) as E0. cbn [hrun fold_left conds length filter aimed_at target Nat.eqb value_step app] in E0.
  assert (E1 : seen (hrun [HNew false true; HLUT 0; HCopy 0]) 0 = Some (CreateLUT (plainCondition false true))).
  { apply (frame [HNew false true; HLUT 0] (HCopy 0)); [exact E0|discriminate|discriminate]. }
  assert (E2 : seen (hrun ops) 0 = Some (CreateLUT (plainCondition false true))).
  { apply (frame [HNew false true; HLUT 0; HCopy 0] (HFlags 1 true true)); [exact E1|discriminate|discriminate]. }
  assert (N : Z.to_nat (0x110000 / 2) <> 0%nat) by (exact FullLut_pos).
  assert (S : Shares (hrun ops) 1 0).
  { unfold ops, hrun. cbn [fold_left]. cbn [hstep createLUT conds arrays app nth_error hLut sLen sArr Nat.eqb update hEA hStrict set_cond length].
    eexists _, _. split; [reflexivity|]. split; [reflexivity|]. cbn [hLut sLen sArr]. split; [exact N|]. split; [exact N|reflexivity]. }
  assert (E3 : exists c1, seen (hrun ops) 1 = Some c1 /\ EastAsianWidth c1 = true /\ StrictEmojiNeutral c1 = true).
  { eexists. split; [unfold ops, hrun; cbn [fold_left]; cbn [hstep createLUT conds arrays app nth_error hLut sLen sArr Nat.eqb update hEA hStrict set_cond length]; reflexivity|].
    split; reflexivity. }
  destruct E3 as (c1 & E3 & F1 & F2). destruct (shared_table ops 1 0 c1 S E3) as (cj & Ej & Hj).
  exists ops, 0%nat, (CreateLUT (plainCondition false true)), cj. split; [exact E2|]. exists 1%nat. split; [discriminate|]. split; [exact Ej|].
  rewrite CreateLUT_transparent by apply r_fresh. rewrite Hj, F1, F2. split; vm_compute; reflexivity.
Qed.
