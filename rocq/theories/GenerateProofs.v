(** * GenerateProofs: generated tables mean what the data lines say. *)
From Coq Require Import Permutation.
From Verif Require Import GoBase IntervalSpec Uniseg Runewidth RuneWidthData TableProofs Generate GenerateSpec.
From Coq Require Import ZifyBool ZifyNat.
Local Open Scope Z_scope.

(** ** shapeup *)
Fixpoint coalesce (cur : Z * Z) (l : list (Z * Z)) : list (Z * Z) :=
  match l with
  | [] => [cur]
  | (a, b) :: rest => if snd cur + 1 =? a then coalesce (fst cur, b) rest else cur :: coalesce (a, b) rest
  end.

Lemma shapeup_loop_eq fuel : forall pre cur l, (length l < fuel)%nat ->
  shapeup_loop fuel (length pre) (pre ++ cur :: l) = pre ++ coalesce cur l.
Proof.
  induction fuel as [|f IH]; intros pre [lo hi] l Hf; [lia|]. cbn [shapeup_loop].
  rewrite !nth_error_app2, Nat.sub_diag by lia.
  replace (S (length pre) - length pre)%nat with 1%nat by lia. destruct l as [|[lo' hi'] l]; cbn [nth_error coalesce fst snd]; [reflexivity|].
  destruct (hi + 1 =? lo') eqn:E.
  - rewrite firstn_app, firstn_all, Nat.sub_diag. cbn [firstn]. rewrite app_nil_r, skipn_app, skipn_all2 by lia.
    replace (S (S (length pre)) - length pre)%nat with 2%nat by lia. cbn [skipn app]. apply IH. cbn in Hf. lia.
  - replace (pre ++ (lo, hi) :: (lo', hi') :: l) with ((pre ++ [(lo, hi)]) ++ (lo', hi') :: l) by (rewrite <- app_assoc; reflexivity).
    replace (S (length pre)) with (length (pre ++ [(lo, hi)])) by (rewrite app_length; cbn; lia).
    rewrite IH by (cbn in Hf; lia). rewrite <- app_assoc. reflexivity.
Qed.
Lemma shapeup_eq t : shapeup t = match t with [] => [] | c :: l => coalesce c l end.
Proof. unfold shapeup. destruct t as [|c l]; [reflexivity|]. exact (shapeup_loop_eq (S (length l)) [] c l (Nat.lt_succ_diag_r _)). Qed.

Definition NonEmpty (t : list (Z * Z)) : Prop := Forall (fun e => fst e <= snd e) t.
Lemma Member_cons r a b t : Member r ((a, b) :: t) <-> a <= r <= b \/ Member r t.
Proof.
  unfold Member. split.
  - intros (x & y & [E|I] & H); [injection E as -> ->; auto|right; eauto].
  - intros [H|(x & y & I & H)]; [exists a, b; split; [left; reflexivity|exact H]|exists x, y; split; [right; exact I|exact H]].
Qed.
Lemma Member_nil r : ~ Member r [].
Proof. intros (x & y & [] & _). Qed.
Lemma coalesce_member r l : forall cur, fst cur <= snd cur -> NonEmpty l -> (Member r (coalesce cur l) <-> Member r (cur :: l)).
Proof.
  induction l as [|[a b] l IH]; intros [lo hi] Hc Hl; cbn [coalesce fst snd]; [tauto|]. inversion Hl; subst. cbn [fst snd] in *.
  destruct (hi + 1 =? a) eqn:E.
  - rewrite IH by (cbn; first [lia|assumption]). rewrite !Member_cons. assert (lo <= r <= b <-> lo <= r <= hi \/ a <= r <= b) by lia. tauto.
  - rewrite !Member_cons, IH by assumption. rewrite Member_cons. tauto.
Qed.
Lemma shapeup_member t r : NonEmpty t -> (Member r (shapeup t) <-> Member r t).
Proof. rewrite shapeup_eq. destruct t as [|c l]; [tauto|]. intros H. inversion H; subst. apply coalesce_member; assumption. Qed.

Lemma coalesce_head l : forall cur, exists h rest, coalesce cur l = (fst cur, h) :: rest /\ (fst cur <= snd cur -> Sorted (cur :: l) -> snd cur <= h).
Proof.
  induction l as [|[a b] l IH]; intros [lo hi]; cbn [coalesce fst snd]; [exists hi, []; split; [reflexivity|lia]|].
  destruct (hi + 1 =? a) eqn:E; [|exists hi, (coalesce (a, b) l); split; [reflexivity|lia]].
  destruct (IH (lo, b)) as (h & rest & K & Q). cbn [fst snd] in *. exists h, rest. split; [exact K|]. intros H1 H2.
  cbn [Sorted] in H2. destruct H2 as (_ & H2 & H3 & H4 & H5). assert (b <= h); [|lia]. apply Q; [lia|]. cbn [Sorted]. split; [lia|]. split; [exact H4|exact H5].
Qed.
Lemma coalesce_compact l : forall cur, Sorted (cur :: l) -> Compact (coalesce cur l).
Proof.
  induction l as [|[a b] l IH]; intros [lo hi] H; cbn [coalesce fst snd].
  - cbn in *. tauto.
  - pose proof H as (H1 & H2 & H3). cbn [fst snd] in *. destruct (hi + 1 =? a) eqn:E.
    + apply IH. destruct H3 as (H3 & H4 & H5). cbn [Sorted]. split; [lia|]. auto.
    + cbn [Compact]. split; [exact H1|]. split; [|apply IH; exact H3].
      destruct (coalesce_head l (a, b)) as (h & rest & K & _). rewrite K. cbn [fst]. lia.
Qed.
Lemma shapeup_compact t : Sorted t -> Compact (shapeup t).
Proof. rewrite shapeup_eq. destruct t as [|c l]; [exact (fun x => x)|]. apply coalesce_compact. Qed.

(** Compact tables are determined by their members. *)
Lemma compact_above a b t r : Compact ((a, b) :: t) -> Member r t -> b + 1 < r.
Proof.
  revert a b. induction t as [|[a' b'] t IH]; intros a b (H1 & H2 & H3) M; [destruct (Member_nil _ M)|].
  apply Member_cons in M. destruct M as [M|M]; [lia|]. pose proof (IH _ _ H3 M). cbn [Compact] in H3. lia.
Qed.
Lemma compact_unique t : forall t', Compact t -> Compact t' -> (forall r, Member r t <-> Member r t') -> t = t'.
Proof.
  induction t as [|[a b] t IH]; intros [|[a' b'] t'] C C' M.
  - reflexivity.
  - exfalso. apply (Member_nil a'). apply M. apply Member_cons. left. cbn [Compact] in C'. lia.
  - exfalso. apply (Member_nil a). apply M. apply Member_cons. left. cbn [Compact] in C. lia.
  - pose proof (compact_above a b t) as Ab. pose proof (compact_above a' b' t') as Ab'.
    pose proof C as (C1 & C2 & C3). pose proof C' as (C1' & C2' & C3').
    assert (Mc : forall r, (a <= r <= b \/ Member r t) <-> (a' <= r <= b' \/ Member r t')) by (intros r; rewrite <- !Member_cons; apply M).
    assert (Ea : a = a').
    { assert (a' <= a).
      { destruct (proj1 (Mc a)) as [K|K]; [left; lia|lia|]. specialize (Ab' a C' K). lia. }
      assert (a <= a').
      { destruct (proj2 (Mc a')) as [K|K]; [left; lia|lia|]. specialize (Ab a' C K). lia. }
      lia. }
    subst a'.
    assert (Eb : b = b').
    { assert (~ b < b').
      { intros L. destruct (proj2 (Mc (b + 1))) as [K|K]; [left; lia|lia|]. specialize (Ab (b + 1) C K). lia. }
      assert (~ b' < b).
      { intros L. destruct (proj1 (Mc (b' + 1))) as [K|K]; [left; lia|lia|]. specialize (Ab' (b' + 1) C' K). lia. }
      lia. }
    subst b'. f_equal. apply IH; [exact C3|exact C3'|]. intros r. split; intros K.
    + specialize (Ab r C K). destruct (proj1 (Mc r)) as [Q|Q]; [right; exact K|lia|exact Q].
    + specialize (Ab' r C' K). destruct (proj2 (Mc r)) as [Q|Q]; [right; exact K|lia|exact Q].
Qed.
Lemma sorted_nonempty t : Sorted t -> NonEmpty t.
Proof. induction t as [|[a b] t IH]; [constructor|]. intros (H & _ & K). constructor; [exact H|apply IH, K]. Qed.

Theorem shapeup_canonical t : Sorted t ->
  Compact (shapeup t) /\ (forall r, Member r (shapeup t) <-> Member r t)
  /\ forall t', Compact t' -> (forall r, Member r t' <-> Member r t) -> t' = shapeup t.
Proof.
  intros H. split; [apply shapeup_compact, H|]. assert (M : forall r, Member r (shapeup t) <-> Member r t) by (intros r; apply shapeup_member, sorted_nonempty, H).
  split; [exact M|]. intros t' C K. apply compact_unique; [exact C|apply shapeup_compact, H|]. intros r. rewrite K, M. reflexivity.
Qed.

(** A table of the package is its own shape. *)
Fixpoint compactb (t : list (Z * Z)) : bool :=
  match t with
  | [] => true
  | (a, b) :: rest => (a <=? b) && (match rest with [] => true | (a', _) :: _ => b + 1 <? a' end) && compactb rest
  end.
Lemma compactb_ok t : compactb t = true -> Compact t.
Proof.
  induction t as [|[a b] t IH]; [reflexivity|]. cbn [compactb Compact]. intros H. apply andb_prop in H. destruct H as [H K]. apply andb_prop in H.
  destruct H as [H1 H2]. split; [lia|]. split; [destruct t as [|[a' b'] t]; [exact I|lia]|apply IH, K].
Qed.
Theorem package_shaped : Forall (fun t => Compact t /\ shapeup t = t)
  [tbl_combining; tbl_doublewidth; tbl_ambiguous; tbl_narrow; tbl_neutral; tbl_emoji].
Proof.
  assert (K : forall t, compactb t = true -> Compact t /\ shapeup t = t).
  { intros t H. apply compactb_ok in H. split; [exact H|]. symmetry. apply (shapeup_canonical t (Compact_Sorted t H)); [exact H|tauto]. }
  do 6 (apply Forall_cons; [apply K; vm_compute; reflexivity|]). apply Forall_nil.
Qed.

(** ** eastasian *)
Lemma collect_filter p lines : collect p lines = map ea_range (filter p lines).
Proof.
  unfold collect. enough (G : forall acc, fold_left (fun acc l => if p l then acc ++ [ea_range l] else acc) lines acc = acc ++ map ea_range (filter p lines)) by exact (G []).
  induction lines as [|l lines IH]; intros acc; cbn [fold_left filter map]; [symmetry; apply app_nil_r|]. rewrite IH. destruct (p l); [|reflexivity].
  cbn [map]. rewrite <- app_assoc. reflexivity.
Qed.
Lemma range_covers l r : fst (ea_range l) <= r <= snd (ea_range l) <-> Covers l r.
Proof. unfold ea_range, Covers. cbn [fst snd]. destruct (eaHi l); lia. Qed.
Lemma collect_member p lines r : Member r (collect p lines) <-> exists l, In l lines /\ p l = true /\ Covers l r.
Proof.
  rewrite collect_filter. unfold Member. split.
  - intros (x & y & I & H). apply in_map_iff in I. destruct I as (l & E & I). apply filter_In in I. exists l. split; [apply I|]. split; [apply I|].
    apply range_covers. rewrite E. exact H.
  - intros (l & I & P & C). exists (fst (ea_range l)), (snd (ea_range l)). split; [|apply range_covers, C].
    rewrite <- surjective_pairing. apply in_map, filter_In. auto.
Qed.
Lemma collect_nonempty p lines : Forall ProperLine lines -> NonEmpty (collect p lines).
Proof.
  intros H. rewrite collect_filter. apply Forall_forall. intros e I. apply in_map_iff in I. destruct I as (l & <- & I). apply filter_In in I.
  pose proof (proj1 (Forall_forall _ _) H l (proj1 I)) as P. unfold ProperLine in P. unfold ea_range. cbn [fst snd]. destruct (eaHi l); lia.
Qed.
Lemma collect_sorted p lines : Forall ProperLine lines -> Ascending lines -> Sorted (collect p lines).
Proof.
  rewrite collect_filter. induction lines as [|l lines IH]; intros P A; [exact I|]. inversion P; subst. destruct A as [A1 A2].
  cbn [filter]. destruct (p l) eqn:E; [|apply IH; assumption]. cbn [map]. destruct (ea_range l) as [a b] eqn:R. cbn [Sorted].
  assert (Hab : a <= b) by (pose proof (collect_nonempty p [l]) as N; rewrite collect_filter in N; cbn [filter] in N; rewrite E in N; cbn [map] in N; rewrite R in N;
    specialize (N (Forall_cons _ H1 (Forall_nil _))); inversion N; assumption).
  split; [exact Hab|]. split; [|apply IH; assumption].
  destruct (filter p lines) as [|l' rest] eqn:Ef; cbn [map]; [exact I|]. destruct (ea_range l') as [a' b'] eqn:R'.
  assert (I' : In l' lines) by (apply (filter_In p); rewrite Ef; left; reflexivity).
  assert (N' : a' <= b').
  { pose proof (proj1 (Forall_forall _ _) H2 l' I') as Q. unfold ProperLine in Q. unfold ea_range in R'. destruct (eaHi l'); injection R' as <- <-; lia. }
  apply (A1 b l' a'); [apply range_covers; rewrite R; cbn; lia|exact I'|apply range_covers; rewrite R'; cbn; lia].
Qed.

Theorem eastasian_tables lines : Forall ProperLine lines ->
  let t := eastasian lines in
  (forall r, Member r (eaDbl t) <-> exists l, In l lines /\ (eaClass l = W \/ eaClass l = F) /\ Covers l r)
  /\ (forall r, Member r (eaAmb t) <-> exists l, In l lines /\ eaClass l = A /\ Covers l r)
  /\ (forall r, Member r (eaNar t) <-> exists l, In l lines /\ eaClass l = Na /\ Covers l r)
  /\ (forall r, Member r (eaNeu t) <-> exists l, In l lines /\ eaClass l = N /\ Covers l r)
  /\ (forall r, Member r (eaCmb t) <-> exists l, In l lines /\ eaCombining l = true /\ Covers l r).
Proof.
  intros P t. cbn [t eastasian eaDbl eaAmb eaNar eaNeu eaCmb].
  assert (K : forall p (Q : ea_line -> Prop), (forall l, p l = true <-> Q l) -> forall r,
    Member r (shapeup (collect p lines)) <-> exists l, In l lines /\ Q l /\ Covers l r).
  { intros p Q H r. rewrite shapeup_member by (apply collect_nonempty, P). rewrite collect_member.
    split; intros (l & I & A & C); exists l; (split; [exact I|split; [apply H, A|exact C]]). }
  do 4 (split; [apply K; intros l; destruct (eaClass l); intuition discriminate|]).
  apply (K eaCombining (fun l => eaCombining l = true)). tauto.
Qed.

Theorem eastasian_lookup lines : Forall ProperLine lines -> Ascending lines ->
  let t := eastasian lines in
  Forall (fun x => Compact x /\ (x <> [] -> forall r, inTable r x = true <-> Member r x)) [eaCmb t; eaDbl t; eaAmb t; eaNar t; eaNeu t].
Proof.
  intros P A t.
  assert (K : forall p, let x := shapeup (collect p lines) in Compact x /\ (x <> [] -> forall r, inTable r x = true <-> Member r x)).
  { intros p x. assert (C : Compact x) by (apply shapeup_compact, collect_sorted; assumption). split; [exact C|]. intros N r. apply inTable_spec; [exact N|apply Compact_Sorted, C]. }
  do 5 (apply Forall_cons; [apply K|]). apply Forall_nil.
Qed.

Theorem emoji_members lines : Forall (fun '(lo, hi) => match hi with Some h => lo <= h | None => True end) lines ->
  forall r, Member r (emoji_table lines) <->
    exists lo hi, In (lo, hi) lines /\ match hi with Some h => lo <= r <= h /\ 255 <= h | None => r = lo /\ 255 <= lo end.
Proof.
  intros P r. unfold emoji_table.
  set (f := fun (acc : list (Z * Z)) (x : Z * option Z) => let '(lo, hi) := x in let hi := match hi with Some h => h | None => lo end in if hi <? 0xFF then acc else acc ++ [(lo, hi)]).
  assert (G : forall acc, Member r (fold_left f lines acc) <-> Member r acc \/ exists lo hi, In (lo, hi) lines /\ match hi with Some h => lo <= r <= h /\ 255 <= h | None => r = lo /\ 255 <= lo end).
  { clear P. induction lines as [|[lo hi] lines IH]; intros acc; cbn [fold_left]; [split; [auto|intros [K|(x & y & [] & _)]; exact K]|].
    rewrite IH. unfold f at 1. set (h := match hi with Some h => h | None => lo end).
    assert (Q : Member r (if h <? 0xFF then acc else acc ++ [(lo, h)]) <-> Member r acc \/ match hi with Some h => lo <= r <= h /\ 255 <= h | None => r = lo /\ 255 <= lo end).
    { destruct (h <? 0xFF) eqn:E.
      - split; [auto|]. intros [K|K]; [exact K|]. exfalso. unfold h in E. destruct hi; lia.
      - unfold Member. setoid_rewrite in_app_iff. split.
        + intros (x & y & [I|[I|[]]] & H); [left; eauto|]. injection I as <- <-. right. unfold h in *. destruct hi; lia.
        + intros [(x & y & I & H)|H]; [exists x, y; auto|]. exists lo, h. split; [right; left; reflexivity|]. unfold h in *. destruct hi; lia. }
    rewrite Q. cbn [In]. split.
    - intros [[K|K]|(x & y & I & H)]; [left; exact K|right; exists lo, hi; auto|right; exists x, y; auto].
    - intros [K|(x & y & [I|I] & H)]; [auto|injection I as <- <-; auto|right; exists x, y; auto]. }
  rewrite shapeup_member.
  - fold f. rewrite G. split; [intros [K|K]; [destruct (Member_nil _ K)|exact K]|auto].
  - fold f. assert (N : forall acc, NonEmpty acc -> NonEmpty (fold_left f lines acc)).
    { clear G. induction P as [|[lo hi] lines Hx Hl IH]; intros acc Ha; cbn [fold_left]; [exact Ha|]. apply IH. unfold f.
      destruct (_ <? _); [exact Ha|]. apply Forall_app. split; [exact Ha|]. constructor; [|constructor]. cbn. destruct hi; lia. }
    apply N. constructor.
Qed.

(** ** gen_properties.go *)
Lemma increasing_sorted d : Increasing d -> Forall (fun e => fst (fst e) <= snd (fst e)) d ->
  (forall x y pre mid post r, d = pre ++ x :: mid ++ y :: post -> ~ (fst (fst x) <= r <= snd (fst x) /\ fst (fst y) <= r <= snd (fst y))) ->
  Sorted (spans d).
Proof.
  induction 1 as [|e|a b rest Hab Hi IH]; intros N D; cbn.
  - exact I.
  - destruct e as [[x y] p]. inversion N; subst. cbn in *. auto.
  - inversion N; subst. destruct a as [[x y] p], b as [[x' y'] q]. cbn [fst snd] in *. split; [lia|]. split.
    + inversion H2; subst. cbn [fst snd] in *. specialize (D (x, y, p) (x', y', q) [] [] rest x' eq_refl). cbn [fst snd] in D. lia.
    + apply IH; [assumption|]. intros u v pre mid post r E. apply (D u v ((x, y, p) :: pre) mid post r). rewrite E. reflexivity.
Qed.

Theorem properties_lookup lines d : SortedEntries lines d ->
  Forall (fun '(from, to_, _) => match to_ with Some t => from <= t | None => True end) lines ->
  (forall r pre mid post x y p q, lines = pre ++ x :: mid ++ y :: post -> Speaks x r p -> ~ Speaks y r q) ->
  forall r, (forall p, (exists l, In l lines /\ Speaks l r p) -> property d r = p)
    /\ ((forall l p, In l lines -> ~ Speaks l r p) -> property d r = 0).
Proof.
  intros [Pm Inc] Ne Dis.
  assert (Sp : forall l r p, Speaks l r p <-> snd (prop_entry l) = p /\ fst (fst (prop_entry l)) <= r <= snd (fst (prop_entry l))).
  { intros [[f t] q] r p. unfold Speaks, prop_entry. cbn [fst snd]. destruct t; lia. }
  assert (NeD : Forall (fun e => fst (fst e) <= snd (fst e)) d).
  { apply (Permutation_Forall Pm). apply Forall_map. eapply Forall_impl; [|exact Ne]. intros [[f t] q] H. cbn. destruct t; lia. }
  assert (Pair : forall r : Z, (length (filter (fun e : Z * Z * Z => (fst (fst e) <=? r)%Z && (r <=? snd (fst e))%Z) d) <= 1)%nat).
  { intros r. set (h := fun e : Z * Z * Z => (fst (fst e) <=? r) && (r <=? snd (fst e))).
    assert (Pf : Permutation (filter h (map prop_entry lines)) (filter h d)).
    { clear -Pm. induction Pm; cbn [filter]; auto; repeat match goal with |- context[if ?b then _ else _] => destruct b end; eauto using Permutation. }
    rewrite <- (Permutation_length Pf). clear Pf Pm Inc NeD d.
    induction lines as [|l lines IH]; cbn [map filter length]; [lia|].
    assert (IH' : (length (filter h (map prop_entry lines)) <= 1)%nat).
    { apply IH; [inversion Ne; assumption|]. intros r0 pre mid post x y p q E. apply (Dis r0 (l :: pre) mid post). rewrite E. reflexivity. }
    destruct (h (prop_entry l)) eqn:Eh; [|exact IH']. cbn [length].
    destruct (filter h (map prop_entry lines)) as [|e es] eqn:Ef; [cbn; lia|]. exfalso.
    assert (In e (filter h (map prop_entry lines))) by (rewrite Ef; left; reflexivity). apply filter_In in H. destruct H as [H1 H2].
    apply in_map_iff in H1. destruct H1 as (y & <- & Iy). apply in_split in Iy. destruct Iy as (mid & post & Ey).
    apply (Dis r [] mid post l y (snd (prop_entry l)) (snd (prop_entry y))); [rewrite Ey; reflexivity| |]; apply Sp; (split; [reflexivity|]); unfold h in *; lia. }
  assert (So : Sorted (spans d)).
  { apply increasing_sorted; [exact Inc|exact NeD|]. intros x y pre mid post r E [H1 H2]. specialize (Pair r).
    rewrite E, filter_app in Pair. cbn [filter] in Pair. rewrite filter_app in Pair. cbn [filter] in Pair.
    replace ((fst (fst x) <=? r) && (r <=? snd (fst x))) with true in Pair by lia. replace ((fst (fst y) <=? r) && (r <=? snd (fst y))) with true in Pair by lia.
    rewrite app_length in Pair. cbn [length] in Pair. rewrite app_length in Pair. cbn [length] in Pair. lia. }
  assert (InD : forall e, In e d <-> exists l, In l lines /\ prop_entry l = e).
  { intros e. split.
    - intros H. apply (Permutation_in _ (Permutation_sym Pm)) in H. apply in_map_iff in H. destruct H as (l & E & H). eauto.
    - intros (l & H & <-). apply (Permutation_in _ Pm). apply in_map, H. }
  intros r. split.
  - intros p (l & Il & Hs). apply property_spec; [exact So|]. apply Sp in Hs. destruct Hs as [Hp Hr]. left.
    exists (fst (fst (prop_entry l))), (snd (fst (prop_entry l))). split; [|exact Hr]. rewrite <- Hp, <- !surjective_pairing. apply InD. eauto.
  - intros H. apply property_spec; [exact So|]. right. split; [reflexivity|]. intros a b q I K. apply InD in I. destruct I as (l & Il & El).
    apply (H l q Il). apply Sp. rewrite El. cbn. auto.
Qed.

Theorem unsorted_refuted : exists lines r, Forall ProperLine lines
  /\ Member r (eaDbl (eastasian lines)) /\ inTable r (eaDbl (eastasian lines)) = false.
Proof.
  exists [{| eaLo := 30; eaHi := None; eaClass := W; eaCombining := false |};
          {| eaLo := 10; eaHi := Some 20; eaClass := F; eaCombining := false |};
          {| eaLo := 40; eaHi := None; eaClass := W; eaCombining := false |}], 30.
  split; [repeat constructor; cbn; lia|]. split; [|vm_compute; reflexivity]. exists 30, 30. split; [left; reflexivity|lia].
Qed.

Example eastasian_example :
  let lines := [{| eaLo := 0x1100; eaHi := Some 0x115F; eaClass := W; eaCombining := false |};
                {| eaLo := 0x1160; eaHi := None; eaClass := W; eaCombining := true |};
                {| eaLo := 0x2010; eaHi := None; eaClass := A; eaCombining := false |};
                {| eaLo := 0x3000; eaHi := None; eaClass := F; eaCombining := false |}] in
  Forall ProperLine lines /\ Ascending lines
  /\ eaDbl (eastasian lines) = [(0x1100, 0x1160); (0x3000, 0x3000)]
  /\ eaCmb (eastasian lines) = [(0x1160, 0x1160)] /\ eaAmb (eastasian lines) = [(0x2010, 0x2010)].
Proof.
  intros lines. split; [repeat constructor; cbn; lia|]. split; [|repeat split].
  repeat split; intros r l' r' H I C; cbn [In] in I; repeat (destruct I as [<-|I]; [cbn in H, C; lia|]); destruct I.
Qed.
