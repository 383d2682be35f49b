(** * CountProofs: how the number of characters changes with an edit.

    As in EditProofs.v, with the states of the rules only. *)
From Verif Require Import GoBase Utf8 Utf8Spec Utf8Proofs Utf8Theory Uniseg GraphemeSpec UnisegProofs StringWidthProofs LawsTheory
  SegmentSpec PartsSpec PartsProofs CountSpec EditSpec EditProofs EditTheory.
From Coq Require Import ZifyBool ZifyNat.
Local Open Scope Z_scope.

Fixpoint cuts (x : ctx) (l : list gcb) : Z :=
  match l with [] => 0 | g :: l => (if brk x g then 1 else 0) + cuts (next x g) l end.
Definition gets (x : ctx) (l : list gcb) : ctx := fold_left next l x.
Lemma cuts_app l1 : forall x l2, cuts x (l1 ++ l2) = cuts x l1 + cuts (gets x l1) l2.
Proof. induction l1 as [|g l1 IH]; intros x l2; [cbn; lia|]. cbn [app cuts]. rewrite IH. unfold gets. cbn [fold_left]. lia. Qed.

Lemma seg_cuts l : forall before cur, before <> [] -> slen (seg before cur l) = 1 + cuts (ctx_of before) (map class l).
Proof.
  unfold slen. induction l as [|r l IH]; intros before cur Hb; [reflexivity|]. cbn [seg map cuts]. rewrite brk_of, <- next_of.
  destruct (brk (ctx_of before) (class r)); cbn [length].
  - rewrite Nat2Z.inj_succ, IH by discriminate. lia.
  - rewrite IH by discriminate. lia.
Qed.
Lemma segments_cuts l : slen (segments l) = cuts None (map class l).
Proof.
  destruct l as [|r l]; [reflexivity|]. cbn [segments map cuts]. rewrite seg_cuts by discriminate. rewrite next_of. reflexivity.
Qed.

(** ** The table *)
Definition contexts : list ctx := None :: flat_map (fun g => [Some (g, false); Some (g, true)]) all_gcb.
Definition ctx_eqb (a b : ctx) : bool :=
  match a, b with None, None => true | Some (g, x), Some (h, y) => gcb_eqb g h && Bool.eqb x y | _, _ => false end.
Lemma all_in g : In g all_gcb.
Proof. destruct g; vm_compute; tauto. Qed.
Lemma contexts_all x : In x contexts.
Proof.
  destruct x as [[g f]|]; [right|left; reflexivity]. apply in_flat_map. exists g. split; [apply all_in|]. destruct f; cbn; auto.
Qed.
Fixpoint place (x : ctx) (l : list ctx) : nat := match l with [] => O | y :: l => if ctx_eqb x y then O else S (place x l) end.
Definition at_ (tb : list (list Z)) (x y : ctx) : Z := nth (place y contexts) (nth (place x contexts) tb []) 9.
Definition one (b : bool) : Z := if b then 1 else 0.
Definition better (tb : list (list Z)) : list (list Z) :=
  map (fun x => map (fun y => fold_left Z.max (map (fun g => one (brk x g) - one (brk y g) + at_ tb (next x g) (next y g)) all_gcb) 0) contexts) contexts.
Definition zero : list (list Z) := map (fun _ => map (fun _ => 0) contexts) contexts.
Definition counted : list (list Z) := Eval vm_compute in better (better (better (better (better zero)))).
Definition ahead (x y : ctx) : Z := at_ counted x y.

Lemma ahead_all : forallb (fun x => forallb (fun y => (0 <=? ahead x y) &&
  forallb (fun g => one (brk x g) - one (brk y g) + ahead (next x g) (next y g) <=? ahead x y) all_gcb) contexts) contexts = true.
Proof. vm_compute. reflexivity. Qed.
Lemma cuts_ahead l : forall x y, cuts x l - cuts y l <= ahead x y.
Proof.
  pose proof ahead_all as K. rewrite forallb_forall in K.
  induction l as [|g l IH]; intros x y; specialize (K x (contexts_all x)); rewrite forallb_forall in K; specialize (K y (contexts_all y));
    apply andb_true_iff in K; destruct K as [K1 K2]; [cbn [cuts]; lia|].
  rewrite forallb_forall in K2. specialize (K2 g (all_in g)). specialize (IH (next x g) (next y g)). unfold one in K2. cbn [cuts]. lia.
Qed.

(** ** Counting *)
Definition count (rs : list Z) : Z := cuts None (map class rs).
Lemma count_of s n : Count s n <-> n = count (runes s).
Proof.
  assert (K : forall cl, Clusters s cl -> Z.of_nat (length cl) = count (runes s)).
  { intros cl H. apply clusters_cut in H. destruct (cut_runes s cl H) as (_ & E & _). unfold count. rewrite <- segments_cuts, <- E. unfold slen.
    rewrite map_length. reflexivity. }
  split.
  - intros (gs & Hv & <-). rewrite <- (K (map g_cluster gs)); [rewrite map_length; reflexivity|]. exists gs. auto.
  - intros ->. destruct (clusters_total s) as (cl & H). rewrite <- (K cl H). destruct H as (gs & Hv & <-). exists gs. rewrite map_length. auto.
Qed.
Lemma split_count a b : exists x, forall m, count (a ++ m ++ b) = count a + cuts x (map class m) + cuts (gets x (map class m)) (map class b).
Proof. exists (gets None (map class a)). intros m. unfold count. rewrite !map_app, !cuts_app. lia. Qed.
Lemma cuts_pos l : forall x, 0 <= cuts x l.
Proof. induction l as [|g l IH]; intros x; [reflexivity|]. cbn [cuts]. specialize (IH (next x g)). destruct (brk x g); lia. Qed.

Lemma seam_rows : forallb (fun x => (ahead None x <=? 2) && (ahead x None <=? 0)) contexts = true.
Proof. vm_compute. reflexivity. Qed.
Lemma from_start x l : cuts None l - 2 <= cuts x l <= cuts None l.
Proof.
  pose proof seam_rows as K. rewrite forallb_forall in K. specialize (K x (contexts_all x)).
  pose proof (cuts_ahead l x None). pose proof (cuts_ahead l None x). lia.
Qed.
Lemma seam_count a b : count a + count b - 2 <= count (a ++ b) <= count a + count b /\ count a <= count (a ++ b).
Proof.
  unfold count. rewrite map_app, cuts_app. pose proof (from_start (gets None (map class a)) (map class b)).
  pose proof (cuts_pos (map class b) (gets None (map class a))). lia.
Qed.
Lemma any_rows : forallb (fun x => forallb (fun y => ahead x y <=? 2) contexts) contexts = true.
Proof. vm_compute. reflexivity. Qed.
Lemma any_two x y l : cuts x l <= cuts y l + 2.
Proof.
  pose proof any_rows as K. rewrite forallb_forall in K. specialize (K x (contexts_all x)). rewrite forallb_forall in K. specialize (K y (contexts_all y)).
  pose proof (cuts_ahead l x y). lia.
Qed.
Lemma splice_count a x y b : count (a ++ x ++ b) <= count (a ++ y ++ b) + count x + 2.
Proof.
  destruct (split_count a b) as (s & K). rewrite !K. pose proof (any_two (gets s (map class x)) (gets s (map class y)) (map class b)).
  pose proof (from_start s (map class x)). pose proof (cuts_pos (map class y) s). fold (count x) in *. lia.
Qed.
Lemma insert_rows : forallb (fun x => forallb (fun g => (ahead x (next x g) - one (brk x g) <=? 1) && (ahead (next x g) x + one (brk x g) <=? 3)) all_gcb) contexts = true.
Proof. vm_compute. reflexivity. Qed.
Lemma insert_count a r b : count (a ++ b) - 1 <= count (a ++ [r] ++ b) <= count (a ++ b) + 3.
Proof.
  destruct (split_count a b) as (s & K). rewrite (K [r]). change (a ++ b) with (a ++ [] ++ b). rewrite (K []). cbn [map cuts gets fold_left].
  pose proof insert_rows as R. rewrite forallb_forall in R. specialize (R s (contexts_all s)). rewrite forallb_forall in R. specialize (R _ (all_in (class r))).
  pose proof (cuts_ahead (map class b) s (next s (class r))). pose proof (cuts_ahead (map class b) (next s (class r)) s). unfold one in R. unfold gets. cbn [fold_left]. lia.
Qed.
Lemma replace_rows : forallb (fun x => forallb (fun g => forallb (fun h => one (brk x g) - one (brk x h) + ahead (next x g) (next x h) <=? 3) all_gcb) all_gcb) contexts = true.
Proof. vm_compute. reflexivity. Qed.
Lemma replace_count a r r' b : count (a ++ [r] ++ b) <= count (a ++ [r'] ++ b) + 3.
Proof.
  destruct (split_count a b) as (s & K). rewrite (K [r]), (K [r']). cbn [map cuts]. unfold gets. cbn [fold_left].
  pose proof replace_rows as R. rewrite forallb_forall in R. specialize (R s (contexts_all s)). rewrite forallb_forall in R. specialize (R _ (all_in (class r))).
  rewrite forallb_forall in R. specialize (R _ (all_in (class r'))).
  pose proof (cuts_ahead (map class b) (next s (class r)) (next s (class r'))). unfold one in R. lia.
Qed.
Lemma swap_rows : forallb (fun x => forallb (fun g => forallb (fun h =>
  one (brk x g) + one (brk (next x g) h) - one (brk x h) - one (brk (next x h) g) + ahead (next (next x g) h) (next (next x h) g) <=? 3) all_gcb) all_gcb) contexts = true.
Proof. vm_compute. reflexivity. Qed.
Lemma swap_count a r r' b : count (a ++ [r; r'] ++ b) <= count (a ++ [r'; r] ++ b) + 3.
Proof.
  destruct (split_count a b) as (s & K). rewrite (K [r; r']), (K [r'; r]). cbn [map cuts]. unfold gets. cbn [fold_left].
  pose proof swap_rows as R. rewrite forallb_forall in R. specialize (R s (contexts_all s)). rewrite forallb_forall in R. specialize (R _ (all_in (class r))).
  rewrite forallb_forall in R. specialize (R _ (all_in (class r'))).
  pose proof (cuts_ahead (map class b) (next (next s (class r)) (class r')) (next (next s (class r')) (class r))). unfold one in R. lia.
Qed.
Lemma edit_count rs rs' : Edit rs rs' -> Z.abs (count rs - count rs') <= 3.
Proof.
  intros [a r b|a r b|a r r' b|a r r' b].
  - pose proof (insert_count a r b). cbn [app] in *. lia.
  - pose proof (insert_count a r b). cbn [app] in *. lia.
  - pose proof (replace_count a r r' b). pose proof (replace_count a r' r b). cbn [app] in *. lia.
  - pose proof (swap_count a r r' b). pose proof (swap_count a r' r b). cbn [app] in *. lia.
Qed.
Lemma edits_count k rs rs' : Edits k rs rs' -> Z.abs (count rs - count rs') <= 3 * Z.of_nat k.
Proof. induction 1 as [rs|k rs rs' rs'' H _ IH]; [lia|]. apply edit_count in H. lia. Qed.

(** ** In terms of the iterator *)
Ltac counts := repeat match goal with H : Count _ _ |- _ => apply count_of in H; subst end.
Lemma total s : exists n, Count s n.
Proof. exists (count (runes s)). apply count_of. reflexivity. Qed.
Lemma seam_chars s t m n k : StartsRune t -> Count s m -> Count t n -> Count (s ++ t) k -> m + n - 2 <= k <= m + n /\ m <= k.
Proof. intros Ht H1 H2 H3. counts. rewrite runes_app by exact Ht. apply seam_count. Qed.
Lemma append_chars s r e m k : Encodes r e -> Count s m -> Count (s ++ e) k -> m <= k <= m + 1.
Proof.
  intros He H1 H2. counts. rewrite runes_app by apply (encodes_starts r e He). rewrite (runes_one r e He).
  pose proof (seam_count (runes s) [r]). change (count [r]) with 1 in *. lia.
Qed.
Lemma insert_chars a r e b m k : Encodes r e -> StartsRune b -> Count (a ++ b) m -> Count (a ++ e ++ b) k -> m - 1 <= k <= m + 3.
Proof. intros He Hb H1 H2. counts. rewrite (runes_edit a r e b He Hb), runes_app by exact Hb. apply insert_count. Qed.
Lemma replace_chars a r e r' e' b m k : Encodes r e -> Encodes r' e' -> StartsRune b -> Count (a ++ e ++ b) m -> Count (a ++ e' ++ b) k -> Z.abs (m - k) <= 3.
Proof.
  intros He He' Hb H1 H2. counts. rewrite (runes_edit a r e b He Hb), (runes_edit a r' e' b He' Hb).
  pose proof (replace_count (runes a) r r' (runes b)). pose proof (replace_count (runes a) r' r (runes b)). lia.
Qed.
Lemma swap_chars a r e r' e' b m k : Encodes r e -> Encodes r' e' -> StartsRune b -> Count (a ++ e ++ e' ++ b) m -> Count (a ++ e' ++ e ++ b) k -> Z.abs (m - k) <= 3.
Proof.
  intros He He' Hb H1 H2. counts. destruct (encodes_starts r e He) as [S1 _]. destruct (encodes_starts r' e' He') as [S2 _].
  rewrite (runes_edit a r e (e' ++ b)), (runes_edit a r' e' (e ++ b)) by (try apply starts_app; assumption).
  rewrite !runes_app, (runes_one r e He), (runes_one r' e' He') by exact Hb.
  pose proof (swap_count (runes a) r r' (runes b)). pose proof (swap_count (runes a) r' r (runes b)). cbn [app] in *. lia.
Qed.
Lemma splice_chars a x y b m k n : StartsRune x -> StartsRune y -> StartsRune b -> Count (a ++ x ++ b) m -> Count (a ++ y ++ b) k -> Count x n -> m <= k + n + 2.
Proof.
  intros Hx Hy Hb H1 H2 H3. counts.
  rewrite (runes_app a (x ++ b)), (runes_app a (y ++ b)), (runes_app x b), (runes_app y b) by (try apply starts_app; assumption). apply splice_count.
Qed.
Lemma edits_chars k rs rs' s t m n : EncodesText rs s -> EncodesText rs' t -> Edits k rs rs' -> Count s m -> Count t n -> Z.abs (m - n) <= 3 * Z.of_nat k.
Proof.
  intros Hs Ht H H1 H2. counts. apply text_decode in Hs, Ht.
  assert (E1 : runes s = rs) by apply Hs. assert (E2 : runes t = rs') by apply Ht. rewrite E1, E2. apply edits_count. exact H.
Qed.
