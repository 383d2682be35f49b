(** * RoundsCases: a cell measured 65535 times. *)
From Coq Require Import Strings.String.
From Verif Require Import GoBase Runewidth ConditionSpec Width WidthProofs Table Merge TableContract TableExamples MergeSpec MergeLayout MergeRender MergeSearch
  MergeTheory MergePlan MergeScreens MergeRecorded MergeAsked FarSpec FarProofs FarCases Cached CachedSpec CachedProofs Lru LruSpec LruProofs LruCases RoundsSpec RoundsProofs.
From Coq Require Import ZifyBool ZifyNat.
From Coq Require Import Permutation.
Local Open Scope Z_scope.

(** One item of one letter; a recorded width from earlier. *)
Definition sTable : PTable str str str := {| ptColumns := [Some oneCol]; ptWidth := Some (wset wempty (lit "n"%string) 60000) |}.
Definition sItems : PItems str := {| piLen := 1; piGet := fun _ => Ret (Ok [xs 1]) |}.
Definition sRows : list (list str) := [[xs 1]].

Lemma sHolds : Holds sItems sRows.
Proof. split; [reflexivity|]. intros [|[|i]] row K; [|discriminate..]. injection K as <-. reflexivity. Qed.
Lemma sBuilt : Forall Built [oneCol].
Proof. constructor; [left; reflexivity|constructor]. Qed.
Lemma sLong : Forall (fun row : list str => (List.length [oneCol] <= List.length row)%nat) sRows.
Proof. repeat constructor. Qed.
Notation sT := (plainTable exC sTable).
Notation sC := (plainColumns exC [oneCol]).

Lemma sTotal g : (1 <= g)%nat -> total fSep sC (gwidths sC exC H sRows g) g = Z.of_nat g.
Proof.
  intros Hg. pose proof (one_total 1 ltac:(lia) H g Hg) as T. change (oneRows 1) with sRows in T.
  rewrite (zsum_first 1 _ 1) in T; [|intros k Hk; cbn [pos]; rewrite Nat.mul_0_l; reflexivity|lia].
  unfold total, gwidths in T |- *. change (slen [exName]) with 1 in T. change (slen sC) with 1. change (List.length [exName]) with 1%nat in T.
  change (List.length sC) with 1%nat. rewrite T. lia.
Qed.

Lemma sFinished : exists fuel, snd (effect (vwidth exC) (fun _ => true) 0 (mergeP H fuel sTable sItems 65534 fSep true)) = Finished.
Proof.
  assert (Hb : exists big, Z.of_nat big = 65536) by (exists (Z.to_nat 65536); apply Z2Nat.id; lia). destruct Hb as (big & Hbig). exists (S big).
  assert (HP := plain_printable exC sTable [oneCol] sItems sRows eq_refl sHolds sLong).
  assert (Ee : estimate sT sC fSep 65534 = 1) by (vm_compute; reflexivity).
  assert (Er : reckoned sT sC fSep mod 65536 <> 0) by (vm_compute; discriminate).
  destruct (search_or (c := exC) (cols := sC) (rows := sRows) 65534 fSep H 1 big ltac:(lia)) as [A|(g & HS & Hg)].
  { exfalso. assert (Hg : exists g, Z.of_nat g = 65535) by (exists (Z.to_nat 65535); apply Z2Nat.id; lia). destruct Hg as (g & Hg).
    specialize (A g ltac:(lia)). apply acceptable_spec in A; [|lia]. unfold acceptable_b in A. apply andb_true_iff in A. destruct A as [_ A].
    rewrite sTotal, Hg in A by lia. change (effective 65534) with 65534 in A. rewrite Z.mod_small in A by lia. lia. }
  assert (Hg1 : (1 <= g)%nat) by (destruct HS; lia).
  assert (HC : exists W, Chosen exC sT sC 1 g (layout_lines H g sRows) W).
  { destruct (Nat.eq_dec g 1) as [->|Hg']; [exists (fun _ => recorded sT sC); left; auto|]. exists (gwidths sC exC H sRows g).
    right. split; [lia|]. apply gwidths_ok, Hg1. }
  destruct HC as (W & HC).
  assert (Hst : stop (merge H (S big) exC sT (fun _ => true) (plainItems (vwidth exC) sItems) 65534 fSep true) = Finished).
  { pose proof (plan_exact (c := exC) HP H 65534 fSep true g (layout_lines H g sRows) W (S big) Er) as K. rewrite K; [reflexivity| |lia]. clear K.
    exists 1%nat. split; [symmetry; exact Ee|]. split; [exact HS|]. split; [apply layout_ok, Hg1|exact HC]. }
  unfold merge in Hst. rewrite (mergeH_effect exC (S big) (fun _ => true) sTable sT sItems 65534 fSep true (is_plain exC sTable)) in Hst. exact Hst.
Qed.

Lemma often : exists fuel n, 65535 <= Z.of_nat n
  /\ snd (effect (vwidth exC) (fun _ => true) 0 (mergeP H fuel sTable sItems 65534 fSep true)) = Finished
  /\ texts (vwidth exC) (fun _ => true) 0 (mergeP H fuel sTable sItems 65534 fSep true) = repeat (xs 1) n
  /\ forall cap out st log, (1 <= cap)%nat -> runL cap exC (fun _ => true) 0 [] (mergeP H fuel sTable sItems 65534 fSep true) = (out, st, log) ->
     count (map snd log) = 1%nat.
Proof.
  destruct sFinished as (fuel & Hf). exists fuel.
  destruct (times exC sTable [oneCol] sItems sRows eq_refl sBuilt sHolds sLong H fuel 65534 fSep true Hf) as (g1 & g & n & E1 & [HS Hn] & P).
  exists (S n). assert (Ee : estimate sT sC fSep 65534 = 1) by (vm_compute; reflexivity). rewrite Ee in E1. assert (g1 = 1%nat) by lia. subst g1.
  split.
  { destruct HS as (K1 & _ & K2). assert (65535 <= Z.of_nat (S g)).
    { destruct (Z.le_gt_cases 65535 (Z.of_nat (S g))) as [K|K]; [exact K|]. exfalso. apply K2. apply acceptable_spec; [lia|]. unfold acceptable_b.
      rewrite sTotal by lia. change (worth_b H (List.length sRows) (S g)) with true. cbn [andb]. rewrite Z.mod_small by lia. change (effective 65534) with 65534. lia. }
    destruct Hn as [[_ ->]|[Hn _]]; [lia|]. exfalso. apply Hn. apply worth_spec; [lia|]. reflexivity. }
  split; [exact Hf|]. change (shown (List.length [oneCol]) sRows) with [xs 1] in P.
  assert (E2 : forall k, List.concat (repeat [xs 1] k) = repeat (xs 1) k).
  { induction k as [|k IH]; [reflexivity|]. cbn [repeat List.concat app]. rewrite IH. reflexivity. }
  split.
  - rewrite E2 in P. apply Permutation_sym in P. remember (texts _ _ _ _) as l eqn:El. clear El.
    assert (L : List.length l = S n) by (rewrite <- (Permutation_length P); apply repeat_length).
    assert (A : forall x, In x l -> x = xs 1) by (intros x Hx; apply (Permutation_in _ (Permutation_sym P)) in Hx; apply repeat_spec in Hx; exact Hx).
    rewrite <- L. clear - A. induction l as [|x l IH]; [reflexivity|]. cbn [List.length repeat]. rewrite (A x (or_introl eq_refl)). f_equal. apply IH. intros y Hy. apply A. right. exact Hy.
  - intros cap out st log Hcap R. rewrite (computed cap exC _ _ out st log [xs 1] n Hcap R P); [|exact Hcap].
    change (zeros exC [xs 1]) with 0%nat. change (visible exC [xs 1]) with 1%nat. lia.
Qed.

(** Three items of two cells each. *)
Definition rCols : list (PColumn unit unit str) :=
  [{| pcGetter := None; pcAlignment := Some alignRightP; pcName := lit "a"%string; pcTitle := lit "Alpha"%string; pcShortTitle := lit "Al"%string |};
   {| pcGetter := None; pcAlignment := None; pcName := lit "b"%string; pcTitle := lit "Beta"%string; pcShortTitle := lit "B"%string |}].
Definition rTable (wa wb : Z) : PTable unit unit str :=
  {| ptColumns := map Some rCols; ptWidth := Some (wset (wset wempty (lit "a"%string) wa) (lit "b"%string) wb) |}.
Definition rRows : list (list str) := map (map (fun b => [b])) [[x61; x62]; [x63; x64]; [x65; x66]].
Definition rItems : PItems str := {| piLen := 3; piGet := fun i => Ret (index rRows i) |}.
Lemma rHolds : Holds rItems rRows.
Proof. split; [reflexivity|]. intros [|[|[|[|i]]]] row K; [| | |discriminate..]; injection K as <-; reflexivity. Qed.
Lemma rBuilt : Forall Built rCols.
Proof. constructor; [right; right; left; reflexivity|]. constructor; [left; reflexivity|constructor]. Qed.
Lemma rLong : Forall (fun row : list str => (List.length rCols <= List.length row)%nat) rRows.
Proof. repeat constructor. Qed.
Lemma rTimes : shown 2 rRows = map (fun b => [b]) (lit "abcdef"%string) /\ Worth V rRows 3 /\ ~ Worth V rRows 4
  /\ Permutation (lit "acbdef"%string ++ lit "abcdef"%string ++ lit "abefcd"%string) (List.concat (repeat (lit "abcdef"%string) 3)).
Proof.
  split; [reflexivity|]. split; [apply worth_spec; [lia|reflexivity]|]. split; [intros K; apply worth_spec in K; [discriminate|lia]|].
  cbn [repeat List.concat]. rewrite app_nil_r. apply Permutation_app; [apply perm_skip, perm_swap|]. apply Permutation_app_head.
  change (Permutation (lit "ab"%string ++ lit "ef"%string ++ lit "cd"%string) (lit "ab"%string ++ lit "cd"%string ++ lit "ef"%string)).
  apply Permutation_app_head, Permutation_app_comm.
Qed.
Lemma Forall2_hd {A B} (P : A -> B -> Prop) x y l l' : Forall2 P (x :: l) (y :: l') -> P x y.
Proof. inversion 1; assumption. Qed.
(** A hundred items of one letter are tried vertically in 2 to 11 groups. *)
Lemma hundred_search : Search exC [exName] fSep 300 V (oneRows 100) 1 10 /\ ~ Worth V (oneRows 100) 11.
Proof.
  split; [|intros K; apply worth_spec in K; [discriminate|lia]]. split; [lia|]. split.
  - intros g Hg. apply acceptable_spec; [lia|]. do 11 (destruct g as [|g]; [try lia; vm_compute; reflexivity|]). lia.
  - intros K. apply acceptable_spec in K; [|lia]. vm_compute in K. discriminate.
Qed.
