(** * LawsProofs: how StringWidth behaves under concatenation. *)
From Verif Require Import GoBase IntervalSpec Pointwise Utf8 Utf8Spec Utf8Proofs Utf8Theory PropConst GraphemeData Uniseg GraphemeSpec UnisegProofs
  RuneWidthData Runewidth ConditionSpec RunewidthProofs RuneTheory StringWidthProofs HangulProofs.
From Coq Require Import ZifyBool ZifyNat.
Local Open Scope Z_scope.

(** ** Measuring rune by rune *)

(** The width so far, and whether the last cluster is visible already. *)
Definition vstep (c : Condition) (brk : bool) (r : Z) (st : Z * bool) : Z * bool :=
  let '(w, v) := st in
  let x := RuneWidth c r in
  if brk then (w + x, x >? 0) else (if v then w else w + x, v || (x >? 0)).
Fixpoint run (c : Condition) (before : list gcb) (st : Z * bool) (l : list Z) : Z * bool :=
  match l with
  | [] => st
  | r :: l => run c (class r :: before) (vstep c (breaks before (class r)) r st) l
  end.

Lemma run_app c l1 : forall before st l2,
  run c before st (l1 ++ l2) = run c (rev (map class l1) ++ before) (run c before st l1) l2.
Proof.
  induction l1 as [|r l1 IH]; intros before st l2; [reflexivity|]. cbn [app run map rev]. rewrite IH.
  rewrite <- app_assoc. reflexivity.
Qed.

Lemma cluster_snoc c cur r : WidthOK c ->
  cluster_width c (cur ++ [r]) = if cluster_width c cur >? 0 then cluster_width c cur else RuneWidth c r.
Proof.
  intros HO. unfold cluster_width. induction cur as [|x cur IH]; cbn [app cluster_width_from].
  - destruct (_ >? 0); reflexivity.
  - destruct (Z.gtb_spec (RuneWidth c x) 0) as [K|K].
    + destruct (Z.gtb_spec (RuneWidth c x) 0); [reflexivity|lia].
    + replace (RuneWidth c x) with 0 by (pose proof (HO x); lia). exact IH.
Qed.

Lemma run_seg c l : WidthOK c -> forall before cur w,
  fst (run c before (w + cluster_width c cur, cluster_width c cur >? 0) l) = w + zsum (map (cluster_width c) (seg before cur l)).
Proof.
  intros HO. induction l as [|r l IH]; intros before cur w; cbn [run seg].
  - cbn [map fst]. unfold zsum. cbn. lia.
  - pose proof (cluster_width_bounds c cur HO) as [Hn _]. destruct (breaks before (class r)); cbn [vstep].
    + cbn [map]. rewrite zsum_cons.
      replace (RuneWidth c r) with (cluster_width c [r]).
      * rewrite IH. lia.
      * pose proof (cluster_snoc c [] r HO) as K. cbn [app] in K. rewrite K. reflexivity.
    + rewrite <- IH. f_equal. f_equal. rewrite cluster_snoc by auto. pose proof (HO r).
      destruct (Z.gtb_spec (cluster_width c cur) 0) as [K|K]; cbn [orb].
      * destruct (Z.gtb_spec (cluster_width c cur) 0); [reflexivity|lia].
      * replace (cluster_width c cur) with 0 by lia. f_equal. lia.
Qed.

Lemma swidth_run c l : WidthOK c -> swidth c l = fst (run c [] (0, false) l).
Proof.
  intros HO. unfold swidth. destruct l as [|r l]; [reflexivity|]. cbn [segments run].
  change (breaks [] (class r)) with true. cbn [vstep].
  pose proof (run_seg c l HO [class r] [r] 0) as K.
  replace (cluster_width c [r]) with (RuneWidth c r) in K; [exact (eq_sym K)|].
  pose proof (cluster_snoc c [] r HO) as K2. cbn [app] in K2. rewrite K2. reflexivity.
Qed.

Lemma run_le c l : WidthOK c -> forall before st, fst st <= fst (run c before st l).
Proof.
  intros HO. induction l as [|r l IH]; intros before st; [cbn; lia|]. cbn [run]. etransitivity; [|apply IH].
  destruct st as [w v]. pose proof (HO r). unfold vstep. destruct (breaks _ _); [cbn; lia|]. destruct v; cbn; lia.
Qed.

Lemma swidth_prefix c a b : WidthOK c -> swidth c a <= swidth c (a ++ b).
Proof. intros HO. rewrite !swidth_run, run_app by auto. apply run_le. auto. Qed.

Lemma swidth_snoc_zero c a r : WidthOK c -> RuneWidth c r = 0 -> swidth c (a ++ [r]) = swidth c a.
Proof.
  intros HO Hr. rewrite !swidth_run, run_app by auto. cbn [run]. destruct (run c [] (0, false) a) as [w v].
  unfold vstep. rewrite Hr. destruct (breaks _ _); [cbn; lia|]. destruct v; cbn; lia.
Qed.

(** ** Regional indicators *)
Lemma RI_range r : class r = RI -> 0x1F1E6 <= r <= 0x1F1FF.
Proof.
  intros Hr. assert (Hp : lookup graphemeCodePoints r = prRegionalIndicator) by (rewrite <- gprop_lookup, gprop_class, Hr; reflexivity).
  pose proof (lookup_HasProperty graphemeCodePoints r) as [(a & b & Hin & Hab)|[H0 _]]; [|rewrite Hp in H0; discriminate].
  rewrite Hp in Hin.
  assert (K : forallb (fun e => negb (snd e =? prRegionalIndicator) || ((0x1F1E6 <=? fst (fst e)) && (snd (fst e) <=? 0x1F1FF))) graphemeCodePoints = true)
    by (vm_compute; reflexivity).
  rewrite forallb_forall in K. specialize (K _ Hin). cbn [fst snd] in K. rewrite Z.eqb_refl in K. cbn [negb orb] in K. lia.
Qed.

Lemma RI_width c r : Reachable c -> class r = RI -> RuneWidth c r = 1.
Proof.
  intros Hc Hr. apply RI_range in Hr. destruct (Reachable_width c Hc) as (ea & st & E). rewrite E. clear E.
  fold (plainCondition ea st). rewrite RuneWidth_plainCondition, RuneWidth_tables_rwM by lia.
  apply Z.eqb_eq. replace r with (0x1F1E6 + (r - 0x1F1E6)) by lia.
  apply (upto_all (fun i => rwM ea st (0x1F1E6 + i) =? 1) 26); [destruct ea, st; vm_compute; reflexivity|lia].
Qed.

(** ** Subadditivity *)
Lemma pict_extend_more x y : pict_extend x = true -> pict_extend (x ++ y) = true.
Proof. induction x as [|g x IH]; [discriminate|]. destruct g; cbn [pict_extend app]; auto. Qed.

(** More text before a position removes boundaries, regional indicators aside. *)
Lemma breaks_more x y g : x <> [] -> Nat.odd (ri_count (x ++ y)) = Nat.odd (ri_count x) ->
  breaks (x ++ y) g = true -> breaks x g = true.
Proof.
  destruct x as [|a x]; [congruence|]. intros _ Hp. cbn [app]. unfold breaks.
  change (a :: x ++ y) with ((a :: x) ++ y). rewrite Hp.
  pose proof (pict_extend_more x y) as Hm.
  destruct a, g; cbn [is_control]; auto; try (destruct (pict_extend x); [rewrite Hm by auto; auto|auto]).
Qed.

Lemma breaks_RI x g : g <> RI -> breaks (RI :: x) g = breaks [RI] g.
Proof. destruct g; intros; auto; congruence. Qed.

(** How the scan of [b] alone and after [a] relate; [S] is the width of [a]. *)
Inductive Rel (S : Z) (xa : list gcb) : list gcb -> Z * bool -> Z * bool -> Prop :=
| rel_start va : (forall x, xa = RI :: x -> va = true) -> Rel S xa [] (0, false) (S, va)
| rel_same xb wb vb wab vab : xb <> [] -> (vb = true -> vab = true) -> wab <= S + wb ->
    Nat.odd (ri_count (xb ++ xa)) = Nat.odd (ri_count xb) -> Rel S xa xb (wb, vb) (wab, vab)
| rel_shift k wb wab : Nat.odd (ri_count xa) = true ->
    wab + (if Nat.odd (Datatypes.S k) then 1 else 0) <= S + wb ->
    Rel S xa (repeat RI (Datatypes.S k)) (wb, true) (wab, true).

Lemma ri_repeat k x : ri_count (repeat RI k ++ x) = (k + ri_count x)%nat.
Proof. induction k as [|k IH]; [reflexivity|]. cbn [repeat app ri_count Nat.add]. rewrite IH. reflexivity. Qed.

Lemma breaks_RI_RI x : breaks (RI :: x) RI = negb (Nat.odd (ri_count (RI :: x))).
Proof. unfold breaks. cbn [is_control]. destruct (Nat.odd _); reflexivity. Qed.

Lemma vstep_bound c brk r w v : WidthOK c -> fst (vstep c brk r (w, v)) <= w + RuneWidth c r.
Proof. intros HO. pose proof (HO r). unfold vstep. destruct brk, v; cbn; lia. Qed.
Lemma vstep_vis c brk r w v : RuneWidth c r >? 0 = true -> snd (vstep c brk r (w, v)) = true.
Proof. intros K. unfold vstep. rewrite K. destruct brk, v; reflexivity. Qed.

Lemma rel_step c S xa xb sb sab r : Reachable c -> Rel S xa xb sb sab ->
  Rel S xa (class r :: xb) (vstep c (breaks xb (class r)) r sb) (vstep c (breaks (xb ++ xa) (class r)) r sab).
Proof.
  intros Hc HR. pose proof (Reachable_OK c Hc) as HO. pose proof (HO r) as Hw.
  destruct HR as [va Hva|xb wb vb wab vab Hne Hv Hle Hpar|k wb wab Hodd Hle].
  - cbn [app]. change (breaks [] (class r)) with true.
    change (vstep c true r (0, false)) with (0 + RuneWidth c r, RuneWidth c r >? 0).
    destruct (Nat.odd (ri_count (class r :: xa))) eqn:E1, (Nat.odd (ri_count [class r])) eqn:E2.
    1,4: destruct (vstep c (breaks xa (class r)) r (S, va)) as [wab vab] eqn:EV; apply rel_same;
      [discriminate
      |intros K; pose proof (vstep_vis c (breaks xa (class r)) r S va K) as K2; rewrite EV in K2; exact K2
      |pose proof (vstep_bound c (breaks xa (class r)) r S va HO) as K; rewrite EV in K; cbn in K; lia
      |cbn [app]; congruence].
    + destruct (class r); cbn in E1, E2; congruence.
    + destruct (class r) eqn:Er; try (cbn in E1, E2; congruence).
      assert (Hx : Nat.odd (ri_count xa) = true).
      { cbn [ri_count] in E1. rewrite Nat.odd_succ in E1. rewrite <- Nat.negb_even. rewrite E1. reflexivity. }
      destruct xa as [|g xa]; [discriminate|]. destruct g; try discriminate.
      rewrite breaks_RI_RI, Hx. cbn [negb vstep]. rewrite (Hva xa eq_refl). rewrite (RI_width c r Hc Er). cbn [orb].
      change (0 + 1 >? 0) with true. change (1 >? 0) with true.
      apply (rel_shift S _ 0); [exact Hx|]. cbn. lia.
  - destruct xb as [|g xb]; [congruence|]. cbn [app].
    pose proof (breaks_more (g :: xb) xa (class r) Hne Hpar) as Hbr. cbn [app] in Hbr.
    assert (Hpar' : Nat.odd (ri_count ((class r :: g :: xb) ++ xa)) = Nat.odd (ri_count (class r :: g :: xb))).
    { destruct (class r); try reflexivity. cbn [app ri_count] in *. rewrite !Nat.odd_succ, <- !Nat.negb_odd. f_equal. exact Hpar. }
    destruct (breaks (g :: xb ++ xa) (class r)).
    + rewrite Hbr by auto. cbn [vstep]. apply rel_same; [discriminate|auto|lia|exact Hpar'].
    + destruct (breaks (g :: xb) (class r)); cbn [vstep].
      * apply rel_same; [discriminate| |destruct vab; lia|exact Hpar'].
        intros K. rewrite K. apply orb_true_r.
      * apply rel_same; [discriminate| | |exact Hpar'].
        -- intros K. apply orb_true_iff in K. destruct K as [K|K]; [rewrite (Hv K); reflexivity|rewrite K; apply orb_true_r].
        -- destruct vb; [rewrite (Hv eq_refl); lia|destruct vab; lia].
  - cbn [repeat app] in *. destruct (class r) eqn:Er.
    7: { rewrite !breaks_RI_RI. cbn [ri_count].
         assert (E1 : ri_count (repeat RI k) = k).
         { pose proof (ri_repeat k []) as K. rewrite app_nil_r in K. cbn [ri_count] in K. lia. }
         rewrite E1, ri_repeat.
         assert (E2 : Nat.odd (Datatypes.S (k + ri_count xa)) = negb (Nat.odd (Datatypes.S k))).
         { change (Datatypes.S (k + ri_count xa)) with (Datatypes.S k + ri_count xa)%nat. rewrite Nat.odd_add, Hodd. apply Bool.xorb_true_r. }
         rewrite E2, negb_involutive. unfold vstep. rewrite (RI_width c r Hc Er). cbn [orb]. change (1 >? 0) with true.
         change (RI :: RI :: repeat RI k) with (repeat RI (Datatypes.S (Datatypes.S k))).
         destruct (Nat.odd (Datatypes.S k)) eqn:Ek; cbn [negb].
         - apply rel_shift; [exact Hodd|]. rewrite (Nat.odd_succ (Datatypes.S k)), <- Nat.negb_odd, Ek. cbn [negb]. lia.
         - apply rel_shift; [exact Hodd|]. rewrite (Nat.odd_succ (Datatypes.S k)), <- Nat.negb_odd, Ek. cbn [negb]. lia. }
    all: rewrite (breaks_RI (repeat RI k)), (breaks_RI (repeat RI k ++ xa)) by discriminate; unfold vstep;
      destruct (Nat.odd (Datatypes.S k)); destruct (breaks [RI] _); cbn [orb];
      (apply rel_same; [discriminate|auto|lia|reflexivity]).
Qed.

Lemma rel_run c S xa l : Reachable c -> forall xb sb sab, Rel S xa xb sb sab ->
  Rel S xa (rev (map class l) ++ xb) (run c xb sb l) (run c (xb ++ xa) sab l).
Proof.
  intros Hc. induction l as [|r l IH]; intros xb sb sab HR; [exact HR|]. cbn [run map rev]. rewrite <- app_assoc. cbn [app].
  apply (IH (class r :: xb)). apply rel_step; auto.
Qed.

Lemma Rel_le S xa xb sb sab : Rel S xa xb sb sab -> fst sab <= S + fst sb.
Proof. intros HR. destruct HR as [va Hva|xb wb vb wab vab Hne Hv Hle Hpar|k wb wab Hodd Hle]; cbn [fst]; [lia|lia|destruct (Nat.odd (Datatypes.S k)); lia]. Qed.

Lemma run_vis c l : Reachable c -> forall x, rev (map class l) = RI :: x -> snd (run c [] (0, false) l) = true.
Proof.
  intros Hc x E. destruct l as [|r l _] using rev_ind; [discriminate|]. rewrite map_app, rev_app_distr in E. cbn in E. injection E as Er _.
  rewrite run_app. cbn [run]. destruct (run c [] (0, false) l) as [w v]. apply vstep_vis. rewrite (RI_width c r Hc Er). reflexivity.
Qed.

Lemma swidth_subadd c a b : Reachable c -> swidth c (a ++ b) <= swidth c a + swidth c b.
Proof.
  intros Hc. pose proof (Reachable_OK c Hc) as HO. rewrite !swidth_run, run_app, app_nil_r by auto.
  pose proof (run_vis c a Hc) as Hv. destruct (run c [] (0, false) a) as [S va] eqn:Ea. cbn [fst snd] in *.
  pose proof (rel_run c S (rev (map class a)) b Hc [] (0, false) (S, va)) as K. cbn [app] in K.
  apply (Rel_le S _ _ _ _ (K (rel_start S _ va Hv))).
Qed.
