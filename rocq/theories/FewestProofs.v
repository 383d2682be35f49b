(** * FewestProofs: taking as much as fits gives the fewest lines. *)
From Coq Require Import ZifyBool ZifyNat.
From Verif Require Import GoBase Utf8 Utf8Spec GraphemeSpec Runewidth ConditionSpec StringWidthProofs TextSpec LawsTheory LawsProofs PartsSpec PartsProofs TrimSpec TrimProofs FewestSpec.
Local Open Scope Z_scope.

Section Greedy.
Context {A : Type}.
Variables (f : A -> Z) (w : Z).
Hypothesis Hf : forall x, 0 <= f x.
Definition total (l : list A) : Z := zsum (map f l).
Inductive Greedy : list A -> list (list A) -> Prop :=
| gr_end : Greedy [] []
| gr_more a b css : a ++ b <> [] -> (forall k r, b = k :: r -> w < total a + f k) -> Greedy b css -> Greedy (a ++ b) (a :: css).

Lemma total_app a b : total (a ++ b) = total a + total b.
Proof. unfold total. rewrite map_app, zsum_app. reflexivity. Qed.
Lemma total_cons k b : total (k :: b) = f k + total b.
Proof. unfold total. cbn [map]. apply zsum_cons. Qed.
Lemma total_pos a : 0 <= total a.
Proof. induction a as [|x a IH]; [unfold total; cbn; lia|]. rewrite total_cons. pose proof (Hf x). lia. Qed.

(** One line of another way of breaking does not come further than this one. *)
Lemma overtake pre a b d rest : (forall k r, b = k :: r -> w < total a + f k) -> total d <= w -> pre ++ a ++ b = d ++ rest ->
  exists pre', rest = pre' ++ b /\ pre ++ a = d ++ pre'.
Proof.
  intros HN HW E. rewrite app_assoc in E. destruct (longer_lists _ _ _ _ E) as [(k & m & ->)|(m & K)].
  - exfalso. rewrite <- !app_assoc in E. do 2 apply app_inv_head in E. cbn [app] in E. specialize (HN k (m ++ rest) E).
    rewrite !total_app, total_cons in HW. pose proof (total_pos pre). pose proof (total_pos m). lia.
  - exists m. split; [|exact K]. rewrite K, <- app_assoc in E. apply app_inv_head in E. auto.
Qed.
Lemma greedy_least cl css : Greedy cl css -> forall pre dss, concat dss = pre ++ cl -> Forall (fun d => total d <= w) dss -> (length css <= length dss)%nat.
Proof.
  induction 1 as [|a b css Hn HN _ IH]; intros pre dss E HF; [cbn; lia|].
  destruct dss as [|d dss]; cbn [concat] in E; [symmetry in E; apply app_eq_nil in E; tauto|].
  inversion HF; subst. symmetry in E. destruct (overtake pre a b d _ HN ltac:(eassumption) E) as (pre' & E' & _).
  specialize (IH pre' dss E' ltac:(assumption)). cbn [length]. lia.
Qed.
Lemma greedy_ahead cl css : Greedy cl css -> forall pre dss, concat dss = pre ++ cl -> Forall (fun d => total d <= w) dss ->
  forall n, exists m, pre ++ concat (firstn n css) = concat (firstn n dss) ++ m.
Proof.
  induction 1 as [|a b css Hn HN _ IH]; intros pre dss E HF n.
  - rewrite firstn_nil. cbn [concat]. rewrite <- E. exists (concat (skipn n dss)). rewrite <- concat_app, firstn_skipn. reflexivity.
  - destruct n as [|n]; [exists pre; cbn; rewrite app_nil_r; reflexivity|].
    destruct dss as [|d dss]; cbn [concat] in E; [symmetry in E; apply app_eq_nil in E; tauto|].
    inversion HF; subst. symmetry in E. destruct (overtake pre a b d _ HN ltac:(eassumption) E) as (pre' & E' & K).
    destruct (IH pre' dss E' ltac:(assumption) n) as (m & M). exists m. cbn [firstn concat]. rewrite app_assoc, K, <- !app_assoc, M. reflexivity.
Qed.
End Greedy.

Lemma piece_width c s css d : Clusters s (concat css) -> In d css -> StringWidth c (concat d) = total (StringWidth c) d.
Proof.
  intros H Hd. apply in_split in Hd. destruct Hd as (a & b & ->). rewrite concat_app in H. cbn [concat] in H.
  destruct (between _ _ _ H) as (_ & H2 & _). destruct (between _ _ _ H2) as (H3 & _). apply (clusters_width c _ _ H3).
Qed.
Lemma lines_greedy c w s ps : Lines c w s ps -> forall cl, Clusters s cl ->
  exists css, concat css = cl /\ map (@concat byte) css = ps /\ Greedy (StringWidth c) w cl css.
Proof.
  induction 1 as [|s p q ps Hs (a & b & H & -> & -> & HW & HN) _ IH]; intros cl Hcl.
  - apply clusters_cut in Hcl. inversion Hcl; subst; [|congruence]. exists []. repeat split. constructor.
  - pose proof (clusters_fun _ _ _ H Hcl) as <-. destruct (between _ _ _ H) as (H1 & H2 & E & _). destruct (IH b H2) as (css & E1 & E2 & G).
    exists (a :: css). cbn [concat map]. rewrite E1, E2. split; [reflexivity|]. split; [reflexivity|].
    apply gr_more; [|intros k r K; specialize (HN k r K); rewrite (clusters_width c _ _ H1) in HN; exact HN|exact G].
    intros K. apply app_eq_nil in K. destruct K as [-> ->]. apply Hs. exact E.
Qed.
Lemma width_pos c : Reachable c -> forall x, 0 <= StringWidth c x.
Proof. intros Hc x. apply (StringWidth_bounds c x Hc). Qed.
Lemma broken_totals c w s css : Clusters s (concat css) -> Forall (fun p => StringWidth c p <= w) (map (@concat byte) css) ->
  Forall (fun d => total (StringWidth c) d <= w) css.
Proof.
  intros H HF. rewrite Forall_map in HF. rewrite Forall_forall in *. intros d Hd. rewrite <- (piece_width c s css d H Hd). auto.
Qed.

Lemma fewest c w s ps qs : Reachable c -> Lines c w s ps -> Broken c w s qs -> (length ps <= length qs)%nat.
Proof.
  intros Hc HL (dss & H & -> & HF). destruct (lines_greedy c w s ps HL _ H) as (css & E & <- & G). rewrite !map_length.
  apply (greedy_least _ _ (width_pos c Hc) _ _ G [] dss); [reflexivity|]. apply (broken_totals c w s); auto.
Qed.
Lemma concat_map_concat (l : list (list str)) : concat (map (@concat byte) l) = concat (concat l).
Proof. induction l as [|x l IH]; [reflexivity|]. cbn [map concat]. rewrite concat_app, IH. reflexivity. Qed.
Lemma furthest c w s ps qs n : Reachable c -> Lines c w s ps -> Broken c w s qs -> exists m, concat (firstn n ps) = concat (firstn n qs) ++ m.
Proof.
  intros Hc HL (dss & H & -> & HF). destruct (lines_greedy c w s ps HL _ H) as (css & E & <- & G). rewrite !firstn_map, !concat_map_concat.
  destruct (greedy_ahead _ _ (width_pos c Hc) _ _ G [] dss eq_refl ltac:(apply (broken_totals c w s); auto) n) as (m & M). cbn [app] in M.
  eexists. etransitivity; [exact (f_equal (@concat byte) M)|apply concat_app].
Qed.
Lemma lines_broken c w s ps : Reachable c -> Lines c w s ps -> Broken c w s ps.
Proof.
  intros Hc HL. destruct (clusters_total s) as (cl & H). destruct (lines_greedy c w s ps HL _ H) as (css & E & M & _). exists css. rewrite E.
  split; [exact H|]. split; [auto|]. apply (lines_facts c w s ps Hc HL).
Qed.
Lemma wider c w w' s ps ps' : Reachable c -> w <= w' -> Lines c w s ps -> Lines c w' s ps' -> (length ps' <= length ps)%nat.
Proof.
  intros Hc Hw H H'. apply (fewest c w' s ps' ps Hc H'). destruct (lines_broken c w s ps Hc H) as (css & K1 & K2 & K3). exists css. split; [exact K1|]. split; [exact K2|].
  eapply Forall_impl; [|exact K3]. cbn. lia.
Qed.

(** ** Two parts *)
Lemma divide {A} (dss : list (list A)) : forall a b, concat dss = a ++ b -> exists xss yss, concat xss = a /\ concat yss = b /\
  (length xss + length yss <= S (length dss) /\ length xss <= length dss /\ length yss <= length dss)%nat /\ (forall P : list A -> Prop, (forall u v, P (u ++ v) -> P u /\ P v) -> Forall P dss -> Forall P xss /\ Forall P yss).
Proof.
  induction dss as [|d dss IH]; intros a b E; cbn [concat] in E.
  - symmetry in E. apply app_eq_nil in E. destruct E as [-> ->]. exists [], []. repeat split; auto.
  - destruct (longer_lists _ _ _ _ (eq_sym E)) as [(k & m & ->)|(m & ->)].
    + rewrite <- app_assoc in E. apply app_inv_head in E. exists [a], ((k :: m) :: dss). cbn [concat length]. rewrite app_nil_r.
      split; [reflexivity|]. split; [exact E|]. split; [lia|]. intros P HP HF. inversion HF as [|? ? H1 H2]; subst. apply HP in H1. destruct H1. repeat constructor; auto.
    + rewrite <- app_assoc in E. apply app_inv_head in E. destruct (IH m b E) as (xss & yss & E1 & E2 & L & HP). exists (d :: xss), yss.
      cbn [concat length]. rewrite E1. split; [reflexivity|]. split; [exact E2|]. split; [lia|]. intros P HQ HF. inversion HF; subst. destruct (HP P HQ ltac:(assumption)). auto.
Qed.
Lemma two_parts c w s cl1 cl2 ps ps1 ps2 : Reachable c -> Clusters s (cl1 ++ cl2) -> Lines c w s ps -> Lines c w (concat cl1) ps1 -> Lines c w (concat cl2) ps2 ->
  (length ps <= length ps1 + length ps2 <= S (length ps))%nat /\ (length ps1 <= length ps /\ length ps2 <= length ps)%nat.
Proof.
  intros Hc H HL H1 H2. destruct (between _ _ _ H) as (C1 & C2 & _). pose proof (width_pos c Hc) as Hp.
  assert (F : forall t qs css, Clusters t (concat css) -> Lines c w t qs -> qs = map (@concat byte) css -> Forall (fun d => total (StringWidth c) d <= w) css).
  { intros t qs css K1 K2 ->. apply (broken_totals c w t); [exact K1|]. apply (lines_facts c w t _ Hc K2). }
  destruct (lines_greedy c w _ _ HL _ H) as (css & E & M & G). destruct (lines_greedy c w _ _ H1 _ C1) as (css1 & E1 & M1 & G1). destruct (lines_greedy c w _ _ H2 _ C2) as (css2 & E2 & M2 & G2).
  assert (F0 : Forall (fun d => total (StringWidth c) d <= w) css) by (apply (F s ps); auto; rewrite E; exact H).
  assert (F1 : Forall (fun d => total (StringWidth c) d <= w) css1) by (apply (F (concat cl1) ps1); auto; rewrite E1; exact C1).
  assert (F2 : Forall (fun d => total (StringWidth c) d <= w) css2) by (apply (F (concat cl2) ps2); auto; rewrite E2; exact C2).
  rewrite <- M, <- M1, <- M2, !map_length.
  destruct (divide css cl1 cl2 E) as (xss & yss & X & Y & L & HP).
  destruct (HP (fun d => total (StringWidth c) d <= w)) as [FX FY]; [|exact F0|].
  { intros u v K. rewrite total_app in K. pose proof (total_pos (StringWidth c) Hp u). pose proof (total_pos (StringWidth c) Hp v). lia. }
  pose proof (greedy_least _ _ Hp _ _ G1 [] xss X FX). pose proof (greedy_least _ _ Hp _ _ G2 [] yss Y FY).
  assert (E12 : concat (css1 ++ css2) = [] ++ cl1 ++ cl2) by (rewrite concat_app, E1, E2; reflexivity).
  pose proof (greedy_least _ _ Hp _ _ G [] (css1 ++ css2) E12 ltac:(apply Forall_app; auto)). rewrite app_length in *.
  unfold str in *. lia.
Qed.
