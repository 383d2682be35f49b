(** * LiveFormat: formatting and aligning while columns change. *)
From Coq Require Import ZifyBool ZifyNat.
From Verif Require Import GoBase Runewidth Width Table Merge TableContract MergeSpec Calls CallsSpec CallsProofs CallsFinal Live LiveSpec LiveProofs.
Local Open Scope Z_scope.

Section Format.
Context {Item Val E G L : Type}.
Notation lmem := (lmem G L).
Notation event := (event Item Val E G L).
Notation act := (act Item Val E G L).
Notation surroundings := (surroundings Item Val E G L).
Notation lprog := (lprog Item Val E G L).
Notation kprog := (kprog Item Val E G L).

Lemma skipn_nth {A} (l : list A) j x : nth_error l j = Some x -> skipn j l = x :: skipn (S j) l.
Proof. revert l. induction j as [|j IH]; intros [|a l] e; try discriminate; cbn in *; [injection e as ->; reflexivity|apply IH, e]. Qed.

(** ** Columns only added: as with the columns there were *)
Lemma format_sim {W} (env : surroundings W) c item m0 : OnlyAdds env -> forall k j done w m, (j + k = hLen (lSlice m0))%nat -> Ext m0 m ->
  Sim env any (formatL c (lSlice m0) (seq j k) item done) (formatK c (skipn j (cols_now m0)) item done) w m.
Proof.
  intros OA. induction k as [|k IH]; intros j done w m Hj X.
  - rewrite skipn_all2 by (unfold cols_now; rewrite cols_len; lia). apply sim_ret.
  - cbn [seq formatL]. apply sim_see. rewrite (skipn_nth _ _ _ (ext_at m0 m j X ltac:(lia))). cbn [formatK].
    assert (D : forall m', Ext m0 m' -> deref m' (ptr m (lSlice m0) j) = deref m (ptr m (lSlice m0) j)).
    { intros m' X'. rewrite (ex_old _ _ X) by lia. rewrite (ex_cols _ _ X), (ex_cols _ _ X') by lia. reflexivity. }
    apply sim_see. destruct (deref m (ptr m (lSlice m0) j)) as [col|] eqn:Ed; [|apply sim_ret].
    destruct (kGetter col) as [g|] eqn:Eg; [|apply sim_ret].
    apply (sim_obind_any env); [apply sim_ask; intros; apply sim_ret|]. intros w1 m1 value t1 K1.
    pose proof (ext_run env _ m0 OA _ _ _ _ _ _ X K1) as X1.
    apply sim_see. rewrite (D m1 X1). cbv beta iota. rewrite Eg.
    apply (sim_obind_any env); [apply sim_ask; intros; apply sim_ret|]. intros w2 m2 s t2 K2.
    pose proof (ext_run env _ m0 OA _ _ _ _ _ _ X1 K2) as X2.
    apply sim_see. rewrite (D m2 X2). cbv beta iota.
    apply sim_raise. apply IH; [lia|]. apply ext_raise. exact X2.
Qed.
Lemma format_adds {W} (env : surroundings W) c item w0 m0 w' m' r tr : OnlyAdds env -> Valid m0 ->
  lrun env (FormatItemL c item) w0 m0 = (w', m', r, tr) ->
  exists mk, krun (as_environment env) (FormatItemK c (cols_now m0) item) (w0, m0) (lWidths m0) = ((w', mk), lWidths m', r, acts tr).
Proof.
  intros OA V e. destruct (format_sim env c item m0 OA (hLen (lSlice m0)) 0 [] w0 m0 eq_refl (ext_refl m0 V) w' m' r tr e Logic.I m0 (set_same m0)) as (mk & _ & K).
  exists mk. exact K.
Qed.
Lemma basic_sim {W} (env : surroundings W) item sep m0 : OnlyAdds env -> forall k j acc w m, (j + k = hLen (lSlice m0))%nat -> Ext m0 m ->
  Sim env any (basicL (lSlice m0) (seq j k) item sep acc) (basicK (skipn j (cols_now m0)) item sep (Z.of_nat j) acc) w m.
Proof.
  intros OA. induction k as [|k IH]; intros j acc w m Hj X.
  - rewrite skipn_all2 by (unfold cols_now; rewrite cols_len; lia). apply sim_ret.
  - cbn [seq basicL]. apply sim_see. rewrite (skipn_nth _ _ _ (ext_at m0 m j X ltac:(lia))). cbn [basicK].
    apply sim_see. destruct (deref m (ptr m (lSlice m0) j)) as [col|] eqn:Ed; [|apply sim_ret].
    destruct (kGetter col) as [g|] eqn:Eg; [|apply sim_ret].
    apply (sim_obind_any env); [apply sim_ask; intros; apply sim_ret|]. intros w1 m1 s t1 K1.
    replace (Z.of_nat j + 1) with (Z.of_nat (S j)) by lia.
    apply IH; [lia|]. exact (ext_run env _ m0 OA _ _ _ _ _ _ X K1).
Qed.
Lemma basic_adds {W} (env : surroundings W) item sep w0 m0 w' m' r tr : OnlyAdds env -> Valid m0 ->
  lrun env (FormatItemBasicL item sep) w0 m0 = (w', m', r, tr) ->
  exists mk, krun (as_environment env) (FormatItemBasicK (cols_now m0) item sep) (w0, m0) (lWidths m0) = ((w', mk), lWidths m', r, acts tr).
Proof.
  intros OA V e. destruct (basic_sim env item sep m0 OA (hLen (lSlice m0)) 0 [] w0 m0 eq_refl (ext_refl m0 V) w' m' r tr e Logic.I m0 (set_same m0)) as (mk & _ & K).
  exists mk. exact K.
Qed.

(** ** Whatever changes *)
Lemma format_cells {W} (env : surroundings W) c item h : forall k j done w m w' m' texts tr,
  lrun env (formatL c h (seq j k) item done) w m = (w', m', Ok texts, tr) ->
  exists cells, length cells = k /\ texts = done ++ map lcText cells /\ tr = flat_map live_events cells /\
    forall i x, nth_error cells i = Some x -> LiveCell c item h (j + i) x.
Proof.
  induction k as [|k IH]; intros j done w m w' m' texts tr e.
  - cbn in e. injection e as <- <- <- <-. exists []. rewrite app_nil_r. repeat (split; [reflexivity|]). intros [|i] x D; discriminate.
  - cbn [seq formatL lrun lgetter lfield] in e.
    destruct (deref m (ptr m h j)) as [k1|] eqn:D1; [|cbn in e; discriminate].
    destruct (kGetter k1) as [g1|] eqn:G1; [|cbn in e; discriminate].
    apply lrun_obind_ok in e. destruct e as (w1 & m1 & v & t1 & u1 & e1 & e & ->).
    apply lrun_ask in e1. destruct e1 as (w1' & m1' & a1 & t1' & a & e1 & ->). cbn in e1. injection e1 as -> -> -> <-.
    cbn [lgetter lfield lrun] in e.
    destruct (deref m1 (ptr m h j)) as [k2|] eqn:D2; [|cbn in e; discriminate].
    destruct (kGetter k2) as [g2|] eqn:G2; [|cbn in e; discriminate].
    apply lrun_obind_ok in e. destruct e as (w2 & m2 & s & t2 & u2 & e2 & e & ->).
    apply lrun_ask in e2. destruct e2 as (w2' & m2' & a2 & t2' & b & e2 & ->). cbn in e2. injection e2 as -> -> -> <-.
    cbn [lfield lrun] in e. destruct (deref m2 (ptr m h j)) as [k3|] eqn:D3; [|cbn in e; discriminate].
    cbn [lrun] in e. cbv zeta in e. destruct (lrun env (formatL _ _ _ _ _) w2 _) as [[[w3 m3] r3] t3] eqn:K. injection e as -> -> -> <-.
    destruct (IH _ _ _ _ _ _ _ _ K) as (cells & Hl & -> & -> & HC).
    set (x := {| lcValue := {| eBefore := m; eAct := LCalled (E := E) (CValue g1 item) (Ok v); eAfter := m1 |};
                 lcFormat := {| eBefore := m1; eAct := LCalled (E := E) (CFormat g2 item v) (Ok s); eAfter := m2 |};
                 lcRaise := {| eBefore := m2; eAct := LRaised (Item := Item) (Val := Val) (E := E) (kName k3) (vwidth c s); eAfter := raise m2 (kName k3) (vwidth c s) |};
                 lcText := s |}).
    exists (x :: cells). split; [cbn; lia|]. split; [rewrite <- app_assoc; reflexivity|]. split; [reflexivity|].
    intros [|i] y D.
    + injection D as <-. rewrite Nat.add_0_r. exists (ptr m h j), k1, k2, k3, g1, g2, v. cbn. auto 10.
    + specialize (HC i y D). rewrite Nat.add_succ_r. exact HC.
Qed.
Lemma format_live {W} (env : surroundings W) c item w0 m0 w' m' texts tr :
  lrun env (FormatItemL c item) w0 m0 = (w', m', Ok texts, tr) ->
  exists cells, length cells = hLen (lSlice m0) /\ texts = map lcText cells /\ tr = flat_map live_events cells /\
    forall j x, nth_error cells j = Some x -> LiveCell c item (lSlice m0) j x.
Proof. intros e. exact (format_cells env c item (lSlice m0) _ 0 [] w0 m0 w' m' texts tr e). Qed.
(** A row formatted before a column was added cannot be aligned after. *)
Lemma align_later {W} (env : surroundings W) w m formatted : hLen formatted <> hLen (lSlice m) ->
  lrun env (AlignFormattedItemL formatted) w m = (w, m, Err (Z.of_nat (hLen formatted), Z.of_nat (hLen (lSlice m))), []).
Proof. intros D. cbn [lrun AlignFormattedItemL]. destruct (Nat.eqb_spec (hLen formatted) (hLen (lSlice m))); [contradiction|reflexivity]. Qed.
End Format.
