(** * LiveMerge: merging while columns are added. *)
From Coq Require Import ZifyBool ZifyNat.
From Verif Require Import GoBase Runewidth Width Table Merge TableContract MergeSpec Calls CallsSpec CallsProofs CallsResults Live LiveSpec LiveProofs LiveFormat LiveAlign.
Local Open Scope Z_scope.

Section Merging.
Context {Item Val E G L : Type}.
Notation lmem := (lmem G L).
Notation event := (event Item Val E G L).
Notation act := (act Item Val E G L).
Notation surroundings := (surroundings Item Val E G L).
Notation lprog := (lprog Item Val E G L).
Notation kprog := (kprog Item Val E G L).
Notation res := (outcome Empty_set).

Lemma sim_if {W A} (env : surroundings W) (P : A -> lmem -> Prop) pl pk w m :
  (forall w' m' r tr, lrun env pl w m = (w', m', r, tr) -> P r m' -> Sim env P pl pk w m) -> Sim env P pl pk w m.
Proof. intros S w' m' r tr e HP. exact (S w' m' r tr e HP w' m' r tr e HP). Qed.
Lemma krun_assoc {W X A B C} (env : environment Item Val E G L W) (p : kprog (outcome X A)) (f : A -> kprog (outcome X B)) (g : B -> kprog (outcome X C)) w m :
  krun env (kobind p (fun a => kobind (f a) g)) w m = krun env (kobind (kobind p f) g) w m.
Proof.
  unfold kobind. rewrite !krun_bind. destruct (krun env p w m) as [[[w1 m1] [a|e|q]] t1]; cbn [krun]; rewrite ?krun_bind.
  - destruct (krun env (f a) w1 m1) as [[[w2 m2] o] t2]. destruct (krun env _ w2 m2) as [[[w3 m3] r] t3]. rewrite app_assoc. reflexivity.
  - cbn [krun]. rewrite !app_nil_r. reflexivity.
  - cbn [krun]. rewrite !app_nil_r. reflexivity.
Qed.
Lemma sim_assoc {W X A B C} (env : surroundings W) P (pl : lprog (outcome X C)) (p : kprog (outcome X A)) (f : A -> kprog (outcome X B)) (g : B -> kprog (outcome X C)) w m :
  Sim env P pl (kobind p (fun a => kobind (f a) g)) w m -> Sim env P pl (kobind (kobind p f) g) w m.
Proof. apply sim_conv. intros. apply krun_assoc. Qed.
(** It succeeds, or no column was added up to its end. *)
Definition fit {X A} (m0 : lmem) (o : outcome X A) (m : lmem) : Prop := good o m \/ hLen (lSlice m) = hLen (lSlice m0).
Lemma sim_fit {W X A} (env : surroundings W) m0 (pl : lprog (outcome X A)) pk w m : Sim env any pl pk w m -> Sim env (fit m0) pl pk w m.
Proof. apply sim_weaken. constructor. Qed.
Lemma run_more {W R} (env : surroundings W) (p : lprog R) w m w' m' r tr : OnlyAdds env -> Valid m -> lrun env p w m = (w', m', r, tr) -> (hLen (lSlice m) <= hLen (lSlice m'))%nat.
Proof. intros OA V e. exact (ex_more _ _ (ext_run env p m OA _ _ _ _ _ _ (ext_refl m V) e)). Qed.
Lemma sim_obind_fit {W X A B} (env : surroundings W) m0 pl pk (fl : A -> lprog (outcome X B)) fk w m : OnlyAdds env -> Ext m0 m ->
  Sim env (fit m0) pl pk w m -> (forall w' m' a tr, lrun env pl w m = (w', m', Ok a, tr) -> Sim env (fit m0) (fl a) (fk a) w' m') ->
  Sim env (fit m0) (lobind pl fl) (kobind pk fk) w m.
Proof.
  intros OA X0 S1 S2. apply (sim_bind env (fit m0) (fit m0)); [exact S1| |].
  - intros w' m' o tr w'' m'' b tr' K1 K2 [[b' ->]|Hs].
    + destruct o as [a|e|p]; [left; exists a; reflexivity|cbn in K2; discriminate|cbn in K2; discriminate].
    + right. pose proof (ext_run env _ m0 OA _ _ _ _ _ _ X0 K1) as X1. pose proof (ex_more _ _ X1). apply run_more in K2; [|exact OA|exact (ex_valid _ _ X1)]. lia.
  - intros w' m' [a|e|p] tr K; [exact (S2 _ _ _ _ K)|apply sim_ret|apply sim_ret].
Qed.
Lemma rows_kept (m m' : lmem) f : (hArr f < length (lRows m))%nat -> (forall a, (a < length (lRows m))%nat -> nth_error (lRows m') a = nth_error (lRows m) a) ->
  (hArr f < length (lRows m'))%nat /\ row_in m' f = row_in m f.
Proof.
  intros H1 K. specialize (K (hArr f) H1).
  assert (e : nth (hArr f) (lRows m') [] = nth (hArr f) (lRows m) []).
  { rewrite (nth_error_nth' (lRows m) [] H1) in K. apply nth_error_nth with (d := []) in K. exact K. }
  split; [|unfold row_in; rewrite e; reflexivity]. apply nth_error_Some. rewrite K. apply nth_error_Some. exact H1.
Qed.
Lemma index_nat {A X} (l : list A) (j : nat) : index (E := X) l (Z.of_nat j) = match nth_error l j with Some a => Ok a | None => Panic IndexOutOfRange end.
Proof. unfold index, at_index. destruct (Z.ltb_spec (Z.of_nat j) 0); [lia|]. rewrite Nat2Z.id. reflexivity. Qed.
Lemma slen_cols (m : lmem) : slen (cols_now m) = Z.of_nat (hLen (lSlice m)).
Proof. unfold slen, cols_now. rewrite cols_len. reflexivity. Qed.

Lemma tableWidth_sim {W} (env : surroundings W) cols : forall a w m, Sim env any (tableWidthL (X := Empty_set) cols a) (tableWidthK cols a) w m.
Proof. induction cols as [|[col|] cols IH]; intros a w m; cbn [tableWidthL tableWidthK]; try apply sim_ret. apply sim_look. apply IH. Qed.
Lemma groupCount_sim {W} (env : surroundings W) cols maxWidth sep w m : Sim env any (groupCountL cols maxWidth sep) (groupCountK cols maxWidth sep) w m.
Proof.
  unfold groupCountL, groupCountK. apply sim_obind_any; [apply tableWidth_sim|]. intros w' m' tw tr _. destruct (_ =? 0); apply sim_ret.
Qed.
Lemma width_sim {W} (env : surroundings W) found m0 j groupI w m : Ext m0 m -> (j < hLen (lSlice m0))%nat ->
  Sim env any (getWidthL (hLen (lSlice m0)) found j groupI) (getWidthK found (cols_now m0) (Z.of_nat j) groupI) w m.
Proof.
  intros X Hj. unfold getWidthL, getWidthK. destruct found as [cw|]; [rewrite slen_cols; apply sim_ret|].
  apply sim_see. pose proof (ex_more _ _ X). replace (j <? hLen (lSlice m))%nat with true by (symmetry; apply Nat.ltb_lt; lia). cbn [negb].
  rewrite index_nat, (ext_now m0 m j X Hj). cbn [kobind kbind]. apply sim_see.
  destruct (deref m _) as [col|]; [|apply sim_ret]. apply sim_look, sim_ret.
Qed.
Lemma width_run {W} (env : surroundings W) colN found j groupI w m w' m' r tr : lrun env (getWidthL colN found j groupI) w m = (w', m', r, tr) -> w' = w /\ m' = m.
Proof.
  unfold getWidthL. destruct found as [cw|]; cbn [lrun]; [intros e; injection e as <- <- _ _; auto|].
  destruct (negb _); cbn [lrun lfield]; [intros e; injection e as <- <- _ _; auto|].
  destruct (deref m _); cbn [lrun]; intros e; injection e as <- <- _ _; auto.
Qed.
Lemma cells_sim {W} (env : surroundings W) c found m1 item row groupI : OnlyAdds env -> RowsKept env -> forall k j done w m, (j + k = hLen (lSlice m1))%nat -> length done = j ->
  Ext m1 m -> (hArr item < length (lRows m))%nat -> row_in m item = row ->
  Sim env any (cellsL c (hLen (lSlice m1)) found (lSlice m1) (seq j k) item groupI done)
    (kobind (cellsK c found (cols_now m1) (skipn j (cols_now m1)) row (Z.of_nat j) groupI) (fun cells => KRet (Ok (done ++ cells)))) w m.
Proof.
  intros OA RK. induction k as [|k IH]; intros j done w m Hj Hd X Hi Hr.
  - rewrite skipn_all2 by (unfold cols_now; rewrite cols_len; lia). cbn [seq cellsL cellsK kobind kbind].
    replace (hLen (lSlice m1) - length done)%nat with 0%nat by lia. apply sim_ret.
  - cbn [seq cellsL]. apply sim_see. rewrite (skipn_nth _ _ _ (ext_at m1 m j X ltac:(lia))). cbn [cellsK]. apply sim_see.
    destruct (deref m (ptr m (lSlice m1) j)) as [col|]; [|apply sim_ret].
    assert (Ei : index (E := Empty_set) row (Z.of_nat j) = if (j <? hLen item)%nat then Ok (nth j (nth (hArr item) (lRows m) []) []) else Panic IndexOutOfRange).
    { rewrite index_nat, <- Hr. destruct (Nat.ltb_spec j (hLen item)) as [Hlt|Hge]; [rewrite row_nth by exact Hlt; reflexivity|].
      rewrite (proj2 (nth_error_None _ _)); [reflexivity|]. rewrite row_len. exact Hge. }
    rewrite Ei. clear Ei. destruct (Nat.ltb_spec j (hLen item)) as [Hlt|Hge]; cbn [negb]; [|apply sim_ret].
    set (txt := nth j (nth (hArr item) (lRows m) []) []).
    apply (sim_conv env any _ (kobind (kobind (getWidthK found (cols_now m1) (Z.of_nat j) groupI) (fun v =>
      kobind (match kAlign col with Some al => kask (CAlign al txt v) | None => KRet (Ok (AlignmentLeft c txt v)) end) (fun cell =>
      kobind (cellsK c found (cols_now m1) (skipn (S j) (cols_now m1)) row (Z.of_nat j + 1) groupI) (fun cells => KRet (Ok (cell :: cells)))))) (fun cells => KRet (Ok (done ++ cells))))).
    { reflexivity. }
    apply sim_assoc. apply sim_obind_any; [apply width_sim; [exact X|lia]|]. intros w2 m2 v t2 K2. apply width_run in K2. destruct K2 as [-> ->].
    apply sim_assoc. apply sim_obind_any; [destruct (kAlign col); [apply sim_ask; intros; apply sim_ret|apply sim_ret]|]. intros w3 m3 cell t3 K3.
    replace (j <? hLen (lSlice m1))%nat with true by (symmetry; apply Nat.ltb_lt; lia). cbn [negb].
    assert (R : (hArr item < length (lRows m3))%nat /\ row_in m3 item = row_in m item).
    { destruct (kAlign col) as [al|].
      - apply lrun_ask in K3. destruct K3 as (w4 & m4 & a & t4 & K3 & K4 & ->). cbn in K4. injection K4 as <- <- -> <-.
        apply rows_kept; [exact Hi|]. intros b Hb. pose proof (proj1 RK al txt v w m b Hb) as Q. rewrite K3 in Q. exact Q.
      - cbn in K3. injection K3 as <- <- _ _. auto. }
    assert (X3 : Ext m1 m3) by exact (ext_run env _ m1 OA _ _ _ _ _ _ X K3).
    apply sim_assoc. replace (Z.of_nat j + 1) with (Z.of_nat (S j)) by lia.
    specialize (IH (S j) (done ++ [cell]) w3 m3 ltac:(lia) ltac:(rewrite app_length; cbn; lia) X3 (proj1 R) ltac:(rewrite (proj2 R); exact Hr)).
    refine (sim_conv env any _ _ _ w3 m3 _ IH). intros st mw. unfold kobind. rewrite !krun_bind. destruct (krun _ _ st mw) as [[[w5 m5] [l|[]|q]] t5]; cbn [krun kbind]; [|reflexivity].
    rewrite <- app_assoc. reflexivity.
Qed.
(** A cell beyond those there was room for. *)
Lemma cells_grown {W} (env : surroundings W) c colN found h item groupI : forall k j done w m w' m' l tr,
  lrun env (cellsL c colN found h (seq j k) item groupI done) w m = (w', m', Ok l, tr) -> k = 0%nat \/ (j + k <= colN)%nat.
Proof.
  induction k as [|k IH]; intros j done w m w' m' l tr e; [auto|]. right. cbn [seq cellsL lrun lfield] in e.
  destruct (deref m _) as [col|]; [|cbn in e; discriminate]. destruct (negb (j <? hLen item)%nat); [cbn in e; discriminate|].
  apply lrun_obind_ok in e. destruct e as (w1 & m1 & v & t1 & u1 & _ & e & ->). apply lrun_obind_ok in e. destruct e as (w2 & m2 & s & t2 & u2 & _ & e & ->).
  destruct (Nat.ltb_spec j colN) as [Hj|Hj]; [|cbn in e; discriminate]. cbn [negb] in e. apply IH in e. lia.
Qed.
Lemma sim_get {W A} (env : surroundings W) P i (fl : header -> lprog (res A)) (fk : list str -> kprog (res A)) w m :
  (forall w1 m1 r, env (CGet i) w m = (w1, m1, Ok r) -> Sim env P (fl r) (fk (row_in m1 r)) w1 m1) ->
  Sim (A := res A) env P (lobind (lask (CGet i)) fl) (kobind (kask (CGet i)) fk) w m.
Proof.
  intros S. refine (sim_ask env P (CGet i) _ _ w m _). intros w1 m1 [r|[]|p] e; cbn [lbind kbind as_answer]; [exact (S w1 m1 r e)|apply sim_ret].
Qed.
Lemma render_sim {W} (env : surroundings W) c found m0 i groupI w m : OnlyAdds env -> RowsKept env -> Ext m0 m ->
  Sim env (fit m0) (renderL c (hLen (lSlice m0)) found i groupI) (renderK c (cols_now m0) found i groupI) w m.
Proof.
  intros OA RK X. unfold renderL, renderK. apply sim_get. intros w1 m1 r e1. apply sim_see.
  pose proof (ext_env env m0 _ w m w1 m1 _ OA X e1) as X1. pose proof (proj2 RK i w m) as Hr. rewrite e1 in Hr.
  apply sim_if. intros w' m' o tr e Hf.
  pose proof (ex_more _ _ X1) as Hm. assert (Hl : hLen (lSlice m1) = hLen (lSlice m0)).
  { destruct Hf as [[b ->]|Hs].
    - apply lrun_obind_ok in e. destruct e as (w2 & m2 & l & t1 & t2 & e & _ & _). apply cells_grown in e. lia.
    - apply run_more in e; [lia|exact OA|exact (ex_valid _ _ X1)]. }
  rewrite <- Hl, <- (ext_same m0 m1 X1 Hl).
  apply sim_fit. apply sim_obind_any; [|intros; apply sim_ret].
  refine (sim_conv env any _ _ _ w1 m1 _ (cells_sim env c found m1 r (row_in m1 r) groupI OA RK (hLen (lSlice m1)) 0 [] w1 m1 eq_refl eq_refl (ext_refl m1 (ex_valid _ _ X1)) Hr eq_refl)).
  intros st mw. cbn [skipn app]. unfold kobind. rewrite krun_bind. destruct (krun _ _ st mw) as [[[w5 m5] [x|[]|q]] t5]; cbn [krun]; rewrite app_nil_r; reflexivity.
Qed.
Lemma groups_sim {W} (env : surroundings W) c found m0 n P gs : OnlyAdds env -> RowsKept env -> forall w m, Ext m0 m ->
  Sim env (fit m0) (groupsL n P (renderL c (hLen (lSlice m0)) found) gs) (groupsK n P (renderK c (cols_now m0) found) gs) w m.
Proof.
  intros OA RK. induction gs as [|g gs IH]; intros w m X; cbn [groupsL groupsK]; [apply sim_ret|]. destruct (P g >=? n); [apply sim_ret|].
  apply (sim_obind_fit env m0); [exact OA|exact X|apply render_sim; assumption|]. intros w1 m1 b t1 K1. pose proof (ext_run env _ m0 OA _ _ _ _ _ _ X K1) as X1.
  apply (sim_obind_fit env m0); [exact OA|exact X1|apply IH; exact X1|]. intros. apply sim_ret.
Qed.
Lemma lines_sim {W} (env : surroundings W) m0 (ll : Z -> lprog (res str)) (lk : Z -> kprog (res str)) ls : OnlyAdds env ->
  (forall i w m, Ext m0 m -> Sim env (fit m0) (ll i) (lk i) w m) -> forall w m, Ext m0 m -> Sim env (fit m0) (linesL ll ls) (linesK lk ls) w m.
Proof.
  intros OA S. induction ls as [|l ls IH]; intros w m X; cbn [linesL linesK]; [apply sim_ret|].
  apply (sim_obind_fit env m0); [exact OA|exact X|apply S; exact X|]. intros w1 m1 b t1 K1. pose proof (ext_run env _ m0 OA _ _ _ _ _ _ X K1) as X1.
  apply sim_ask. intros w2 m2 [u|e|p] K2; cbn [as_answer]; [|apply sim_ret|apply sim_ret]. apply IH. exact (ext_env env m0 _ _ _ _ _ _ OA X1 K2).
Qed.
Lemma emit_sim {W} (env : surroundings W) md c sep gc found m0 w m : OnlyAdds env -> RowsKept env -> Ext m0 m ->
  Sim env (fit m0) (emitL md c (hLen (lSlice m0)) sep gc found) (emitK md c (cols_now m0) sep gc found) w m.
Proof.
  intros OA RK X. unfold emitL, emitK. apply (sim_obind_fit env m0); [exact OA|exact X|apply sim_ask; intros; apply sim_ret|]. intros w1 m1 n t1 K1.
  pose proof (ext_run env _ m0 OA _ _ _ _ _ _ X K1) as X1. apply (lines_sim env m0); [exact OA| |exact X1].
  intros i w2 m2 X2. apply (sim_obind_fit env m0); [exact OA|exact X2|apply groups_sim; assumption|]. intros. apply sim_ret.
Qed.
Lemma maxCell_sim {W} (env : surroundings W) c i : forall js mw w m, Sim env any (maxCellL c i js mw) (maxCellK c i js mw) w m.
Proof.
  induction js as [|j js IH]; intros mw w m; cbn [maxCellL maxCellK]; [apply sim_ret|]. apply sim_get. intros w1 m1 r e. apply sim_see.
  apply sim_obind_any; [apply sim_ret|]. intros. apply IH.
Qed.
Lemma widths_sim {W} (env : surroundings W) c n idxs gc w m : Sim env any (widthsL c n idxs gc) (widthsK c n idxs gc) w m.
Proof.
  unfold widthsL, widthsK. apply sim_obind_any; [|intros; apply sim_ret]. apply sim_map_any. intros. apply sim_map_any. intros. apply maxCell_sim.
Qed.
(** No column was added up to the end. *)
Definition same {A} (m0 : lmem) (a : A) (m : lmem) : Prop := hLen (lSlice m) = hLen (lSlice m0).
Lemma merged_sim {W} (env : surroundings W) md c gc m0 w m : OnlyAdds env -> Ext m0 m ->
  Sim env (same m0) (mergedL md c gc) (mergedK md c (slen (cols_now m0)) gc) w m.
Proof.
  intros OA X. unfold mergedL, mergedK.
  apply (sim_bind env any (same m0)); [apply sim_ask; intros; apply sim_ret|constructor|]. intros w1 m1 [n|e|p] t1 K1; [|apply sim_ret|apply sim_ret].
  pose proof (ext_run env _ m0 OA _ _ _ _ _ _ X K1) as X1. apply sim_see. cbv zeta.
  apply sim_if. intros w' m' r tr e Hs. pose proof (ext_run env _ m1 OA _ _ _ _ _ _ (ext_refl m1 (ex_valid _ _ X1)) e) as X2.
  pose proof (ex_more _ _ X1). pose proof (ex_more _ _ X2). unfold same in Hs. assert (Hl : hLen (lSlice m1) = hLen (lSlice m0)) by lia. clear e.
  rewrite slen_cols, Hl. apply (sim_weaken env (same m0) any); [constructor|]. destruct md.
  - apply sim_obind_any; [apply widths_sim|intros; apply sim_ret].
  - destruct (_ =? 0); [apply sim_ret|]. destruct (gc >? _); [apply sim_ret|]. apply sim_obind_any; [apply widths_sim|intros; apply sim_ret].
Qed.
Lemma calc_sim {W} (env : surroundings W) md c mw margin g0 m0 : OnlyAdds env -> forall fuel extra cw w m, Ext m0 m ->
  Sim env (same m0) (calcL fuel md c (slen (cols_now m0)) mw margin g0 extra cw) (calcK fuel md c (slen (cols_now m0)) mw margin g0 extra cw) w m.
Proof.
  intros OA. induction fuel as [|f IH]; intros extra cw w m X; cbn [calcL calcK]; [apply sim_ret|].
  apply (sim_bind env (same m0) (same m0)); [apply merged_sim; assumption| |].
  - intros w' m' a tr w'' m'' b tr' K1 K2 Hs. pose proof (ext_run env _ m0 OA _ _ _ _ _ _ X K1) as X1.
    pose proof (ext_run env _ m' OA _ _ _ _ _ _ (ext_refl m' (ex_valid _ _ X1)) K2) as X2. pose proof (ex_more _ _ X1). pose proof (ex_more _ _ X2). unfold same in *. lia.
  - intros w' m' a tr K1. pose proof (ext_run env _ m0 OA _ _ _ _ _ _ X K1) as X1. destruct a as [[l|]|e|p]; try apply sim_ret.
    destruct (_ >? mw); [apply sim_ret|]. apply IH. exact X1.
Qed.

(** ** The whole *)
Lemma groupCount_pos {W} (env : surroundings W) cols maxWidth sep w m w' m' gc tr :
  lrun env (groupCountL cols maxWidth sep) w m = (w', m', Ok gc, tr) -> 1 <= gc.
Proof.
  unfold groupCountL. intros e. apply lrun_obind_ok in e. destruct e as (w1 & m1 & tw & t1 & t2 & _ & e & _). destruct (_ =? 0); [cbn in e; discriminate|].
  cbn [lrun] in e. injection e as _ _ <- _. destruct (Z.ltb_spec (u16 (clampWidth maxWidth + u16 (slen sep)) / u16 (tw + u16 (slen sep))) 1); lia.
Qed.
(** If an item is printed, there were no more columns then than room for. *)
Lemma render_len {W} (env : surroundings W) c colN found i groupI m0 w m w' m' b tr : OnlyAdds env -> Ext m0 m ->
  lrun env (renderL c colN found i groupI) w m = (w', m', Ok b, tr) -> (hLen (lSlice m0) <= colN)%nat.
Proof.
  intros OA X e. unfold renderL in e. apply lrun_obind_ok in e. destruct e as (w1 & m1 & r & t1 & t2 & e1 & e & _).
  pose proof (ext_run env _ m0 OA _ _ _ _ _ _ X e1) as X1. cbn [lrun] in e. apply lrun_obind_ok in e. destruct e as (w2 & m2 & l & t3 & t4 & e & _ & _).
  apply cells_grown in e. pose proof (ex_more _ _ X1). lia.
Qed.
Lemma zrange_cons n : 1 <= n -> exists l, zrange n = 0 :: l.
Proof. intros Hn. unfold zrange. destruct (Z.to_nat n) as [|k] eqn:E0; [lia|]. cbn [seq map]. eauto. Qed.
Lemma emit_len {W} (env : surroundings W) md c colN sep gc found m0 w m w' m' u tr : OnlyAdds env -> Ext m0 m -> 1 <= gc ->
  lrun env (emitL md c colN sep gc found) w m = (w', m', Ok u, tr) -> (forall n, In (Called CLen (Ok n)) (acts tr) -> 0 < n) -> (hLen (lSlice m0) <= colN)%nat.
Proof.
  intros OA X Hg e Hn. unfold emitL in e. apply lrun_obind_ok in e. destruct e as (w1 & m1 & n & t1 & t2 & e1 & e & ->).
  pose proof (ext_run env _ m0 OA _ _ _ _ _ _ X e1) as X1. apply lrun_ask in e1. destruct e1 as (w2 & m2 & a & t3 & e1 & e2 & ->). cbn in e2. injection e2 as -> -> -> <-.
  assert (0 < n) by (apply Hn; rewrite acts_app; left; reflexivity).
  assert (Hl : 1 <= lineCountOf n gc) by (unfold lineCountOf; pose proof (Z.quot_pos (n - 1) gc ltac:(lia) ltac:(lia)); lia).
  destruct (zrange_cons _ Hl) as [ls El]. rewrite El in e. cbn [linesL] in e. apply lrun_obind_ok in e. destruct e as (w3 & m3 & txt & t4 & t5 & e & _ & _).
  apply lrun_obind_ok in e. destruct e as (w4 & m4 & bs & t6 & t7 & e & _ & _). destruct (zrange_cons gc Hg) as [gs Eg]. rewrite Eg in e. cbn [groupsL] in e.
  replace (place md gc (lineCountOf n gc) 0 0) with 0 in e by (destruct md; cbn; lia). destruct (Z.geb_spec 0 n); [lia|].
  apply lrun_obind_ok in e. destruct e as (w5 & m5 & b & t8 & t9 & e & _ & _). exact (render_len env c colN found 0 0 m0 w1 m1 _ _ _ _ OA X1 e).
Qed.
Lemma calc_extra {W} (env : surroundings W) md c cn mw margin g0 : forall fuel extra cw w m w' m' x l tr, 0 <= extra ->
  lrun env (calcL fuel md c cn mw margin g0 extra cw) w m = (w', m', Some (Ok (x, l)), tr) -> 0 <= x.
Proof.
  induction fuel as [|f IH]; intros extra cw w m w' m' x l tr He e; cbn [calcL] in e; [cbn in e; discriminate|].
  apply lrun_bind_inv in e. destruct e as (w1 & m1 & o & t1 & t2 & _ & e & _). destruct o as [[cw'|]|[]|q]; [|cbn in e; injection e as _ _ <- _ _; exact He|cbn in e; discriminate].
  revert e. destruct (_ >? _); intros e; [cbn in e; injection e as _ _ <- _ _; exact He|]. apply IH in e; [exact e|lia].
Qed.
Lemma groupCount_still {W} (env : surroundings W) cols maxWidth sep w m w' m' r tr : lrun env (groupCountL cols maxWidth sep) w m = (w', m', r, tr) -> m' = m.
Proof.
  assert (A : forall cols a w m w' m' r tr, lrun env (tableWidthL (X := Empty_set) cols a) w m = (w', m', r, tr) -> m' = m).
  { clear. induction cols as [|[col|] cols IH]; intros a w m w' m' r tr e; cbn [tableWidthL lrun] in e; try (injection e as _ <- _ _; reflexivity).
    destruct (lrun env _ w m) as [[[w2 m2] r2] t2] eqn:K. injection e as _ <- _ _. exact (IH _ _ _ _ _ _ _ K). }
  unfold groupCountL. intros e. apply lrun_obind in e. destruct e as [(w2 & m2 & tw & t2 & t3 & e1 & e2 & _)|(o & e1 & _)]; [|exact (A _ _ _ _ _ _ _ _ e1)].
  apply A in e1. subst m2. destruct (_ =? 0); cbn in e2; injection e2 as _ <- _ _; reflexivity.
Qed.
Lemma merge_sim {W} (env : surroundings W) md fuel c maxWidth sep compact w0 m0 w' m' r tr : OnlyAdds env -> RowsKept env -> Valid m0 ->
  lrun env (mergeL md fuel c maxWidth sep compact) w0 m0 = (w', m', r, tr) ->
  hLen (lSlice m') = hLen (lSlice m0) \/ (r = Some (Ok tt) /\ forall n, In (Called CLen (Ok n)) (acts tr) -> 0 < n) ->
  exists mk, krun (as_environment env) (mergeK md fuel c (cols_now m0) maxWidth sep compact) (w0, m0) (lWidths m0) = ((w', mk), lWidths m', r, acts tr).
Proof.
  intros OA RK V e HF. pose proof (ext_refl m0 V) as X. unfold mergeL in e. cbn [lrun] in e. apply lrun_bind_inv in e. destruct e as (w1 & m1 & o & t1 & t2 & e1 & e & ->).
  destruct (groupCount_sim env (cols_now m0) maxWidth sep w0 m0 _ _ _ _ e1 Logic.I m0 (set_same m0)) as (mk1 & Hm1 & K1).
  pose proof (groupCount_still env _ _ _ _ _ _ _ _ _ e1) as Hst. subst m1. unfold mergeK. rewrite krun_bind, K1.
  destruct o as [gc|[]|p]; [|cbn in e; injection e as <- <- <- <-; exists mk1; cbn [krun]; rewrite !app_nil_r; reflexivity]. pose proof (groupCount_pos env _ _ _ _ _ _ _ _ _ e1) as Hg.
  assert (FIN : forall found gc' w m w'' m'' u tr, Ext m0 m -> lrun env (emitL md c (hLen (lSlice m0)) sep gc' found) w m = (w'', m'', u, tr) -> fit m0 u m'' ->
    forall mk, set_widths mk (lWidths m) = m -> exists mk', krun (as_environment env) (emitK md c (cols_now m0) sep gc' found) (w, mk) (lWidths m) = ((w'', mk'), lWidths m'', u, acts tr)).
  { intros found gc' w m w'' m'' u tr X' e' Hf mk Hmk. destruct (emit_sim env md c sep gc' found m0 w m OA RK X' _ _ _ _ e' Hf mk Hmk) as (mk' & _ & K). eauto. }
  rewrite acts_app in HF. destruct compact.
  - cbn [lrun] in e. apply lrun_bind_inv in e. destruct e as (w2 & m2 & o & t3 & t4 & e2 & e & ->). rewrite acts_app in HF.
    pose proof (ext_run env _ m0 OA _ _ _ _ _ _ X e2) as X2.
    assert (Hs : same m0 o m2).
    { unfold same. pose proof (ex_more _ _ X2). destruct HF as [HF|[-> HF]].
      - apply run_more in e; [lia|exact OA|exact (ex_valid _ _ X2)].
      - destruct o as [[[extra cw]|[]|p]|]; [|cbn in e; discriminate|cbn in e; discriminate].
        pose proof (calc_extra env md c _ _ _ _ _ _ _ _ _ _ _ _ _ _ (Z.le_refl 0) e2) as Hx.
        apply lrun_bind_inv in e. destruct e as (w3 & m3 & o & t5 & t6 & e3 & e & ->). cbn in e. injection e as <- <- -> <-. rewrite app_nil_r in *.
        set (gc' := if extra >? 0 then gc + extra else gc). set (found := if extra >? 0 then Some cw else None).
        assert (e3' : lrun env (emitL md c (hLen (lSlice m0)) sep gc' found) w2 m2 = (w3, m3, Ok tt, t5)) by (unfold gc', found; destruct (extra >? 0); exact e3).
        assert (Hg' : 1 <= gc') by (unfold gc'; destruct (Z.gtb_spec extra 0); lia).
        pose proof (emit_len env md c _ sep gc' found m2 w2 m2 _ _ _ _ OA (ext_refl m2 (ex_valid _ _ X2)) Hg' e3') as Q.
        specialize (Q ltac:(intros n Hin; apply HF; rewrite !in_app_iff; auto)). lia. }
    rewrite <- slen_cols in e2.
    destruct (calc_sim env md c (clampWidth maxWidth) (u16 (slen sep)) gc m0 OA fuel 0 [] w1 m0 X w2 m2 o t3 e2 Hs mk1 Hm1) as (mk2 & Hm2 & K2).
    rewrite krun_bind, K2. destruct o as [[[extra cw]|[]|p]|].
    2,3: cbn in e; injection e as <- <- <- <-; exists mk2; cbn [krun]; rewrite !acts_app; cbn [acts flat_map]; rewrite ?app_nil_r; reflexivity.
    apply lrun_bind_inv in e. destruct e as (w3 & m3 & o & t5 & t6 & e3 & e & ->). cbn in e. injection e as <- <- <- <-. rewrite app_nil_r in *.
    set (gc' := if extra >? 0 then gc + extra else gc). set (found := if extra >? 0 then Some cw else None).
    assert (e3' : lrun env (emitL md c (hLen (lSlice m0)) sep gc' found) w2 m2 = (w3, m3, o, t5)) by (unfold gc', found; destruct (extra >? 0); exact e3).
    assert (Hf : fit m0 o m3) by (destruct HF as [HF|[HF _]]; [right; exact HF|left; injection HF as ->; exists tt; reflexivity]).
    destruct (FIN found gc' _ _ _ _ _ _ X2 e3' Hf mk2 Hm2) as (mk3 & K3). exists mk3.
    assert (Ek : (if extra >? 0 then emitK md c (cols_now m0) sep (gc + extra) (Some cw) else emitK md c (cols_now m0) sep gc None) = (emitK md c (cols_now m0) sep gc' found : kprog (res unit))) by (unfold gc', found; destruct (extra >? 0); reflexivity).
    rewrite Ek, krun_bind, K3. cbn [krun]. rewrite !acts_app, app_nil_r. reflexivity.
  - apply lrun_bind_inv in e. destruct e as (w3 & m3 & o & t5 & t6 & e3 & e & ->). cbn in e. injection e as <- <- <- <-. rewrite app_nil_r in *.
    assert (Hf : fit m0 o m3) by (destruct HF as [HF|[HF _]]; [right; exact HF|left; injection HF as ->; exists tt; reflexivity]).
    destruct (FIN None gc _ _ _ _ _ _ X e3 Hf mk1 Hm1) as (mk3 & K3). exists mk3. rewrite krun_bind, K3. cbn [krun]. rewrite acts_app, app_nil_r. reflexivity.
Qed.
End Merging.
