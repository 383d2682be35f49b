(** * LruCases: the width cache at small and at its real capacity. *)
From Coq Require Import Strings.String.
From Verif Require Import GoBase Runewidth ConditionSpec RunewidthProofs Width WidthProofs WidthTheory Table TableExamples Merge Cached CachedSpec CachedProofs Lru LruSpec LruProofs.
From Coq Require Import ZifyBool ZifyNat.
Local Open Scope Z_scope.

Definition ta : str := lit "a"%string.
Definition tb : str := lit "b"%string.
Definition tc : str := lit "c"%string.

(** Two entries: the third text drops the one not asked for longest, and a
    text without width is computed each time and still takes an entry. *)
Lemma small_runs : map snd (measureAll 2 exC [] [ta; tb; ta; tc; ta; tb]) = [true; true; false; true; false; true]
  /\ map snd (measureAll 2 exC [] [ta; tb; []; ta; []; []]) = [true; true; true; true; true; true]
  /\ map snd (measureAll 3 exC [] [ta; tb; []; ta; []; []]) = [true; true; true; false; true; true].
Proof. repeat split; vm_compute; reflexivity. Qed.

(** One column; an item is its text. *)
Definition oneGetter : PGetter str str str :=
  {| pgValue := fun item => Ret (Ok item); pgValueString := fun _ item => Ret (Ok item); pgFormat := fun _ v => Ret (Ok v) |}.
Definition oneCol : PColumn str str str :=
  {| pcGetter := Some oneGetter; pcAlignment := None; pcName := lit "n"%string; pcTitle := []; pcShortTitle := [] |}.
Definition oneTable : PTable str str str := {| ptColumns := [Some oneCol]; ptWidth := Some wempty |}.

Lemma one_gives (l : list str) : Forall2 (fun item row => Forall2 (fun col s => Gives col item s) [oneCol] row) l (map (fun s => [s]) l).
Proof.
  induction l as [|s l IH]; cbn [map]; constructor; auto. constructor; [|constructor].
  exists oneGetter, s. repeat split; reflexivity.
Qed.
Lemma one_concat (l : list str) : List.concat (map (fun s => [s]) l) = l.
Proof. induction l as [|s l IH]; cbn; [reflexivity|]. f_equal. exact IH. Qed.

(** All words of [n] letters a and b. *)
Fixpoint words (n : nat) : list str :=
  match n with
  | O => [[]]
  | Datatypes.S n => map (cons x61) (words n) ++ map (cons x62) (words n)
  end.
Lemma words_length n : Z.of_nat (List.length (words n)) = 2 ^ Z.of_nat n.
Proof. induction n as [|n IH]; [reflexivity|]. cbn [words]. rewrite app_length, !map_length. rewrite Nat2Z.inj_succ, Z.pow_succ_r, <- IH by lia. unfold str. lia. Qed.
Lemma words_nodup n : NoDup (words n).
Proof.
  induction n as [|n IH]; [repeat constructor; auto|]. cbn [words].
  assert (J : forall x, NoDup (map (cons x) (words n))).
  { intros x. apply FinFun.Injective_map_NoDup; [|exact IH]. intros p q K. congruence. }
  assert (D : forall y, In y (map (cons x61) (words n)) -> ~ In y (map (cons x62) (words n))).
  { intros y H1 H2. apply in_map_iff in H1. apply in_map_iff in H2. destruct H1 as (p & <- & _), H2 as (q & K & _). congruence. }
  revert D. generalize (J x61) (J x62). generalize (map (cons x61) (words n)) (map (cons x62) (words n)). clear.
  induction 1 as [|x l Hx Hl IH]; intros H2 D; [exact H2|]. cbn. constructor.
  - rewrite in_app_iff. intros [K|K]; [tauto|]. exact (D x (or_introl eq_refl) K).
  - apply IH; auto. intros y Hy. apply D. right. exact Hy.
Qed.

Lemma one_format w K : 0 < K -> forall (items : list str) (t : PTable str str str) done,
  Forall (fun s => w s = K) items -> ptColumns t = [Some oneCol] -> ptWidth t <> None ->
  (widthP t (lit "n"%string) = K \/ widthP t (lit "n"%string) = 0 /\ items <> []) ->
  exists t', value w (formatAllP t items done) = (t', Ok (done ++ map (fun s => [s]) items))
    /\ ptColumns t' = [Some oneCol] /\ widthP t' (lit "n"%string) = K.
Proof.
  intros HK. induction items as [|s items IH]; intros t done Hi Hc Hw Hn.
  - exists t. cbn. rewrite app_nil_r. destruct Hn as [Hn|[_ Hn]]; [auto|congruence].
  - inversion Hi as [|? ? Hs Hi']; subst. cbn [formatAllP]. rewrite value_bind. unfold formatItemP. rewrite Hc.
    cbn [formatItemP_loop oneCol pcGetter pgValue pgFormat oneGetter bind value pcName].
    unfold raiseP. destruct Hn as [Hn|[Hn _]]; rewrite Hn.
    + replace (w s >? w s) with false by lia. cbn [value formatItemP_loop app].
      destruct (IH t (done ++ [[s]]) Hi' Hc Hw (or_introl Hn)) as (t' & T1 & T2). exists t'. rewrite T1. split; [|exact T2].
      cbn [map]. rewrite <- app_assoc. reflexivity.
    + replace (w s >? 0) with true by lia. destruct (ptWidth t) as [m|] eqn:E0; [|congruence]. cbn [value formatItemP_loop app].
      destruct (IH {| ptColumns := ptColumns t; ptWidth := Some (wset m (lit "n"%string) (w s)) |} (done ++ [[s]]) Hi' Hc) as (t' & T1 & T2).
      * discriminate.
      * left. reflexivity.
      * exists t'. rewrite T1. split; [|exact T2]. cbn [map]. rewrite <- app_assoc. reflexivity.
Qed.

Lemma words_all n : Forall (fun s => slen s = Z.of_nat n /\ Forall (fun b => 0x20 <= bv b <= 0x7E) s) (words n).
Proof.
  induction n as [|n IH]; [repeat constructor|]. cbn [words]. apply Forall_app.
  split; apply Forall_map; eapply Forall_impl; [|exact IH| |exact IH]; intros s [H1 H2]; cbv beta; (split; [unfold slen in *; cbn [List.length]; lia|]);
    constructor; auto; cbn; lia.
Qed.
Lemma words_width c n : Reachable c -> Z.of_nat n < 65536 -> Forall (fun s => vwidth c s = Z.of_nat n) (words n).
Proof.
  intros Hc Hn. eapply Forall_impl; [|apply words_all]. intros s [H1 H2]. cbv beta. rewrite <- H1.
  apply (ascii_width c s Hc H2). lia.
Qed.

(** Formatting and printing the words. *)
Lemma words_finish c n maxWidth : Reachable c -> 0 < Z.of_nat n < 65535 ->
  snd (effect (vwidth c) (fun _ => true) 0 (formatAndPrintP oneTable (words n) maxWidth (lit "|"%string))) = Finished.
Proof.
  intros Hc Hn. unfold formatAndPrintP. rewrite effect_first.
  destruct (one_format (vwidth c) (Z.of_nat n) ltac:(lia) (words n) oneTable []) as (t' & T1 & T2 & T3).
  - apply words_width; auto. lia.
  - reflexivity.
  - discriminate.
  - right. split; [reflexivity|]. pose proof (words_length n) as L. intros K. rewrite K in L. cbn in L.
    pose proof (Z.pow_pos_nonneg 2 (Z.of_nat n)). lia.
  - rewrite T1. cbn [app].
    assert (HG : exists gc, groupCountP t' maxWidth (lit "|"%string) = Ok gc /\ 0 <= gc).
    { unfold groupCountP, tableWidthP. rewrite T2. cbn [tableWidthP_loop obind oneCol pcName]. rewrite T3.
      change (u16 (slen (lit "|"%string))) with 1. change (u16 (u16 (u16 (slen [Some oneCol]) - 1) * 1)) with 0. cbn [Z.add].
      rewrite (u16_small (Z.of_nat n)), u16_small by lia. replace (Z.of_nat n + 1 =? 0) with false by lia.
      eexists. split; [reflexivity|]. destruct (Z.ltb_spec (u16 (clampWidth maxWidth + 1) / (Z.of_nat n + 1)) 1); lia. }
    destruct HG as (gc & HG & H0). eapply print_finishes with (cols := [oneCol]); eauto.
    + constructor; [left; reflexivity|constructor].
    + apply Forall_map. apply Forall_forall. intros s _. reflexivity.
Qed.

(** [2 ^ n] words, more than the cache holds: every call computes. *)
Lemma words_twice cap c n maxWidth out st log : (1 <= cap)%nat -> Reachable c -> 0 < Z.of_nat n < 65535 -> Z.of_nat cap < 2 ^ Z.of_nat n ->
  runL cap c (fun _ => true) 0 [] (formatAndPrintP oneTable (words n) maxWidth (lit "|"%string)) = (out, st, log) ->
  st = Finished /\ Z.of_nat (List.length log) = 2 * 2 ^ Z.of_nat n /\ Z.of_nat (count (map snd log)) = 2 * 2 ^ Z.of_nat n
  /\ Z.of_nat (distinct (map fst log)) = 2 ^ Z.of_nat n.
Proof.
  intros Hcap Hc Hn Hbig R. destruct (program_runs _ _ _ _ _ _ _ Hcap R) as (K1 & _).
  assert (Hst : st = Finished).
  { pose proof (words_finish c n maxWidth Hc Hn) as F. rewrite <- K1 in F. exact F. }
  destruct (session_computes cap c oneTable [oneCol] (words n) (map (fun s => [s]) (words n)) maxWidth (lit "|"%string) out st log) as (S1 & _ & S2); auto.
  - discriminate.
  - constructor; [left; reflexivity|constructor].
  - apply one_gives.
  - rewrite one_concat in S1, S2. pose proof (words_length n) as L.
    specialize (S2 (words_nodup n)). split; [exact Hst|]. split; [|split].
    + rewrite <- (map_length fst log), S1, app_length. unfold str in *. lia.
    + rewrite S2 by (unfold str in *; lia). unfold str in *. lia.
    + rewrite S1, (distinct_same (words n ++ words n) (words n)) by (intros x; rewrite in_app_iff; tauto).
      unfold distinct. rewrite (nodup_fixed_point str_eq_dec (words_nodup n)). exact L.
Qed.

(** With 10000 entries: 16384 words, formatted and then printed, are measured
    32768 times and computed 32768 times. *)
Lemma real_twice c maxWidth out st log : Reachable c ->
  runL capacity c (fun _ => true) 0 [] (formatAndPrintP oneTable (words 14) maxWidth (lit "|"%string)) = (out, st, log) ->
  st = Finished /\ Z.of_nat (List.length log) = 32768 /\ Z.of_nat (count (map snd log)) = 32768 /\ Z.of_nat (distinct (map fst log)) = 16384.
Proof.
  intros Hc R. refine (words_twice capacity c 14 maxWidth out st log _ Hc _ _ R); unfold capacity; [lia|lia|].
  rewrite Z2Nat.id; [reflexivity|lia].
Qed.
