(** * TableHeapProofs: tables in memory behave as values unless a struct is copied. *)
From Verif Require Import GoBase Runewidth Width Table TableContract TableOpsProofs CondHeap CondHeapProofs TableHeap TableHeapSpec.
From Coq Require Import ZifyBool ZifyNat.
Local Open Scope nat_scope.

Section WithTypes.
Context {Item Val E : Type}.
Notation world := (world Item Val E).
Notation wop := (wop Item Val E).
Implicit Types (w : world) (o : wop).

(** ** Lists *)
Lemma nth_update_eq {A} (l : list A) i a d : i < length l -> nth i (update l i a) d = a.
Proof. intros Hi. apply nth_error_nth. apply update_eq, Hi. Qed.
Lemma nth_update_neq {A} (l : list A) i j a d : i <> j -> nth j (update l i a) d = nth j l d.
Proof. intros Hi. rewrite <- !nth_default_eq. unfold nth_default. rewrite update_neq by exact Hi. reflexivity. Qed.
Lemma firstn_update {A} (l : list A) n a : n < length l -> firstn (S n) (update l n a) = firstn n l ++ [a].
Proof.
  revert n. induction l as [|x l IH]; intros [|n] Hn; cbn [length] in Hn; [lia|lia|reflexivity|].
  cbn [update]. change (firstn (S (S n)) (x :: update l n a)) with (x :: firstn (S n) (update l n a)).
  rewrite IH by lia. reflexivity.
Qed.
Lemma nth_Forall {A} (P : A -> Prop) l i d : Forall P l -> P d -> P (nth i l d).
Proof. intros Hl Hd. revert i. induction Hl; intros [|i]; cbn; auto. Qed.
Lemma firstn_Forall {A} (P : A -> Prop) l n : Forall P l -> Forall P (firstn n l).
Proof. intros Hl. revert n. induction Hl; intros [|n]; cbn; auto. Qed.

(** ** Invariant of all worlds *)
Definition spec_ok w (s : hspec) : Prop :=
  match hsMap s with Some m => m < length (wMaps w) | None => True end
  /\ aArr (hsCols s) < length (wArrs w) /\ aLen (hsCols s) <= aCap (hsCols s)
  /\ length (nth (aArr (hsCols s)) (wArrs w) []) = aCap (hsCols s).
Definition table_ok w (t : htable) : Prop :=
  htSpec t < length (wSpecs w) /\ match htWidth t with Some m => m < length (wWidths w) | None => True end.
Definition ptr_ok w (p : option nat) : Prop := valid_ptr w p = true.
Definition wok w : Prop :=
  Forall (spec_ok w) (wSpecs w) /\ Forall (table_ok w) (wTables w)
  /\ Forall (Forall (ptr_ok w)) (wArrs w) /\ Forall (Forall (fun e => ptr_ok w (snd e))) (wMaps w).

(** Copies share nothing with each other. *)
Definition wsep w : Prop :=
  (forall i j a b, i <> j -> nth_error (wSpecs w) i = Some a -> nth_error (wSpecs w) j = Some b ->
     aArr (hsCols a) <> aArr (hsCols b) /\ forall m, hsMap a = Some m -> hsMap b <> Some m)
  /\ (forall i j a b, i <> j -> nth_error (wTables w) i = Some a -> nth_error (wTables w) j = Some b ->
     forall m, htWidth a = Some m -> htWidth b <> Some m).

Lemma ptr_ok_more w w' p : length (wCols w) <= length (wCols w') -> ptr_ok w p -> ptr_ok w' p.
Proof. unfold ptr_ok, valid_ptr. destruct p; auto. lia. Qed.
Lemma spec_ok_more w w' s : length (wMaps w) <= length (wMaps w') ->
  (forall a, a < length (wArrs w) -> a < length (wArrs w') /\ length (nth a (wArrs w') []) = length (nth a (wArrs w) [])) ->
  spec_ok w s -> spec_ok w' s.
Proof.
  intros Hm Ha (A & B & C & D). destruct (Ha _ B) as [B1 B2]. unfold spec_ok. rewrite B2.
  repeat split; try assumption. destruct (hsMap s); [lia|auto].
Qed.
Lemma table_ok_more w w' t : length (wSpecs w) <= length (wSpecs w') -> length (wWidths w) <= length (wWidths w') ->
  table_ok w t -> table_ok w' t.
Proof. intros Hs Hw [A B]. split; [lia|]. destruct (htWidth t); [lia|auto]. Qed.

Lemma arrs_app w x a : a < length (wArrs w) ->
  a < length (wArrs w ++ [x]) /\ length (nth a (wArrs w ++ [x]) []) = length (nth a (wArrs w) []).
Proof. intros Ha. rewrite app_length. split; [cbn; lia|]. rewrite app_nth1 by exact Ha. reflexivity. Qed.

(** *** New specs *)
Lemma new_spec_ok w : wok w -> wok (new_spec w).
Proof.
  intros (A & B & C & D). repeat split; cbn [new_spec wSpecs wTables wArrs wMaps].
  - apply Forall_app. split.
    + revert A. apply Forall_impl. intros s. apply spec_ok_more; cbn [new_spec wMaps wArrs]; [rewrite app_length; lia|apply arrs_app].
    + constructor; [|constructor]. unfold spec_ok. cbn. rewrite !app_length, app_nth2, Nat.sub_diag by lia. cbn. lia.
  - revert B. apply Forall_impl. intros t. apply table_ok_more; cbn [new_spec wSpecs wWidths]; [rewrite app_length|]; lia.
  - apply Forall_app. split; [|repeat constructor]. exact C.
  - apply Forall_app. split; [|repeat constructor]. exact D.
Qed.

(** *** Adding a column *)
Lemma resolve_cols w w' p : wCols w' = wCols w -> resolve w' p = resolve w p.
Proof. intros H. unfold resolve. rewrite H. reflexivity. Qed.
Lemma valid_cols w w' p : wCols w' = wCols w -> valid_ptr w' p = valid_ptr w p.
Proof. intros H. unfold valid_ptr. rewrite H. reflexivity. Qed.

Lemma append_cols w si s p spare : wCols (append_col w si s p spare) = wCols w
  /\ wMaps (append_col w si s p spare) = wMaps w /\ wWidths (append_col w si s p spare) = wWidths w
  /\ wTables (append_col w si s p spare) = wTables w /\ length (wSpecs (append_col w si s p spare)) = length (wSpecs w).
Proof. unfold append_col. cbv zeta. destruct (_ <? _); cbn; rewrite update_length; auto. Qed.

Lemma append_ok w si s p spare : wok w -> nth_error (wSpecs w) si = Some s -> valid_ptr w p = true ->
  wok (append_col w si s p spare).
Proof.
  intros (A & B & C & D) Hs Hp.
  pose proof (proj1 (Forall_forall _ _) A s (nth_error_In _ _ Hs)) as (S1 & S2 & S3 & S4).
  unfold append_col. cbv zeta. destruct (_ <? _) eqn:El.
  - repeat split; cbn [wSpecs wTables wArrs wMaps].
    + apply update_Forall.
      * revert A. apply Forall_impl. intros x. apply spec_ok_more; cbn [wMaps wArrs]; [lia|]. intros a Ha.
        rewrite update_length. split; [exact Ha|]. destruct (Nat.eq_dec (aArr (hsCols s)) a) as [<-|N].
        -- rewrite nth_update_eq, update_length by exact Ha. reflexivity.
        -- rewrite nth_update_neq by exact N. reflexivity.
      * unfold spec_ok. cbn [hsMap hsCols aArr aLen aCap wMaps wArrs]. rewrite update_length, nth_update_eq, update_length by exact S2.
        repeat split; try assumption. apply Nat.ltb_lt in El. lia.
    + revert B. apply Forall_impl. intros t. apply table_ok_more; cbn [wSpecs wWidths]; rewrite ?update_length; lia.
    + apply update_Forall; [exact C|]. apply update_Forall; [|exact Hp]. apply (nth_Forall (Forall (ptr_ok w))); [exact C|constructor].
    + exact D.
  - assert (L : length (firstn (aLen (hsCols s)) (nth (aArr (hsCols s)) (wArrs w) [])) = aLen (hsCols s)) by (apply firstn_length_le; lia).
    repeat split; cbn [wSpecs wTables wArrs wMaps].
    + apply update_Forall.
      * revert A. apply Forall_impl. intros x. apply spec_ok_more; cbn [wMaps wArrs]; [lia|apply arrs_app].
      * unfold spec_ok. cbn [hsMap hsCols aArr aLen aCap wMaps wArrs]. rewrite app_nth2, Nat.sub_diag by lia. cbn [nth].
        rewrite !app_length, L. cbn [length]. rewrite repeat_length. repeat split; try assumption; lia.
    + revert B. apply Forall_impl. intros t. apply table_ok_more; cbn [wSpecs wWidths]; rewrite ?update_length; lia.
    + apply Forall_app. split; [exact C|]. constructor; [|constructor]. apply Forall_app. split.
      * apply firstn_Forall, (nth_Forall (Forall (ptr_ok w))); [exact C|constructor].
      * constructor; [exact Hp|]. apply Forall_forall. intros q Hq. apply repeat_spec in Hq. subst q. reflexivity.
    + exact D.
Qed.

Lemma store_name_ok w s p : wok w -> valid_ptr w p = true -> wok (store_name w s p).
Proof.
  intros (A & B & C & D) Hp. unfold store_name. destruct (resolve w p) as [col|]; [|split; auto]. destruct (hsMap s) as [m|]; [|split; auto].
  repeat split; cbn [wSpecs wTables wArrs wMaps].
  - revert A. apply Forall_impl. intros x. apply spec_ok_more; cbn [wMaps wArrs]; [rewrite update_length; lia|auto].
  - exact B.
  - exact C.
  - apply update_Forall; [exact D|]. constructor; [exact Hp|].
    apply (nth_Forall (Forall (fun e => ptr_ok w (snd e)))); [exact D|constructor].
Qed.
Lemma store_widths_ok w t t' : wok w -> wok (store_widths w t t').
Proof.
  intros (A & B & C & D). unfold store_widths. destruct (htWidth t) as [m|]; [|split; auto]. destruct (columnWidth t') as [f|]; [|split; auto].
  repeat split; cbn [wSpecs wTables wArrs wMaps]; try assumption.
  revert B. apply Forall_impl. intros x. apply table_ok_more; cbn [wSpecs wWidths]; rewrite ?update_length; lia.
Qed.

Lemma wstep_ok w o : wok w -> wok (wstep w o).
Proof.
  intros Hw. pose proof Hw as (A & B & C & D). destruct o as [col|p col| | |si|si p spare|sp|ti|ti l|ti c item|si]; cbn [wstep].
  - repeat split; cbn [wSpecs wTables wArrs wMaps]; try assumption.
    + revert C. apply Forall_impl. intros a. apply Forall_impl. intros p. apply ptr_ok_more. cbn. rewrite app_length. lia.
    + revert D. apply Forall_impl. intros a. apply Forall_impl. intros p. apply ptr_ok_more. cbn. rewrite app_length. lia.
  - repeat split; cbn [wSpecs wTables wArrs wMaps]; try assumption.
    + revert C. apply Forall_impl. intros a. apply Forall_impl. intros q. apply ptr_ok_more. cbn. rewrite update_length. lia.
    + revert D. apply Forall_impl. intros a. apply Forall_impl. intros q. apply ptr_ok_more. cbn. rewrite update_length. lia.
  - apply new_spec_ok, Hw.
  - repeat split; cbn [wSpecs wTables wArrs wMaps].
    + apply Forall_app. split.
      * revert A. apply Forall_impl. intros s. apply spec_ok_more; cbn [wMaps wArrs]; [lia|apply arrs_app].
      * constructor; [|constructor]. unfold spec_ok. cbn. rewrite app_length, app_nth2, Nat.sub_diag by lia. cbn. lia.
    + revert B. apply Forall_impl. intros t. apply table_ok_more; cbn [wSpecs wWidths]; [rewrite app_length|]; lia.
    + apply Forall_app. split; [exact C|repeat constructor].
    + exact D.
  - destruct (nth_error (wSpecs w) si) as [s|] eqn:Es; [|exact Hw]. repeat split; cbn [wSpecs wTables wArrs wMaps]; try assumption.
    + apply Forall_app. split; [exact A|]. constructor; [|constructor]. exact (proj1 (Forall_forall _ _) A s (nth_error_In _ _ Es)).
    + revert B. apply Forall_impl. intros t. apply table_ok_more; cbn [wSpecs wWidths]; [rewrite app_length|]; lia.
  - destruct (nth_error (wSpecs w) si) as [s|] eqn:Es; [|exact Hw]. destruct (valid_ptr w p) eqn:Ep; [|exact Hw].
    apply store_name_ok; [apply append_ok; assumption|]. rewrite (valid_cols w); [exact Ep|apply append_cols].
  - destruct sp as [si|].
    + destruct (si <? length (wSpecs w)) eqn:El; [|exact Hw]. repeat split; cbn [wSpecs wTables wArrs wMaps]; try assumption.
      apply Forall_app. split.
      * revert B. apply Forall_impl. intros t. apply table_ok_more; cbn [wSpecs wWidths]; [|rewrite app_length]; lia.
      * constructor; [|constructor]. split; cbn; [lia|rewrite app_length; cbn; lia].
    + destruct (new_spec_ok w Hw) as (A' & B' & C' & D'). destruct (_ <? _) eqn:El; [|exact Hw].
      repeat split; cbn [wSpecs wTables wArrs wMaps]; try assumption. apply Forall_app. split.
      * revert B'. apply Forall_impl. intros t. apply table_ok_more; cbn [wSpecs wWidths]; [lia|rewrite app_length; lia].
      * constructor; [|constructor]. apply Nat.ltb_lt in El. split; cbn [htSpec htWidth wSpecs wWidths]; [exact El|rewrite app_length; cbn; lia].
  - destruct (nth_error (wTables w) ti) as [t|] eqn:Et; [|exact Hw]. repeat split; cbn [wSpecs wTables wArrs wMaps]; try assumption.
    apply Forall_app. split; [exact B|]. constructor; [|constructor]. exact (proj1 (Forall_forall _ _) B t (nth_error_In _ _ Et)).
  - destruct (nth_error (wTables w) ti) as [t|]; [|exact Hw]. destruct (table_of w t); [|exact Hw]. apply store_widths_ok, Hw.
  - destruct (nth_error (wTables w) ti) as [t|]; [|exact Hw]. destruct (table_of w t); [|exact Hw]. apply store_widths_ok, Hw.
  - destruct (si <? length (wSpecs w)) eqn:El; [|exact Hw]. repeat split; cbn [wSpecs wTables wArrs wMaps]; try assumption.
    apply Forall_app. split; [exact B|]. constructor; [|constructor]. split; cbn; [apply Nat.ltb_lt, El|exact I].
Qed.
Lemma world0_ok : wok (@world0 Item Val E).
Proof. repeat split; constructor. Qed.
Lemma run_ok w ops : wok w -> wok (fold_left wstep ops w).
Proof. revert w. induction ops as [|o ops IH]; intros w Hw; cbn [fold_left]; [exact Hw|]. apply IH, wstep_ok, Hw. Qed.
Lemma wrun_ok ops : wok (@wrun Item Val E ops).
Proof. apply run_ok, world0_ok. Qed.

(** ** What an operation leaves in place *)
Lemma add_spec w si s p spare : wok w -> nth_error (wSpecs w) si = Some s -> valid_ptr w p = true ->
  let w' := wstep w (WAdd si p spare) in
  wCols w' = wCols w /\ wTables w' = wTables w /\ wWidths w' = wWidths w
  /\ exists sl, wSpecs w' = update (wSpecs w) si {| hsMap := hsMap s; hsTime := hsTime s; hsCols := sl |}
  /\ aLen sl = S (aLen (hsCols s))
  /\ firstn (aLen sl) (nth (aArr sl) (wArrs w') []) = firstn (aLen (hsCols s)) (nth (aArr (hsCols s)) (wArrs w) []) ++ [p]
  /\ (aArr sl = aArr (hsCols s) \/ aArr sl = length (wArrs w))
  /\ (forall a, a < length (wArrs w) -> a <> aArr (hsCols s) -> nth a (wArrs w') [] = nth a (wArrs w) [])
  /\ wMaps w' = match resolve w p, hsMap s with
                | Some col, Some m => update (wMaps w) m ((colName col, p) :: nth m (wMaps w) [])
                | _, _ => wMaps w
                end.
Proof.
  intros Hw Hs Hp w'. destruct Hw as (A & _). pose proof (proj1 (Forall_forall _ _) A s (nth_error_In _ _ Hs)) as (S1 & S2 & S3 & S4).
  unfold w'. cbn [wstep]. rewrite Hs, Hp. destruct (append_cols w si s p spare) as (E1 & E2 & E3 & E4 & _).
  set (v := append_col w si s p spare) in *.
  assert (K : wCols (store_name v s p) = wCols v /\ wTables (store_name v s p) = wTables v /\ wWidths (store_name v s p) = wWidths v
    /\ wSpecs (store_name v s p) = wSpecs v /\ wArrs (store_name v s p) = wArrs v
    /\ wMaps (store_name v s p) = match resolve w p, hsMap s with
                | Some col, Some m => update (wMaps w) m ((colName col, p) :: nth m (wMaps w) [])
                | _, _ => wMaps w end).
  { unfold store_name. rewrite (resolve_cols w v) by exact E1. destruct (resolve w p), (hsMap s); cbn; rewrite ?E2; repeat split. }
  destruct K as (K1 & K2 & K3 & K4 & K5 & K6). rewrite K1, K2, K3, K4, K5, K6.
  split; [exact E1|]. split; [exact E4|]. split; [exact E3|].
  unfold v, append_col. cbv zeta. destruct (_ <? _) eqn:El; cbn [wSpecs wArrs]; eexists; (split; [reflexivity|]); cbn [aLen aArr].
  - split; [reflexivity|]. apply Nat.ltb_lt in El. split; [|split; [left; reflexivity|split; [|reflexivity]]].
    + rewrite nth_update_eq by exact S2. apply firstn_update. lia.
    + intros a Ha N. apply nth_update_neq. congruence.
  - split; [reflexivity|]. apply Nat.ltb_ge in El. split; [|split; [right; reflexivity|split; [|reflexivity]]].
    + rewrite app_nth2, Nat.sub_diag by lia. cbn [nth].
      assert (L : length (firstn (aLen (hsCols s)) (nth (aArr (hsCols s)) (wArrs w) [])) = aLen (hsCols s)) by (apply firstn_length_le; lia).
      rewrite firstn_app, L, Nat.sub_succ_l, Nat.sub_diag by lia.
      rewrite (firstn_all2 (n := S (aLen (hsCols s)))) by lia. reflexivity.
    + intros a Ha N. apply app_nth1. exact Ha.
Qed.
Lemma add_other w si p spare : nth_error (wSpecs w) si = None \/ valid_ptr w p = false -> wstep w (WAdd si p spare) = w.
Proof. intros [H|H]; cbn [wstep]; rewrite ?H; [reflexivity|]. destruct (nth_error _ _); reflexivity. Qed.

Lemma widths_step w (t : htable) t' : 
  let w' := store_widths w t t' in
  wCols w' = wCols w /\ wArrs w' = wArrs w /\ wMaps w' = wMaps w /\ wSpecs w' = wSpecs w /\ wTables w' = wTables w
  /\ wWidths w' = match htWidth t, columnWidth t' with Some m, Some f => update (wWidths w) m f | _, _ => wWidths w end.
Proof. cbv zeta. unfold store_widths. destruct (htWidth t), (columnWidth t'); cbn; auto 10. Qed.

Lemma nth_error_app_l {A} (l m : list A) i a : nth_error l i = Some a -> nth_error (l ++ m) i = Some a.
Proof. intros K. rewrite nth_error_app1; [exact K|]. apply nth_error_lt with a, K. Qed.

Lemma tables_stay w o t h : wok w -> nth_error (wTables w) t = Some h -> nth_error (wTables (wstep w o)) t = Some h.
Proof.
  intros Hw Ht. destruct o as [col|p col| | |si|si p spare|sp|ti|ti l|ti c item|si]; try exact Ht.
  - cbn [wstep]. destruct (nth_error (wSpecs w) si); exact Ht.
  - destruct (nth_error (wSpecs w) si) as [s|] eqn:Es; [|rewrite add_other by auto; exact Ht].
    destruct (valid_ptr w p) eqn:Ep; [|rewrite add_other by auto; exact Ht].
    destruct (add_spec w si s p spare Hw Es Ep) as (_ & K & _). rewrite K. exact Ht.
  - cbn [wstep]. destruct sp as [si|]; destruct (_ <? _); try exact Ht; cbn [wTables new_spec]; apply nth_error_app_l, Ht.
  - cbn [wstep]. destruct (nth_error (wTables w) ti); [|exact Ht]. cbn [wTables]. apply nth_error_app_l, Ht.
  - cbn [wstep]. destruct (nth_error (wTables w) ti) as [x|]; [|exact Ht]. destruct (table_of w x) as [y|]; [|exact Ht].
    destruct (widths_step w x (fst (UpdateWidth (E := E) y l))) as (_ & _ & _ & _ & K & _). rewrite K. exact Ht.
  - cbn [wstep]. destruct (nth_error (wTables w) ti) as [x|]; [|exact Ht]. destruct (table_of w x) as [y|]; [|exact Ht].
    destruct (widths_step w x (fst (FormatItem c y item))) as (_ & _ & _ & _ & K & _). rewrite K. exact Ht.
  - cbn [wstep]. destruct (_ <? _); [|exact Ht]. cbn [wTables]. apply nth_error_app_l, Ht.
Qed.
Lemma specs_stay w o i s : wok w -> nth_error (wSpecs w) i = Some s ->
  exists s', nth_error (wSpecs (wstep w o)) i = Some s' /\ hsMap s' = hsMap s /\ hsTime s' = hsTime s.
Proof.
  intros Hw Hs. destruct o as [col|p col| | |si|si p spare|sp|ti|ti l|ti c item|si]; try (exists s; auto; fail).
  - exists s. split; [|auto]. cbn [wstep new_spec wSpecs]. apply nth_error_app_l, Hs.
  - exists s. split; [|auto]. cbn [wstep wSpecs]. apply nth_error_app_l, Hs.
  - exists s. split; [|auto]. cbn [wstep]. destruct (nth_error (wSpecs w) si); [|exact Hs]. cbn [wSpecs]. apply nth_error_app_l, Hs.
  - destruct (nth_error (wSpecs w) si) as [x|] eqn:Es; [|rewrite add_other by auto; exists s; auto].
    destruct (valid_ptr w p) eqn:Ep; [|rewrite add_other by auto; exists s; auto].
    destruct (add_spec w si x p spare Hw Es Ep) as (_ & _ & _ & sl & K & _). rewrite K.
    destruct (Nat.eq_dec si i) as [->|N].
    + rewrite Es in Hs. injection Hs as ->. eexists. rewrite update_eq; [split; [reflexivity|auto]|]. apply nth_error_lt with s, Es.
    + exists s. rewrite update_neq by exact N. auto.
  - exists s. split; [|auto]. cbn [wstep]. destruct sp as [si|]; destruct (_ <? _); try exact Hs; cbn [wSpecs new_spec]. apply nth_error_app_l, Hs.
  - exists s. split; [|auto]. cbn [wstep]. destruct (nth_error (wTables w) ti); exact Hs.
  - exists s. split; [|auto]. cbn [wstep]. destruct (nth_error (wTables w) ti) as [x|]; [|exact Hs]. destruct (table_of w x) as [y|]; [|exact Hs].
    destruct (widths_step w x (fst (UpdateWidth (E := E) y l))) as (_ & _ & _ & K & _). rewrite K. exact Hs.
  - exists s. split; [|auto]. cbn [wstep]. destruct (nth_error (wTables w) ti) as [x|]; [|exact Hs]. destruct (table_of w x) as [y|]; [|exact Hs].
    destruct (widths_step w x (fst (FormatItem c y item))) as (_ & _ & _ & K & _). rewrite K. exact Hs.
  - exists s. split; [|auto]. cbn [wstep]. destruct (_ <? _); exact Hs.
Qed.

(** ** Adding a column to a spec *)
Lemma map_at w m p col : m < length (wMaps w) ->
  nth m (update (wMaps w) m ((col, p) :: nth m (wMaps w) [])) [] = (col, p) :: nth m (wMaps w) [].
Proof. intros Hm. apply nth_update_eq, Hm. Qed.

Lemma add_own w si p spare sp : wok w -> seen_spec w si = Some sp -> valid_ptr w p = true ->
  seen_spec (wstep w (WAdd si p spare)) si = Some (fst (AddColumn (E := E) sp (resolve w p))).
Proof.
  intros Hw Hs Hp. unfold seen_spec in *. destruct (nth_error (wSpecs w) si) as [s|] eqn:Es; [|discriminate Hs]. cbn [option_map] in Hs.
  injection Hs as <-. destruct (add_spec w si s p spare Hw Es Hp) as (K1 & K2 & K3 & sl & K4 & K5 & K6 & K7 & K8 & K9).
  set (w' := wstep w (WAdd si p spare)) in *. rewrite K4, update_eq by (apply nth_error_lt with s, Es). cbn [option_map]. f_equal.
  pose proof Hw as (A & _). pose proof (proj1 (Forall_forall _ _) A s (nth_error_In _ _ Es)) as (S1 & S2 & S3 & S4).
  assert (R : forall l, map (resolve w') l = map (resolve w) l) by (intros l; apply map_ext; intros; apply resolve_cols, K1).
  assert (R2 : forall l : list (str * option nat), map (fun '(k, q) => (k, resolve w' q)) l = map (fun '(k, q) => (k, resolve w q)) l).
  { intros l. apply map_ext. intros [k q]. rewrite (resolve_cols w) by exact K1. reflexivity. }
  unfold spec_of. cbn [hsMap hsTime hsCols]. rewrite K6, map_app, R. unfold AddColumn. cbn [ColumnByName TimeFormat Columns map].
  rewrite (resolve_cols w w' p K1), K9. destruct (resolve w p) as [col|] eqn:Er; cbn [fst].
  - destruct (hsMap s) as [m|]; cbn [option_map fst]; [|f_equal; cbn [map]; rewrite ?(resolve_cols w w' p K1), ?Er; reflexivity].
    rewrite R2, map_at by exact S1. cbn [map]. rewrite Er. reflexivity.
  - f_equal. destruct (hsMap s) as [m|]; cbn [option_map]; [|reflexivity]. rewrite R2. reflexivity.
Qed.

(** ** Without copies nothing is shared *)
Definition pairwise {A} (R : A -> A -> Prop) (l : list A) : Prop :=
  forall i j a b, i <> j -> nth_error l i = Some a -> nth_error l j = Some b -> R a b.
Lemma pairwise_app {A} (R : A -> A -> Prop) l x : (forall a b, R a b -> R b a) -> pairwise R l -> Forall (fun a => R a x) l ->
  pairwise R (l ++ [x]).
Proof.
  intros Sy Hl Hx i j a b N Hi Hj. rewrite Forall_forall in Hx.
  assert (K : forall k c, nth_error (l ++ [x]) k = Some c -> nth_error l k = Some c \/ k = length l /\ c = x).
  { intros k c Hk. destruct (Nat.lt_ge_cases k (length l)) as [L|L].
    - rewrite nth_error_app1 in Hk by exact L. auto.
    - rewrite nth_error_app2 in Hk by exact L. pose proof (nth_error_lt _ _ _ Hk) as Lk. cbn in Lk.
      replace (k - length l) with 0 in Hk by lia. cbn in Hk. injection Hk as <-. right. split; [lia|reflexivity]. }
  destruct (K i a Hi) as [Ki|[Ki ->]], (K j b Hj) as [Kj|[Kj ->]].
  - exact (Hl i j a b N Ki Kj).
  - apply Hx. exact (nth_error_In _ _ Ki).
  - apply Sy, Hx. exact (nth_error_In _ _ Kj).
  - congruence.
Qed.
Lemma pairwise_update {A} (R : A -> A -> Prop) l i x : (forall a b, R a b -> R b a) -> pairwise R l ->
  (forall j b, i <> j -> nth_error l j = Some b -> R x b) -> pairwise R (update l i x).
Proof.
  intros Sy Hl Hx a b ca cb N Ha Hb.
  assert (K : forall k c, nth_error (update l i x) k = Some c -> k = i /\ c = x \/ k <> i /\ nth_error l k = Some c).
  { intros k c Hk. destruct (Nat.eq_dec i k) as [->|Nk].
    - pose proof (nth_error_lt _ _ _ Hk) as L. rewrite update_length in L. rewrite update_eq in Hk by exact L. injection Hk as <-. auto.
    - rewrite update_neq in Hk by exact Nk. auto. }
  destruct (K a ca Ha) as [[Ka ->]|[Na Ka]], (K b cb Hb) as [[Kb ->]|[Nb Kb]].
  - congruence.
  - apply (Hx b); [congruence|exact Kb].
  - apply Sy, (Hx a); [congruence|exact Ka].
  - exact (Hl a b ca cb N Ka Kb).
Qed.
Definition apart (a b : hspec) : Prop := aArr (hsCols a) <> aArr (hsCols b) /\ forall m, hsMap a = Some m -> hsMap b <> Some m.
Definition tapart (a b : htable) : Prop := forall m, htWidth a = Some m -> htWidth b <> Some m.
Lemma apart_sym a b : apart a b -> apart b a.
Proof. intros [A B]. split; [congruence|]. intros m H1 H2. exact (B m H2 H1). Qed.
Lemma tapart_sym a b : tapart a b -> tapart b a.
Proof. intros B m H1 H2. exact (B m H2 H1). Qed.

Lemma fresh_spec w tm mp : wok w -> mp = None \/ mp = Some (length (wMaps w)) ->
  Forall (fun a => apart a {| hsMap := mp; hsTime := tm; hsCols := {| aArr := length (wArrs w); aLen := 0; aCap := 0 |} |}) (wSpecs w).
Proof.
  intros (A & _) Hm. revert A. apply Forall_impl. intros s (S1 & S2 & _). split; cbn; [lia|]. intros m Em. rewrite Em in S1.
  destruct Hm as [->| ->]; [discriminate|]. intros K. injection K as K. lia.
Qed.
Lemma fresh_table w si : wok w -> Forall (fun a => tapart a {| htSpec := si; htWidth := Some (length (wWidths w)) |}) (wTables w).
Proof.
  intros (_ & B & _). revert B. apply Forall_impl. intros t (_ & T) m Em. rewrite Em in T. cbn. intros K. injection K as K. lia.
Qed.

Lemma sep_intro w : pairwise apart (wSpecs w) -> pairwise tapart (wTables w) -> wsep w.
Proof. intros A B. split; [exact A|exact B]. Qed.
Lemma sep_step w o : plain_op o = true -> wok w -> wsep w -> wsep (wstep w o).
Proof.
  intros Hp Hw Hsep. pose proof Hsep as [Hs Ht]. change (pairwise apart (wSpecs w)) in Hs. change (pairwise tapart (wTables w)) in Ht.
  assert (New : pairwise apart (wSpecs (new_spec w))).
  { cbn [new_spec wSpecs]. apply pairwise_app; [exact apart_sym|exact Hs|apply fresh_spec; auto]. }
  destruct o as [col|p col| | |si|si p spare|sp|ti|ti l|ti c item|si]; try discriminate Hp.
  - exact Hsep.
  - split; [exact New|exact Ht].
  - apply sep_intro; [|exact Ht]. cbn [wstep wSpecs]. apply pairwise_app; [exact apart_sym|exact Hs|apply fresh_spec; auto].
  - destruct (nth_error (wSpecs w) si) as [s|] eqn:Es; [|rewrite add_other by auto; exact Hsep].
    destruct (valid_ptr w p) eqn:Ep; [|rewrite add_other by auto; exact Hsep].
    destruct (add_spec w si s p spare Hw Es Ep) as (K1 & K2 & K3 & sl & K4 & K5 & K6 & K7 & _).
    split; [|rewrite K2; exact Ht]. change (pairwise apart (wSpecs (wstep w (WAdd si p spare)))). rewrite K4.
    apply pairwise_update; [exact apart_sym|exact Hs|]. intros j b N Hj. destruct (Hs si j s b N Es Hj) as [P1 P2]. split; [|exact P2].
    cbn [hsCols]. destruct K7 as [->| ->]; [exact P1|]. destruct Hw as (A & _).
    destruct (proj1 (Forall_forall _ _) A b (nth_error_In _ _ Hj)) as (_ & L & _). lia.
  - cbn [wstep]. destruct sp as [si|]; destruct (_ <? _); try exact Hsep.
    + apply sep_intro; cbn [wSpecs wTables]; [exact Hs|]. apply pairwise_app; [exact tapart_sym|exact Ht|apply fresh_table, Hw].
    + apply sep_intro; cbn [wSpecs wTables]; [exact New|]. apply pairwise_app; [exact tapart_sym|exact Ht|exact (fresh_table w _ Hw)].
  - cbn [wstep]. destruct (nth_error (wTables w) ti) as [x|]; [|exact Hsep]. destruct (table_of w x) as [y|]; [|exact Hsep].
    destruct (widths_step w x (fst (UpdateWidth (E := E) y l))) as (_ & _ & _ & K & K' & _). unfold wsep. rewrite K, K'. exact Hsep.
  - cbn [wstep]. destruct (nth_error (wTables w) ti) as [x|]; [|exact Hsep]. destruct (table_of w x) as [y|]; [|exact Hsep].
    destruct (widths_step w x (fst (FormatItem c y item))) as (_ & _ & _ & K & K' & _). unfold wsep. rewrite K, K'. exact Hsep.
  - cbn [wstep]. destruct (_ <? _); [|exact Hsep]. apply sep_intro; cbn [wSpecs wTables]; [exact Hs|].
    apply pairwise_app; [exact tapart_sym|exact Ht|]. apply Forall_forall. intros a _ m _. discriminate.
Qed.

(** ** Specs under plain operations *)
Lemma spec_same w w' s : wok w -> (forall p, ptr_ok w p -> resolve w' p = resolve w p) ->
  (forall m, hsMap s = Some m -> nth m (wMaps w') [] = nth m (wMaps w) []) ->
  nth (aArr (hsCols s)) (wArrs w') [] = nth (aArr (hsCols s)) (wArrs w) [] ->
  spec_of w' s = spec_of w s.
Proof.
  intros (_ & _ & C & D) Hr Hm Ha. unfold spec_of. rewrite Ha. f_equal.
  - destruct (hsMap s) as [m|] eqn:Em; [|reflexivity]. cbn [option_map]. rewrite (Hm m eq_refl). f_equal.
    apply map_ext_in. intros [k p] Hin. f_equal. apply Hr.
    assert (K : Forall (fun e => ptr_ok w (snd e)) (nth m (wMaps w) [])) by (apply (nth_Forall (Forall (fun e => ptr_ok w (snd e)))); [exact D|constructor]).
    exact (proj1 (Forall_forall _ _) K (k, p) Hin).
  - apply map_ext_in. intros p Hin. apply Hr.
    assert (K : Forall (ptr_ok w) (firstn (aLen (hsCols s)) (nth (aArr (hsCols s)) (wArrs w) []))).
    { apply firstn_Forall, (nth_Forall (Forall (ptr_ok w))); [exact C|constructor]. }
    exact (proj1 (Forall_forall _ _) K p Hin).
Qed.

(** The columns an operation adds to spec [i]. *)
Definition adds w (i : nat) o : list (option (Column Item Val E)) :=
  match o with WAdd s' p _ => if Nat.eqb i s' && valid_ptr w p then [resolve w p] else [] | _ => [] end.

Lemma spec_step w o i sp : plain_op o = true -> wok w -> wsep w -> seen_spec w i = Some sp ->
  seen_spec (wstep w o) i = Some (add_all sp (adds w i o)).
Proof.
  intros Hp Hw [Hsep _] Hi. change (pairwise apart (wSpecs w)) in Hsep. unfold seen_spec in Hi |- *.
  destruct (nth_error (wSpecs w) i) as [s|] eqn:Es; [|discriminate Hi]. injection Hi as <-.
  pose proof Hw as (A & _). pose proof (proj1 (Forall_forall _ _) A s (nth_error_In _ _ Es)) as (S1 & S2 & S3 & S4).
  assert (NewR : forall p, ptr_ok w p -> resolve (new_spec w) p = resolve w p) by reflexivity.
  assert (New : option_map (spec_of (new_spec w)) (nth_error (wSpecs (new_spec w)) i) = Some (spec_of w s)).
  { cbn [new_spec wSpecs]. rewrite (nth_error_app_l _ _ _ _ Es). cbn [option_map]. f_equal. apply spec_same; [exact Hw|exact NewR| |].
    - intros m Em. rewrite Em in S1. cbn [wMaps]. apply app_nth1, S1.
    - cbn [wArrs]. apply app_nth1, S2. }
  destruct o as [col|p col| | |si|si p spare|sp|ti|ti l|ti c item|si]; try discriminate Hp; cbn [adds add_all fold_left].
  - cbn [wstep wSpecs]. rewrite Es. cbn [option_map]. f_equal. apply spec_same; [exact Hw| |reflexivity|reflexivity].
    intros [q|] Hq; [|reflexivity]. unfold resolve. cbn [wCols]. apply nth_error_app1. unfold ptr_ok, valid_ptr in Hq. lia.
  - exact New.
  - cbn [wstep wSpecs]. rewrite (nth_error_app_l _ _ _ _ Es). cbn [option_map]. f_equal. apply spec_same; [exact Hw|reflexivity|reflexivity|].
    cbn [wArrs]. apply app_nth1, S2.
  - destruct (nth_error (wSpecs w) si) as [x|] eqn:Ex.
    2: { rewrite add_other by auto. rewrite Es. destruct (Nat.eqb_spec i si) as [->|]; [congruence|reflexivity]. }
    destruct (valid_ptr w p) eqn:Ep; [|rewrite add_other by auto; rewrite Es, andb_false_r; reflexivity].
    rewrite andb_true_r. destruct (Nat.eqb_spec i si) as [<-|N].
    + cbn [fold_left]. apply (add_own w i p spare (spec_of w s) Hw); [|exact Ep]. unfold seen_spec. rewrite Es. reflexivity.
    + destruct (add_spec w si x p spare Hw Ex Ep) as (K1 & K2 & K3 & sl & K4 & K5 & K6 & K7 & K8 & K9).
      rewrite K4, update_neq by congruence. rewrite Es. cbn [option_map]. f_equal.
      destruct (Hsep i si s x N Es Ex) as [P1 P2]. apply spec_same; [exact Hw| | |].
      * intros q _. apply resolve_cols, K1.
      * intros m Em. rewrite K9. destruct (resolve w p), (hsMap x) as [mx|] eqn:Emx; try reflexivity.
        apply nth_update_neq. intros ->. exact (P2 m Em eq_refl).
      * apply K8; [exact S2|exact P1].
  - cbn [wstep]. destruct sp as [si|]; destruct (_ <? _); try (rewrite Es; reflexivity).
    + cbn [wSpecs]. rewrite Es. reflexivity.
    + exact New.
  - cbn [wstep]. destruct (nth_error (wTables w) ti) as [x|]; [|rewrite Es; reflexivity]. destruct (table_of w x) as [y|]; [|rewrite Es; reflexivity].
    destruct (widths_step w x (fst (UpdateWidth (E := E) y l))) as (K1 & K2 & K3 & K & K' & _). rewrite K, Es. cbn [option_map]. f_equal.
    apply spec_same; [exact Hw| | |]; intros; rewrite ?K2, ?K3; auto. apply resolve_cols, K1.
  - cbn [wstep]. destruct (nth_error (wTables w) ti) as [x|]; [|rewrite Es; reflexivity]. destruct (table_of w x) as [y|]; [|rewrite Es; reflexivity].
    destruct (widths_step w x (fst (FormatItem c y item))) as (K1 & K2 & K3 & K & K' & _). rewrite K, Es. cbn [option_map]. f_equal.
    apply spec_same; [exact Hw| | |]; intros; rewrite ?K2, ?K3; auto. apply resolve_cols, K1.
  - cbn [wstep]. destruct (_ <? _); cbn [wSpecs]; rewrite Es; reflexivity.
Qed.

(** ** Tables under plain operations *)
Lemma table_split w t T : seen_table w t = Some T <-> exists h sp, nth_error (wTables w) t = Some h
  /\ seen_spec w (htSpec h) = Some sp /\ T = {| tSpec := sp; columnWidth := widths_of w h |}.
Proof.
  unfold seen_table, table_of, seen_spec. destruct (nth_error (wTables w) t) as [h|].
  - destruct (nth_error (wSpecs w) (htSpec h)) as [s|] eqn:Es; cbn [option_map]; split.
    + intros K. injection K as <-. exists h, (spec_of w s). rewrite Es. auto.
    + intros (h' & sp & K & Ks & ->). injection K as <-. rewrite Es in Ks. injection Ks as <-. reflexivity.
    + discriminate.
    + intros (h' & sp & K & Ks & _). injection K as <-. rewrite Es in Ks. discriminate Ks.
  - split; [discriminate|]. intros (h & sp & K & _). discriminate K.
Qed.

(** Only the widths of a table change when it measures. *)
Lemma raise_spec (T : Table Item Val E) k x : tSpec (fst (raise_width (E := E) T k x)) = tSpec T
  /\ (columnWidth (fst (raise_width (E := E) T k x)) = None <-> columnWidth T = None).
Proof. unfold raise_width. destruct (_ >? _)%Z; [|split; [reflexivity|tauto]]. destruct (columnWidth T) eqn:Ec; cbn; [split; [reflexivity|split; discriminate]|tauto]. Qed.
Lemma update_spec l : forall (T : Table Item Val E), tSpec (fst (UpdateWidth (E := E) T l)) = tSpec T
  /\ (columnWidth (fst (UpdateWidth (E := E) T l)) = None <-> columnWidth T = None).
Proof.
  induction l as [|[k x] l IH]; intros T; cbn [UpdateWidth]; [cbn; tauto|]. destruct (raise_spec T k x) as [A B].
  destruct (raise_width T k x) as [T' [[]|e|q]]; cbn [fst] in *; [|auto|auto]. destruct (IH T') as [A' B']. rewrite A', B'. auto.
Qed.
Lemma format_spec c item cols : forall (T : Table Item Val E) acc, tSpec (fst (formatItem_loop c T cols item acc)) = tSpec T
  /\ (columnWidth (fst (formatItem_loop c T cols item acc)) = None <-> columnWidth T = None).
Proof.
  induction cols as [|[col|] cols IH]; intros T acc; cbn [formatItem_loop]; [cbn; tauto| |cbn; tauto].
  destruct (colGetter col) as [g|]; [|cbn; tauto]. destruct (getValue g item) as [v|e|q]; [|cbn; tauto|cbn; tauto].
  destruct (getFormat g item v) as [f|e|q]; [|cbn; tauto|cbn; tauto]. destruct (raise_spec T (colName col) (vwidth c f)) as [A B].
  destruct (raise_width T (colName col) (vwidth c f)) as [T' [[]|e|q]]; cbn [fst] in *; [|auto|auto]. destruct (IH T' (acc ++ [f])) as [A' B']. rewrite A', B'. auto.
Qed.

Lemma store_seen w ti (x : htable) T T' t : wok w -> wsep w -> nth_error (wTables w) ti = Some x -> table_of w x = Some T ->
  tSpec T' = tSpec T -> (columnWidth T' = None <-> columnWidth T = None) ->
  forall Tt, seen_table w t = Some Tt -> seen_table (store_widths w x T') t = Some (if Nat.eqb t ti then T' else Tt).
Proof.
  intros Hw [_ Hsep] Hx HT Hs Hc Tt Ht. change (pairwise tapart (wTables w)) in Hsep.
  apply table_split in Ht. destruct Ht as (h & sp & Hh & Hsp & ->).
  destruct (widths_step w x T') as (K1 & K2 & K3 & K4 & K5 & K6). apply table_split. exists h. rewrite K5.
  pose proof Hw as (_ & B & _). pose proof (proj1 (Forall_forall _ _) B x (nth_error_In _ _ Hx)) as (_ & Lx).
  assert (Hsp' : forall j, seen_spec (store_widths w x T') j = seen_spec w j).
  { intros j. unfold seen_spec. rewrite K4. destruct (nth_error (wSpecs w) j) as [s|]; [|reflexivity]. cbn [option_map]. f_equal.
    apply spec_same; [exact Hw| | |]; intros; rewrite ?K2, ?K3; auto. apply resolve_cols, K1. }
  exists sp. split; [exact Hh|]. split; [rewrite Hsp'; exact Hsp|].
  assert (Tx : exists spx, seen_spec w (htSpec x) = Some spx /\ T = {| tSpec := spx; columnWidth := widths_of w x |}).
  { unfold table_of in HT. unfold seen_spec. destruct (nth_error (wSpecs w) (htSpec x)) as [s|]; [|discriminate HT]. injection HT as <-. eexists. split; reflexivity. }
  destruct Tx as (spx & Hspx & ->). cbn [tSpec columnWidth] in Hs, Hc.
  destruct (Nat.eqb_spec t ti) as [->|N].
  - rewrite Hx in Hh. injection Hh as <-. rewrite Hsp in Hspx. injection Hspx as ->. destruct T' as [sp' cw]. cbn [tSpec columnWidth] in *. subst sp'. f_equal.
    unfold widths_of in *. rewrite K6. destruct (htWidth x) as [m|]; cbn [option_map] in *.
    + destruct cw as [f|]; [|exfalso; pose proof (proj1 Hc eq_refl) as Q; discriminate Q]. rewrite nth_update_eq by exact Lx. reflexivity.
    + apply Hc. reflexivity.
  - f_equal. unfold widths_of. rewrite K6. destruct (htWidth h) as [mh|] eqn:Eh; [|reflexivity]. cbn [option_map]. f_equal.
    destruct (htWidth x) as [m|] eqn:Em; [|reflexivity]. destruct (columnWidth T'); [|reflexivity].
    symmetry. apply nth_update_neq. intros ->. exact (Hsep t ti h x N Hh Hx mh Eh Em).
Qed.

Lemma widths_grow w x h : table_ok w h ->
  option_map (fun m => nth m (wWidths w ++ [x]) wempty) (htWidth h) = option_map (fun m => nth m (wWidths w) wempty) (htWidth h).
Proof. intros (_ & L). destruct (htWidth h); [|reflexivity]. cbn [option_map]. rewrite app_nth1 by exact L. reflexivity. Qed.

Lemma table_step_seen w o t h T : plain_op o = true -> wok w -> wsep w -> nth_error (wTables w) t = Some h ->
  seen_table w t = Some T -> seen_table (wstep w o) t = Some (table_run T (op_for w t (htSpec h) o)).
Proof.
  intros Hp Hw Hsep Hh HT. pose proof HT as HT0. apply table_split in HT. destruct HT as (h' & sp & Hh' & Hsp & ->).
  rewrite Hh in Hh'. injection Hh' as <-.
  pose proof (spec_step w o (htSpec h) sp Hp Hw Hsep Hsp) as Sp. pose proof (tables_stay w o t h Hw Hh) as St.
  pose proof Hw as (_ & B & _). pose proof (proj1 (Forall_forall _ _) B h (nth_error_In _ _ Hh)) as Tok.
  assert (G : widths_of (wstep w o) h = widths_of w h ->
    seen_table (wstep w o) t = Some {| tSpec := add_all sp (adds w (htSpec h) o); columnWidth := widths_of w h |}).
  { intros Q. apply table_split. exists h, (add_all sp (adds w (htSpec h) o)). rewrite Q. auto. }
  destruct o as [col|p col| | |si|si p spare|s'|ti|ti l|ti c item|si]; try discriminate Hp; cbn [op_for].
  - apply G. reflexivity.
  - apply G. reflexivity.
  - apply G. reflexivity.
  - rewrite G.
    + cbn [adds]. destruct (_ && _); reflexivity.
    + destruct (nth_error (wSpecs w) si) as [s|] eqn:Es; [|rewrite add_other by auto; reflexivity].
      destruct (valid_ptr w p) eqn:Ep; [|rewrite add_other by auto; reflexivity].
      destruct (add_spec w si s p spare Hw Es Ep) as (_ & _ & K & _). unfold widths_of. rewrite K. reflexivity.
  - apply G. cbn [wstep]. destruct s' as [si|]; destruct (_ <? _); try reflexivity; unfold widths_of; cbn [wWidths new_spec]; exact (widths_grow w wempty h Tok).
  - cbn [wstep]. destruct (nth_error (wTables w) ti) as [x|] eqn:Ex.
    2: { destruct (Nat.eqb_spec t ti) as [->|]; [congruence|exact HT0]. }
    assert (Q : exists X, table_of w x = Some X).
    { pose proof (proj1 (Forall_forall _ _) B x (nth_error_In _ _ Ex)) as (L & _). unfold table_of.
      destruct (nth_error (wSpecs w) (htSpec x)) eqn:Q; [eexists; reflexivity|]. apply nth_error_None in Q. lia. }
    destruct Q as [X HX]. rewrite HX. destruct (update_spec l X) as [U1 U2].
    rewrite (store_seen w ti x X _ t Hw Hsep Ex HX U1 U2 _ HT0).
    destruct (Nat.eqb_spec t ti) as [->|]; [|reflexivity]. unfold seen_table in HT0. rewrite Ex, HX in HT0. injection HT0 as ->. reflexivity.
  - cbn [wstep]. destruct (nth_error (wTables w) ti) as [x|] eqn:Ex.
    2: { destruct (Nat.eqb_spec t ti) as [->|]; [congruence|exact HT0]. }
    assert (Q : exists X, table_of w x = Some X).
    { pose proof (proj1 (Forall_forall _ _) B x (nth_error_In _ _ Ex)) as (L & _). unfold table_of.
      destruct (nth_error (wSpecs w) (htSpec x)) eqn:Q; [eexists; reflexivity|]. apply nth_error_None in Q. lia. }
    destruct Q as [X HX]. rewrite HX. destruct (format_spec c item (Columns (tSpec X)) X []) as [U1 U2].
    rewrite (store_seen w ti x X (fst (FormatItem c X item)) t Hw Hsep Ex HX U1 U2 _ HT0).
    destruct (Nat.eqb_spec t ti) as [->|]; [|reflexivity]. unfold seen_table in HT0. rewrite Ex, HX in HT0. injection HT0 as ->. reflexivity.
  - apply G. cbn [wstep]. destruct (_ <? _); reflexivity.
Qed.

(** ** Histories *)
Lemma sep_run ops : forall w, Forall (fun o => plain_op o = true) ops -> wok w -> wsep w -> wsep (fold_left wstep ops w).
Proof.
  induction ops as [|o ops IH]; intros w Hp Hw Hs; cbn [fold_left]; [exact Hs|]. inversion Hp; subst.
  apply IH; [assumption|apply wstep_ok, Hw|apply sep_step; assumption].
Qed.
Lemma world0_sep : wsep (@world0 Item Val E).
Proof. split; intros [|i] j a b _ K; discriminate K. Qed.

Lemma table_run_seen ops : forall w t h T, Forall (fun o => plain_op o = true) ops -> wok w -> wsep w ->
  nth_error (wTables w) t = Some h -> seen_table w t = Some T ->
  seen_table (fold_left wstep ops w) t = Some (table_run T (ops_for w t (htSpec h) ops)).
Proof.
  induction ops as [|o ops IH]; intros w t h T Hp Hw Hs Hh HT; cbn [fold_left ops_for]; [exact HT|]. inversion Hp; subst.
  rewrite (IH (wstep w o) t h (table_run T (op_for w t (htSpec h) o))); [|assumption|apply wstep_ok, Hw|apply sep_step; assumption|apply tables_stay; assumption|apply table_step_seen; assumption].
  unfold table_run. rewrite fold_left_app. reflexivity.
Qed.

Lemma new_table_seen w s : (forall i, s = Some i -> i < length (wSpecs w)) ->
  let t := length (wTables w) in
  let i := match s with Some i => i | None => length (wSpecs w) end in
  nth_error (wTables (wstep w (WTable s))) t = Some {| htSpec := i; htWidth := Some (length (wWidths w)) |}
  /\ seen_table (wstep w (WTable s)) t = Some (NewTable (match s with Some i => seen_spec w i | None => None end)).
Proof.
  intros Hi t i. subst t i.
  assert (L : forall {A} (l : list A) x, nth_error (l ++ [x]) (length l) = Some x) by (intros A l x; rewrite nth_error_app2, Nat.sub_diag by lia; reflexivity).
  destruct s as [i|].
  - specialize (Hi i eq_refl). cbn [wstep]. rewrite (proj2 (Nat.ltb_lt _ _) Hi).
    assert (K : forall x, nth_error (wTables w ++ [x]) (length (wTables w)) = Some x) by (intros x; apply L).
    split; [cbn [wTables]; apply K|]. unfold seen_table. cbn [wTables]. rewrite K. unfold table_of, seen_spec. cbn [wSpecs htSpec].
    destruct (nth_error (wSpecs w) i) as [s|] eqn:Es; [|apply nth_error_None in Es; lia]. cbn [option_map]. unfold NewTable. f_equal.
    f_equal. unfold widths_of. cbn [htWidth option_map wWidths]. rewrite app_nth2, Nat.sub_diag by lia. reflexivity.
  - cbn [wstep]. destruct (_ <? _) eqn:El; [|apply Nat.ltb_ge in El; cbn [new_spec wSpecs] in El; rewrite app_length in El; cbn in El; lia].
    split; [cbn [wTables new_spec wWidths]; apply L|]. unfold seen_table. cbn [wTables new_spec]. rewrite L. unfold table_of. cbn [wSpecs htSpec new_spec]. rewrite L.
    cbn [option_map]. unfold NewTable. f_equal. f_equal.
    + unfold spec_of. cbn [hsMap hsTime hsCols aArr aLen wMaps wArrs option_map firstn map new_spec]. rewrite app_nth2, Nat.sub_diag by lia. reflexivity.
    + unfold widths_of. cbn [htWidth option_map wWidths]. rewrite app_nth2, Nat.sub_diag by lia. reflexivity.
Qed.

Theorem table_history (pre post : list wop) s : Forall (fun o => plain_op o = true) (pre ++ WTable s :: post) ->
  (forall i, s = Some i -> seen_spec (wrun pre) i <> None) ->
  let w := wrun pre in
  let i := match s with Some i => i | None => length (wSpecs w) end in
  seen_table (wrun (pre ++ WTable s :: post)) (length (wTables w))
  = Some (table_run (NewTable (match s with Some i => seen_spec w i | None => None end))
            (ops_for (wrun (pre ++ [WTable s])) (length (wTables w)) i post)).
Proof.
  intros Hp Hs w i. apply Forall_app in Hp. destruct Hp as [Hp1 Hp2]. inversion Hp2; subst.
  assert (Hs' : forall i, s = Some i -> i < length (wSpecs (wrun pre))).
  { intros j Ej. specialize (Hs j Ej). unfold seen_spec in Hs. apply nth_error_Some. intros K. rewrite K in Hs. auto. }
  destruct (new_table_seen (wrun pre) s Hs') as [N1 N2]. unfold wrun at 1. rewrite fold_left_app. cbn [fold_left].
  assert (K : wrun (pre ++ [WTable s]) = wstep (wrun pre) (WTable s)) by (unfold wrun; rewrite fold_left_app; reflexivity). rewrite K.
  apply (table_run_seen post (wstep (wrun pre) (WTable s)) _ _ _ H2 (wstep_ok _ _ (wrun_ok pre)) (sep_step (wrun pre) (WTable s) H1 (wrun_ok pre) (sep_run pre _ Hp1 world0_ok world0_sep)) N1 N2).
Qed.

(** A table made as a struct literal has no map of widths, and stays so. *)
Theorem literal_history (pre post : list wop) i sp : Forall (fun o => plain_op o = true) (pre ++ WLiteral i :: post) ->
  seen_spec (wrun pre) i = Some sp ->
  let t := length (wTables (wrun pre)) in
  seen_table (wrun (pre ++ WLiteral i :: post)) t
  = Some (table_run {| tSpec := sp; columnWidth := None |} (ops_for (wrun (pre ++ [WLiteral i])) t i post)).
Proof.
  intros Hp Hs t. apply Forall_app in Hp. destruct Hp as [Hp1 Hp2]. inversion Hp2; subst.
  unfold wrun at 1. rewrite fold_left_app. cbn [fold_left].
  assert (K : wrun (pre ++ [WLiteral i]) = wstep (wrun pre) (WLiteral i)) by (unfold wrun; rewrite fold_left_app; reflexivity). rewrite K.
  fold (wrun pre). set (w := wrun pre) in *. unfold seen_spec in Hs. destruct (nth_error (wSpecs w) i) as [s|] eqn:Es; [|discriminate Hs].
  injection Hs as <-. assert (Hi : i < length (wSpecs w)) by (apply nth_error_lt with s, Es).
  assert (N1 : nth_error (wTables (wstep w (WLiteral i))) t = Some {| htSpec := i; htWidth := None |}).
  { cbn [wstep]. rewrite (proj2 (Nat.ltb_lt _ _) Hi). cbn [wTables]. unfold t. rewrite nth_error_app2, Nat.sub_diag by lia. reflexivity. }
  apply (table_run_seen post (wstep w (WLiteral i)) t {| htSpec := i; htWidth := None |}); [assumption|apply wstep_ok, wrun_ok| |exact N1|].
  - apply sep_step; [reflexivity|apply wrun_ok|apply sep_run; [exact Hp1|apply world0_ok|apply world0_sep]].
  - unfold seen_table. rewrite N1. cbn [wstep]. rewrite (proj2 (Nat.ltb_lt _ _) Hi). unfold table_of. cbn [wSpecs htSpec]. rewrite Es. reflexivity.
Qed.
Lemma literal_nil (sp : TableSpec Item Val E) ops : columnWidth (table_run {| tSpec := sp; columnWidth := None |} ops) = None.
Proof.
  unfold table_run. generalize (eq_refl : columnWidth {| tSpec := sp; columnWidth := None |} = None). generalize ({| tSpec := sp; columnWidth := None |} : Table Item Val E).
  induction ops as [|o ops IH]; intros T HT; cbn [fold_left]; [exact HT|]. apply IH. destruct o as [l|c item|p]; cbn [table_step].
  - apply update_spec, HT.
  - apply format_spec, HT.
  - exact HT.
Qed.

Theorem literal (pre post : list wop) i sp : Forall (fun o => plain_op o = true) (pre ++ WLiteral i :: post) ->
  seen_spec (wrun pre) i = Some sp ->
  let t := length (wTables (wrun pre)) in
  exists T, seen_table (wrun (pre ++ WLiteral i :: post)) t = Some T /\ columnWidth T = None
    /\ T = table_run {| tSpec := sp; columnWidth := None |} (ops_for (wrun (pre ++ [WLiteral i])) t i post).
Proof. intros Hp Hs t. eexists. split; [exact (literal_history pre post i sp Hp Hs)|]. split; [apply literal_nil|reflexivity]. Qed.

(** FormatItem without a map of widths: a cell that shows is as good as a failing one. *)
Lemma nil_format c item (T : Table Item Val E) : columnWidth T = None ->
  let shown col := match cell item col with Ok s => if (vwidth c s >? 0)%Z then Panic NilMapWrite else Ok s | r => r end in
  fst (FormatItem c T item) = T
  /\ ((exists vs, AllOk shown (Columns (tSpec T)) vs /\ snd (FormatItem c T item) = Ok vs)
      \/ exists pre vs, FirstFailure shown (Columns (tSpec T)) pre vs (snd (FormatItem c T item))).
Proof.
  intros HT shown. unfold FormatItem.
  assert (G : forall cols acc, fst (formatItem_loop c T cols item acc) = T
    /\ ((exists vs, AllOk shown cols vs /\ snd (formatItem_loop c T cols item acc) = Ok (acc ++ vs))
        \/ exists pre vs, FirstFailure shown cols pre vs (snd (formatItem_loop c T cols item acc)))).
  { induction cols as [|col cols IH]; intros acc; cbn [formatItem_loop].
    - split; [reflexivity|]. left. exists []. rewrite app_nil_r. split; [constructor|reflexivity].
    - assert (F : forall r, ((exists e, shown col = Err e /\ r = Err e) \/ (exists p, shown col = Panic p /\ r = Panic p)) ->
        exists pre vs, FirstFailure (C := list str) shown (col :: cols) pre vs r).
      { intros r Hr. exists [], [], col, cols. split; [reflexivity|]. split; [constructor|exact Hr]. }
      unfold shown, cell in F. destruct col as [col|]; [|split; [reflexivity|right; apply F; right; eexists; split; reflexivity]].
      destruct (colGetter col) as [g|] eqn:Eg; [|split; [reflexivity|right; apply F; right; eexists; split; reflexivity]].
      destruct (getValue g item) as [v|e|p] eqn:Ev;
        [|split; [reflexivity|right; apply F; left; eexists; split; reflexivity]|split; [reflexivity|right; apply F; right; eexists; split; reflexivity]].
      destruct (getFormat g item v) as [s|e|p] eqn:Ef;
        [|split; [reflexivity|right; apply F; left; eexists; split; reflexivity]|split; [reflexivity|right; apply F; right; eexists; split; reflexivity]].
      rewrite (raise_nil T _ _ HT). destruct (vwidth c s >? 0)%Z eqn:Ew; [split; [reflexivity|right; apply F; right; eexists; split; reflexivity]|].
      assert (Sh : shown (Some col) = Ok s) by (unfold shown, cell; rewrite Eg, Ev, Ef, Ew; reflexivity).
      destruct (IH (acc ++ [s])) as [I1 [(vs & A & B)|(pre & vs & a & post & A & B & D)]]; (split; [exact I1|]).
      + left. exists (s :: vs). split; [constructor; assumption|]. rewrite B, <- app_assoc. reflexivity.
      + right. exists (Some col :: pre), (s :: vs), a, post. split; [cbn; rewrite A; reflexivity|]. split; [constructor; assumption|exact D]. }
  exact (G (Columns (tSpec T)) []).
Qed.

Theorem add_column (ops : list wop) s p spare sp : seen_spec (wrun ops) s = Some sp -> valid_ptr (wrun ops) p = true ->
  seen_spec (wrun (ops ++ [WAdd s p spare])) s = Some (fst (AddColumn (E := E) sp (resolve (wrun ops) p))).
Proof. intros Hs Hp. unfold wrun. rewrite fold_left_app. exact (add_own _ s p spare sp (wrun_ok ops) Hs Hp). Qed.

(** ** Copies *)
Lemma tables_run ops : forall w t h, wok w -> nth_error (wTables w) t = Some h -> nth_error (wTables (fold_left wstep ops w)) t = Some h.
Proof. induction ops as [|o ops IH]; intros w t h Hw Hh; cbn [fold_left]; [exact Hh|]. apply IH; [apply wstep_ok, Hw|apply tables_stay; assumption]. Qed.
Lemma specs_run ops : forall w i s, wok w -> nth_error (wSpecs w) i = Some s ->
  exists s', nth_error (wSpecs (fold_left wstep ops w)) i = Some s' /\ hsMap s' = hsMap s.
Proof.
  induction ops as [|o ops IH]; intros w i s Hw Hs; cbn [fold_left]; [eauto|].
  destruct (specs_stay w o i s Hw Hs) as (s' & A & B & _). destruct (IH _ i s' (wstep_ok w o Hw) A) as (s2 & C & D).
  exists s2. split; [exact C|congruence].
Qed.

Theorem table_copy (pre post : list wop) t : t < length (wTables (wrun pre)) ->
  seen_table (wrun (pre ++ WCopyTable t :: post)) (length (wTables (wrun pre))) = seen_table (wrun (pre ++ WCopyTable t :: post)) t.
Proof.
  intros Ht. unfold wrun at 1 3. rewrite fold_left_app. cbn [fold_left]. fold (wrun pre).
  destruct (nth_error (wTables (wrun pre)) t) as [h|] eqn:Eh; [|apply nth_error_None in Eh; lia].
  assert (Hw : wok (wstep (wrun pre) (WCopyTable t))) by apply wstep_ok, wrun_ok.
  assert (A : nth_error (wTables (wstep (wrun pre) (WCopyTable t))) t = Some h) by (apply tables_stay; [apply wrun_ok|exact Eh]).
  assert (B : nth_error (wTables (wstep (wrun pre) (WCopyTable t))) (length (wTables (wrun pre))) = Some h).
  { cbn [wstep]. rewrite Eh. cbn [wTables]. rewrite nth_error_app2, Nat.sub_diag by lia. reflexivity. }
  unfold seen_table. rewrite (tables_run post _ _ h Hw A), (tables_run post _ _ h Hw B). reflexivity.
Qed.

Theorem spec_copy (pre post : list wop) s a b : 
  let w := wrun (pre ++ WCopySpec s :: post) in
  s < length (wSpecs (wrun pre)) -> seen_spec w s = Some a -> seen_spec w (length (wSpecs (wrun pre))) = Some b ->
  forall name, HasColumn a name = HasColumn b name.
Proof.
  cbv zeta. intros Hs. unfold wrun at 1 2. rewrite fold_left_app. cbn [fold_left]. fold (wrun pre).
  destruct (nth_error (wSpecs (wrun pre)) s) as [h|] eqn:Eh; [|apply nth_error_None in Eh; lia].
  assert (Hw : wok (wstep (wrun pre) (WCopySpec s))) by apply wstep_ok, wrun_ok.
  assert (A : nth_error (wSpecs (wstep (wrun pre) (WCopySpec s))) s = Some h).
  { cbn [wstep]. rewrite Eh. cbn [wSpecs]. apply nth_error_app_l, Eh. }
  assert (B : nth_error (wSpecs (wstep (wrun pre) (WCopySpec s))) (length (wSpecs (wrun pre))) = Some h).
  { cbn [wstep]. rewrite Eh. cbn [wSpecs]. rewrite nth_error_app2, Nat.sub_diag by lia. reflexivity. }
  destruct (specs_run post _ _ h Hw A) as (a' & A1 & A2). destruct (specs_run post _ _ h Hw B) as (b' & B1 & B2).
  unfold seen_spec. rewrite A1, B1. intros Ka Kb. injection Ka as <-. injection Kb as <-. intros name.
  unfold HasColumn, spec_of. cbn [ColumnByName]. rewrite A2, B2. reflexivity.
Qed.

(** ** Changing a column in place *)
Lemma resolve_set w q col p : q < length (wCols w) ->
  resolve (wstep w (WSetColumn q col)) p = match p with Some i => if Nat.eqb i q then Some col else resolve w p | None => None end.
Proof.
  intros Hq. destruct p as [i|]; [|reflexivity]. unfold resolve. cbn [wstep wCols].
  destruct (Nat.eqb_spec i q) as [->|N]; [apply update_eq, Hq|apply update_neq; congruence].
Qed.

Lemma lookup_set w q col name m : q < length (wCols w) ->
  (col_lookup (map (fun '(k, p) => (k, resolve (wstep w (WSetColumn q col)) p)) m) name = None
   <-> col_lookup (map (fun '(k, p) => (k, resolve w p)) m) name = None).
Proof.
  intros Hq. induction m as [|[k p] m IH]; [tauto|]. cbn [map col_lookup]. destruct (str_eqb name k); [|exact IH].
  rewrite resolve_set by exact Hq. destruct p as [i|]; [|tauto]. destruct (Nat.eqb_spec i q) as [->|N]; [|tauto].
  cbn [resolve]. split; [discriminate|]. intros K. apply nth_error_None in K. lia.
Qed.

Theorem set_column (ops : list wop) q col s a : q < length (wCols (wrun ops)) -> seen_spec (wrun ops) s = Some a ->
  let w := wrun ops in
  let w' := wrun (ops ++ [WSetColumn q col]) in
  exists b, seen_spec w' s = Some b
    /\ Columns a = map (resolve w) (pointers w s)
    /\ Columns b = map (fun p => match p with Some i => if Nat.eqb i q then Some col else resolve w p | None => None end) (pointers w s)
    /\ (forall name, HasColumn b name = HasColumn a name)
    /\ forall t T, seen_table w t = Some T -> exists T', seen_table w' t = Some T' /\ columnWidth T' = columnWidth T.
Proof.
  intros Hq Ha w w'. assert (Ew : w' = wstep w (WSetColumn q col)) by (unfold w', w, wrun; rewrite fold_left_app; reflexivity).
  rewrite Ew. unfold seen_spec, pointers in *. change (wSpecs (wstep w (WSetColumn q col))) with (wSpecs w). unfold w in *. clear w w' Ew.
  set (w := wrun ops) in *. destruct (nth_error (wSpecs w) s) as [h|] eqn:Eh; [|discriminate Ha]. injection Ha as <-.
  exists (spec_of (wstep w (WSetColumn q col)) h). split; [reflexivity|]. split; [reflexivity|]. split; [|split].
  - unfold spec_of. cbn [Columns]. change (wArrs (wstep w (WSetColumn q col))) with (wArrs w). apply map_ext. intros p. apply resolve_set, Hq.
  - intros name. unfold HasColumn, spec_of. cbn [ColumnByName]. change (wMaps (wstep w (WSetColumn q col))) with (wMaps w).
    destruct (hsMap h) as [m|]; [|reflexivity]. cbn [option_map]. pose proof (lookup_set w q col name (nth m (wMaps w) []) Hq) as L.
    destruct (col_lookup _ name); destruct (col_lookup _ name); try reflexivity; exfalso; [pose proof (proj2 L eq_refl)|pose proof (proj1 L eq_refl)]; discriminate.
  - intros t T HT. apply table_split in HT. destruct HT as (x & sp & Hx & Hsp & ->).
    unfold seen_spec in Hsp. destruct (nth_error (wSpecs w) (htSpec x)) as [hx|] eqn:Ex; [|discriminate Hsp].
    eexists. split; [apply table_split; exists x, (spec_of (wstep w (WSetColumn q col)) hx)|].
    + split; [exact Hx|]. split; [|reflexivity]. unfold seen_spec. change (wSpecs (wstep w (WSetColumn q col))) with (wSpecs w). rewrite Ex. reflexivity.
    + reflexivity.
Qed.
End WithTypes.

(** ** Copying a spec *)
Definition named (name : str) : Column unit unit unit :=
  {| colGetter := None; colAlignment := None; colName := name; colTitle := []; colShortTitle := [] |}.

(** A spec with three columns (room for four, as Go's append grows 1, 2, 4),
    its copy, and a fourth column added to the original. *)
Definition copied_ops : list (wop unit unit unit) :=
  [WColumn (named [x61]); WColumn (named [x62]); WColumn (named [x63]); WColumn (named [x64]); WColumn (named [x65]); WSpec;
   WAdd 0 (Some 0) 0; WAdd 0 (Some 1) 0; WAdd 0 (Some 2) 1; WCopySpec 0; WAdd 0 (Some 3) 0].
Theorem spec_copy_refuted : exists (ops : list (wop unit unit unit)) p spare a b A B,
  seen_spec (wrun ops) 0 = Some a /\ seen_spec (wrun (ops ++ [WAdd 1 p spare])) 0 = Some b
  /\ nth_error (Columns a) 3 = Some (Some A) /\ nth_error (Columns b) 3 = Some (Some B) /\ colName A <> colName B.
Proof.
  set (mk := fun ns => {| ColumnByName := Some (map (fun n => (n, Some (named n))) ns); TimeFormat := [];
     Columns := map (fun n => Some (named n)) (rev ns) |} : TableSpec unit unit unit).
  exists copied_ops, (Some 4), 0, (mk [[x64]; [x63]; [x62]; [x61]]).
  exists {| ColumnByName := Some (map (fun n => (n, Some (named n))) [[x65]; [x64]; [x63]; [x62]; [x61]]); TimeFormat := [];
     Columns := map (fun n => Some (named n)) [[x61]; [x62]; [x63]; [x65]] |}.
  exists (named [x64]), (named [x65]).
  split; [vm_compute; reflexivity|]. split; [vm_compute; reflexivity|]. split; [reflexivity|]. split; [reflexivity|]. vm_compute. discriminate.
Qed.
