(** * RegistryProofs: AddColumn on any spec, however it was made. *)
From Verif Require Import GoBase Runewidth Width Table CacheProofs TableContract TableOpsProofs.
Local Open Scope Z_scope.

Section Types.
Context {Item Val E : Type}.

Lemma add_one (s : TableSpec Item Val E) o name :
  Columns (fst (AddColumn (E := E) s o)) = Columns s ++ [o]
  /\ TimeFormat (fst (AddColumn (E := E) s o)) = TimeFormat s
  /\ (ColumnByName (fst (AddColumn (E := E) s o)) = None <-> ColumnByName s = None)
  /\ (HasColumn (fst (AddColumn (E := E) s o)) name = true <->
      HasColumn s name = true \/ (ColumnByName s <> None /\ exists cl, o = Some cl /\ colName cl = name)).
Proof.
  unfold AddColumn. destruct o as [cl|].
  - destruct (ColumnByName s) as [m|] eqn:Em; cbn [fst Columns TimeFormat ColumnByName].
    + split; [reflexivity|]. split; [reflexivity|]. split; [split; discriminate|]. unfold HasColumn. rewrite Em. cbn [ColumnByName col_lookup].
      destruct (str_eqb_spec name (colName cl)) as [En|En].
      * split; [|auto]. intros _. right. split; [discriminate|]. exists cl. split; [reflexivity|symmetry; exact En].
      * split; [auto|]. intros [K|(_ & cl' & K & Kn)]; [exact K|]. injection K as <-. congruence.
    + split; [reflexivity|]. split; [reflexivity|]. split; [tauto|]. unfold HasColumn. cbn [ColumnByName]. rewrite Em.
      split; [auto|]. intros [K|(K & _)]; [exact K|congruence].
  - cbn [fst Columns TimeFormat ColumnByName]. split; [reflexivity|]. split; [reflexivity|]. split; [tauto|]. unfold HasColumn. cbn [ColumnByName].
    split; [auto|]. intros [K|(_ & cl & K & _)]; [exact K|discriminate].
Qed.

Lemma registry_any (s : TableSpec Item Val E) cols name :
  Columns (add_all s cols) = Columns s ++ cols
  /\ TimeFormat (add_all s cols) = TimeFormat s
  /\ (ColumnByName (add_all s cols) = None <-> ColumnByName s = None)
  /\ (HasColumn (add_all s cols) name = true <->
      HasColumn s name = true \/ (ColumnByName s <> None /\ exists cl, In (Some cl) cols /\ colName cl = name)).
Proof.
  induction cols as [|o cols IH] using rev_ind.
  - rewrite app_nil_r. split; [reflexivity|]. split; [reflexivity|]. split; [reflexivity|]. split; [auto|].
    intros [K|(_ & cl & [] & _)]. exact K.
  - rewrite add_all_app. set (s' := add_all s cols) in *. destruct IH as (I1 & I2 & I3 & I4).
    change (add_all s' [o]) with (fst (AddColumn s' o)).
    destruct (add_one s' o name) as (A1 & A2 & A3 & A4). rewrite A1, A2, A3, A4, I1, I2, I3, I4.
    split; [rewrite app_assoc; reflexivity|]. split; [reflexivity|]. split; [reflexivity|]. split.
    + intros [[K|(K & cl & Hi & Hn)]|(K & cl & -> & Hn)]; [auto| |].
      * right. split; [exact K|]. exists cl. split; [apply in_or_app; auto|exact Hn].
      * right. split; [exact K|]. exists cl. split; [apply in_or_app; right; left; reflexivity|exact Hn].
    + intros [K|(K & cl & Hi & Hn)]; [auto|]. apply in_app_or in Hi. destruct Hi as [Hi|[->|[]]].
      * left. right. eauto.
      * right. eauto.
Qed.

(** A spec without a map has no columns by name, however many it counts. *)
Lemma registry_nil (s : TableSpec Item Val E) cols name : ColumnByName s = None ->
  HasColumn (add_all s cols) name = false /\ ColumnCount (add_all s cols) = ColumnCount s + slen cols.
Proof.
  intros Hn. destruct (registry_any s cols name) as (A1 & _ & _ & A4). split.
  - destruct (HasColumn (add_all s cols) name) eqn:K; [|reflexivity]. exfalso. apply proj1 in A4. specialize (A4 eq_refl).
    destruct A4 as [A|(A & _)]; [|congruence]. unfold HasColumn in A. rewrite Hn in A. discriminate.
  - unfold ColumnCount, slen. rewrite A1, app_length, Nat2Z.inj_add. reflexivity.
Qed.
End Types.
