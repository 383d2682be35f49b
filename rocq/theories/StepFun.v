(** * StepFun: functions of a code point that are constant between the entries
    of tables, combined in time linear in the tables. *)
From Verif Require Import GoBase IntervalSpec Pointwise.
From Coq Require Import ZifyBool.
Local Open Scope Z_scope.

(** The value before the first point, then points with the value from there on. *)
Definition steps (A : Type) : Type := (A * list (Z * A))%type.

Fixpoint at_from {A} (v : A) (l : list (Z * A)) (r : Z) : A :=
  match l with
  | [] => v
  | (p, v') :: l' => if r <? p then v else at_from v' l' r
  end.
Definition at_ {A} (f : steps A) (r : Z) : A := at_from (fst f) (snd f) r.

Section Zip.
Context {A B C : Type} (f : A -> B -> C).

Fixpoint zip (a : A) (b : B) (xs : list (Z * A)) {struct xs} : list (Z * B) -> list (Z * C) :=
  (fix aux (b : B) (ys : list (Z * B)) {struct ys} : list (Z * C) :=
    match xs with
    | [] => map (fun y => (fst y, f a (snd y))) ys
    | (x, a') :: xs' =>
      match ys with
      | [] => (x, f a' b) :: zip a' b xs' []
      | (y, b') :: ys' =>
        match x ?= y with
        | Lt => (x, f a' b) :: zip a' b xs' ys
        | Eq => (x, f a' b') :: zip a' b' xs' ys'
        | Gt => (y, f a b') :: aux b' ys'
        end
      end
    end) b.

Lemma zip_nil a b ys : zip a b [] ys = map (fun y => (fst y, f a (snd y))) ys.
Proof. destruct ys; reflexivity. Qed.

Lemma zip_cons a b x a' xs ys : zip a b ((x, a') :: xs) ys =
  match ys with
  | [] => (x, f a' b) :: zip a' b xs []
  | (y, b') :: ys' =>
    match x ?= y with
    | Lt => (x, f a' b) :: zip a' b xs ys
    | Eq => (x, f a' b') :: zip a' b' xs ys'
    | Gt => (y, f a b') :: zip a b' ((x, a') :: xs) ys'
    end
  end.
Proof. destruct ys as [|(y, b') ys]; reflexivity. Qed.

Lemma zip_at xs : forall a b ys r,
  at_from (f a b) (zip a b xs ys) r = f (at_from a xs r) (at_from b ys r).
Proof.
  induction xs as [|(x, a') xs IH]; intros a b ys r.
  - rewrite zip_nil. simpl at_from at 2. revert b. induction ys as [|(y, b') ys IHy]; intros b; simpl; auto.
    destruct (r <? y); auto.
  - revert b. induction ys as [|(y, b') ys IHy]; intros b; rewrite zip_cons.
    + simpl. destruct (r <? x); auto. rewrite IH. reflexivity.
    + destruct (Z.compare_spec x y).
      * subst y. simpl. destruct (r <? x); auto.
      * simpl. destruct (r <? x) eqn:E.
        -- replace (r <? y) with true by lia. reflexivity.
        -- rewrite IH. reflexivity.
      * cbn [at_from]. destruct (r <? y) eqn:E.
        -- replace (r <? x) with true by lia. reflexivity.
        -- rewrite IHy. reflexivity.
Qed.

Definition both (u : steps A) (v : steps B) : steps C :=
  (f (fst u) (fst v), zip (fst u) (fst v) (snd u) (snd v)).

Lemma both_at u v r : at_ (both u v) r = f (at_ u r) (at_ v r).
Proof. apply zip_at. Qed.
End Zip.

Definition const {A} (a : A) : steps A := (a, []).
Lemma const_at {A} (a : A) r : at_ (const a) r = a.
Proof. reflexivity. Qed.

(** A property table. *)
Definition of_dict (d : list (Z * Z * Z)) : steps Z :=
  (0, flat_map (fun e => [(fst (fst e), snd e); (snd (fst e) + 1, 0)]) d).

Lemma of_dict_low d : forall r, Sorted (spans d) ->
  match spans d with [] => True | (a, _) :: _ => r < a end -> lookup d r = 0.
Proof.
  induction d as [|((a, b), p) d IH]; intros r Hs Hr; simpl in *; auto.
  destruct Hs as (Hab & Hn & Hs).
  replace ((a <=? r) && (r <=? b)) with false by lia.
  apply IH; auto. destruct (spans d) as [|(a', b') ?]; auto. lia.
Qed.

Lemma of_dict_at d r : Sorted (spans d) -> at_ (of_dict d) r = lookup d r.
Proof.
  unfold at_, of_dict. simpl. induction d as [|((a, b), p) d IH]; intros Hs; auto.
  pose proof Hs as (Hab & Hn & Hs'). fold (spans d) in Hn, Hs'. simpl in Hab.
  cbn [flat_map app at_from fst snd]. destruct (r <? a) eqn:E.
  - symmetry. apply of_dict_low; auto. simpl. lia.
  - destruct (r <? b + 1) eqn:E2; cbn [lookup].
    + replace ((a <=? r) && (r <=? b)) with true by lia. reflexivity.
    + replace ((a <=? r) && (r <=? b)) with false by lia. auto.
Qed.

(** A table of intervals. *)
Definition of_table (t : list (Z * Z)) : steps bool :=
  (false, flat_map (fun e => [(fst e, true); (snd e + 1, false)]) t).

Lemma memb_low t : forall r, Sorted t ->
  match t with [] => True | (a, _) :: _ => r < a end -> memb r t = false.
Proof.
  induction t as [|(a, b) t IH]; intros r Hs Hr; simpl in *; auto.
  destruct Hs as (Hab & Hn & Hs).
  replace ((a <=? r) && (r <=? b)) with false by lia.
  apply IH; auto. destruct t as [|(a', b') ?]; auto. lia.
Qed.

Lemma of_table_at t r : Sorted t -> at_ (of_table t) r = memb r t.
Proof.
  unfold at_, of_table. simpl. induction t as [|(a, b) t IH]; intros Hs; auto.
  pose proof Hs as (Hab & Hn & Hs').
  cbn [flat_map app at_from fst snd]. destruct (r <? a) eqn:E.
  - symmetry. apply memb_low; auto. lia.
  - unfold memb. cbn [existsb fst snd]. fold (memb r t). destruct (r <? b + 1) eqn:E2.
    + replace ((a <=? r) && (r <=? b)) with true by lia. reflexivity.
    + replace ((a <=? r) && (r <=? b)) with false by lia. auto.
Qed.

(** True everywhere; a step with another at the same point is never seen. *)
Fixpoint all_true (l : list (Z * bool)) : bool :=
  match l with
  | [] => true
  | (p, v) :: l' => (v || match l' with (p', _) :: _ => p =? p' | [] => false end) && all_true l'
  end.
Definition always (f : steps bool) : bool := fst f && all_true (snd f).

Lemma all_true_at l : forall v r, all_true l = true ->
  v = true \/ match l with (p, _) :: _ => p <= r | [] => False end -> at_from v l r = true.
Proof.
  induction l as [|(p, w) l IH]; intros v r H Hv; cbn [all_true at_from] in *; [tauto|].
  apply andb_prop in H as [Hw Hl]. destruct (Z.ltb_spec r p).
  - destruct Hv; [auto|lia].
  - apply IH; auto. apply orb_prop in Hw as [->|Hp]; [auto|]. right.
    destruct l as [|(p', ?) ?]; [discriminate|]. apply Z.eqb_eq in Hp. lia.
Qed.

Lemma always_at f r : always f = true -> at_ f r = true.
Proof. unfold always, at_. intros H. apply andb_prop in H as [Hv Hl]. apply all_true_at; auto. Qed.
