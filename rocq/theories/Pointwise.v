(** * Pointwise: statements about all code points, reduced to the finitely
    many break points of the tables involved. *)
From Verif Require Import GoBase IntervalSpec.
From Coq Require Import ZifyBool.
Local Open Scope Z_scope.

Definition memb (r : Z) (t : list (Z * Z)) : bool :=
  existsb (fun i => (fst i <=? r) && (r <=? snd i)) t.

Lemma memb_Member r t : memb r t = true <-> Member r t.
Proof.
  unfold memb. rewrite existsb_exists. split.
  - intros ((a, b) & Hin & H). exists a, b. simpl in H. split; [auto|lia].
  - intros (a & b & Hin & H). exists (a, b). simpl. split; [auto|lia].
Qed.

(** Break points of an interval table. *)
Definition cuts (t : list (Z * Z)) : list Z := flat_map (fun i => [fst i; snd i + 1]) t.

(** [r] and [r'] lie between the same break points. *)
Definition same (cs : list Z) (r r' : Z) : Prop :=
  forall b, In b cs -> (b <=? r) = (b <=? r').

Lemma same_incl cs cs' r r' : incl cs cs' -> same cs' r r' -> same cs r r'.
Proof. unfold same, incl; auto. Qed.

Lemma memb_same t r r' : same (cuts t) r r' -> memb r t = memb r' t.
Proof.
  unfold memb. induction t as [|(a, b) t IH]; intros H; simpl; auto.
  assert (Ha : (a <=? r) = (a <=? r')) by (apply H; simpl; auto).
  assert (Hb : (b + 1 <=? r) = (b + 1 <=? r')) by (apply H; simpl; auto).
  rewrite IH.
  - f_equal. lia.
  - intros c Hc. apply H. simpl. auto.
Qed.

(** Every point has a representative among [lo] and the break points. *)
Lemma representative cs lo r : lo <= r ->
  exists b, In b (lo :: cs) /\ lo <= b <= r /\ same cs r b.
Proof.
  intros Hr. induction cs as [|c cs IH].
  - exists lo. simpl. repeat split; auto; try lia. intros b [].
  - destruct IH as (b & Hin & Hb & Hs).
    destruct (Z_le_gt_dec c r) as [Hc|Hc].
    + destruct (Z_le_gt_dec c b) as [Hcb|Hcb].
      * exists b. simpl in *. split; [tauto|]. split; auto.
        intros x [<-|Hx]; [lia|auto].
      * exists c. simpl. split; [tauto|]. split; [lia|].
        intros x [<-|Hx]; [lia|]. specialize (Hs x Hx). lia.
    + exists b. simpl in *. split; [tauto|]. split; auto.
      intros x [<-|Hx]; [lia|auto].
Qed.

Lemma pointwise (P : Z -> bool) cs lo :
  (forall r r', same cs r r' -> P r = P r') ->
  forallb P (lo :: cs) = true ->
  forall r, lo <= r -> P r = true.
Proof.
  intros HP Hall r Hr. destruct (representative cs lo r Hr) as (b & Hin & _ & Hs).
  rewrite (HP r b Hs). rewrite forallb_forall in Hall. auto.
Qed.

(** Values of property tables are piecewise constant too. *)
Lemma lookup_HasProperty d r : HasProperty d r (lookup d r).
Proof.
  induction d as [|((a, b), p) d IH]; simpl.
  - right. split; auto.
  - destruct ((a <=? r) && (r <=? b)) eqn:E.
    + left. exists a, b. simpl. split; [auto|lia].
    + destruct IH as [(x & y & Hin & Hr)|[H0 Hno]].
      * left. exists x, y. simpl. auto.
      * right. split; auto. intros x y q [Heq|Hin]; eauto.
        injection Heq as -> -> ->. lia.
Qed.

Lemma lookup_same d r r' : same (cuts (spans d)) r r' -> lookup d r = lookup d r'.
Proof.
  induction d as [|((a, b), p) d IH]; intros H; simpl; auto.
  assert (Ha : (a <=? r) = (a <=? r')) by (apply H; simpl; auto).
  assert (Hb : (b + 1 <=? r) = (b + 1 <=? r')) by (apply H; simpl; auto).
  assert (E : ((a <=? r) && (r <=? b)) = ((a <=? r') && (r' <=? b))) by lia.
  rewrite E, IH; auto. intros c Hc. apply H. simpl. auto.
Qed.
