(** * EditProofs: how much the width of a text changes when the text is changed.

    The rules of UAX #29 look at the text before a position only through a few
    states; with the widths runes of each class can have, what a text adds behind
    one state and behind another differs by at most the entry of a table. *)
From Verif Require Import GoBase IntervalSpec Pointwise Utf8 Utf8Spec Utf8Proofs Utf8Theory PropConst GraphemeData Uniseg GraphemeSpec UnisegProofs
  RuneWidthData Runewidth ConditionSpec RunewidthProofs RuneTheory StringWidthProofs HangulProofs LawsProofs LawsTheory.
From Coq Require Import ZifyBool ZifyNat.
Local Open Scope Z_scope.

(** ** The states *)
Definition gcb_eqb (a b : gcb) : bool := code a =? code b.
Lemma gcb_eqb_eq a b : gcb_eqb a b = true -> a = b.
Proof. destruct a, b; intros K; try reflexivity; discriminate K. Qed.
(** The class before the position and what else the rules ask; is the cluster
    visible already? *)
Definition ctx : Type := option (gcb * bool).
Definition st : Type := (ctx * bool)%type.
Definition ctx_of (before : list gcb) : ctx :=
  match before with
  | [] => None
  | g :: l => Some (g, match g with
                       | RI => Nat.odd (ri_count before)
                       | Extend | Pict => pict_extend before
                       | ZWJ => pict_extend l
                       | _ => false
                       end)
  end.
Definition next (x : ctx) (g : gcb) : ctx :=
  Some (g, match g with
           | RI => match x with Some (RI, b) => negb b | _ => true end
           | Pict => true
           | Extend | ZWJ => match x with Some (Extend, b) | Some (Pict, b) => b | _ => false end
           | _ => false
           end).
Definition brk (x : ctx) (b : gcb) : bool :=
  match x with
  | None => true
  | Some (a, f) =>
    if match a, b with CR, LF => true | _, _ => false end then false
    else if is_control a then true
    else if is_control b then true
    else if match a, b with
            | HL, (HL | HV | HLV | HLVT) => true
            | (HLV | HV), (HV | HT) => true
            | (HLVT | HT), HT => true
            | _, (Extend | ZWJ) => true
            | _, SpacingMark => true
            | Prepend, _ => true
            | ZWJ, Pict => f
            | RI, RI => f
            | _, _ => false
            end then false
    else true
  end.
Lemma next_of g l : ctx_of (g :: l) = next (ctx_of l) g.
Proof.
  unfold next. cbn [ctx_of]. f_equal. f_equal. destruct g; try reflexivity.
  - destruct l as [|[] l]; reflexivity.
  - destruct l as [|[] l]; reflexivity.
  - destruct l as [|[] l]; try reflexivity.
    change (ri_count (RI :: RI :: l)) with (S (ri_count (RI :: l))). cbn [ctx_of]. rewrite Nat.odd_succ, <- Nat.negb_odd. reflexivity.
Qed.
Lemma brk_of l g : breaks l g = brk (ctx_of l) g.
Proof. destruct l as [|a l]; [reflexivity|]. destruct a, g; reflexivity. Qed.

(** ** Widths of the classes *)
Definition widths (g : gcb) : list Z :=
  match g with
  | Other | Extend | SpacingMark => [0; 1; 2]
  | CR | LF | ZWJ => [0]
  | Control | Prepend => [0; 1]
  | RI | HV | HT => [1]
  | HL | HLV | HLVT => [2]
  | Pict => [1; 2]
  end.
Definition fits (g : gcb) (w : Z) : bool := existsb (Z.eqb w) (widths g).
Definition letters : list (gcb * Z) := flat_map (fun g => map (fun w => (g, w)) (widths g)) all_gcb.
Lemma letters_in g w : fits g w = true -> In (g, w) letters.
Proof.
  intros K. unfold letters. apply in_flat_map. exists g. split; [destruct g; cbn; tauto|]. apply in_map_iff. exists w. split; [reflexivity|].
  unfold fits in K. apply existsb_exists in K. destruct K as (w' & Hin & E). apply Z.eqb_eq in E. subst w'. exact Hin.
Qed.
Definition fits_all (r : Z) : bool :=
  let g := class r in forallb (fun es => fits g (rwM (fst es) (snd es) r)) [(true, true); (true, false); (false, true); (false, false)].
Definition ed_cuts : list Z := rw_cuts ++ cuts (spans graphemeCodePoints).
Lemma fits_points r : 0 <= r -> fits_all r = true.
Proof.
  apply (pointwise fits_all ed_cuts 0).
  - intros x y Hs. unfold fits_all, class. rewrite (lookup_same graphemeCodePoints x y).
    + cbn [forallb fst snd]. rewrite !(rwM_same _ _ x y); [reflexivity|eapply same_incl; [|exact Hs]; unfold ed_cuts; apply incl_appl, incl_refl..].
    + eapply same_incl; [|exact Hs]. unfold ed_cuts. apply incl_appr, incl_refl.
  - vm_compute. reflexivity.
Qed.
Lemma fits_width c r : Reachable c -> fits (class r) (RuneWidth c r) = true.
Proof.
  intros Hc. destruct (Reachable_width c Hc) as (ea & s & E). rewrite E. clear E.
  destruct (Z_le_gt_dec 0 r) as [K|K].
  - destruct (Z_le_gt_dec r 0x10FFFF) as [K2|K2].
    + fold (plainCondition ea s). rewrite RuneWidth_plainCondition, RuneWidth_tables_rwM by lia.
      pose proof (fits_points r K) as F. unfold fits_all in F. cbn [forallb fst snd] in F. rewrite !andb_true_iff in F.
      destruct F as (F1 & F2 & F3 & F4 & _). destruct ea, s; assumption.
    + rewrite RuneWidth_outside by lia. assert (E : class r = Other); [|rewrite E; reflexivity].
      unfold class. replace (lookup graphemeCodePoints r) with 0; [reflexivity|]. symmetry.
      destruct (lookup_HasProperty graphemeCodePoints r) as [(a & b & Hin & Hab)|[H0 _]]; [|exact H0]. exfalso.
      assert (F : forallb (fun e => snd (fst e) <=? 0x10FFFF) graphemeCodePoints = true) by (vm_compute; reflexivity).
      rewrite forallb_forall in F. specialize (F _ Hin). cbn [fst snd] in F. lia.
  - rewrite RuneWidth_outside by lia. assert (E : class r = Other); [|rewrite E; reflexivity].
    unfold class. replace (lookup graphemeCodePoints r) with 0; [reflexivity|]. symmetry.
    destruct (lookup_HasProperty graphemeCodePoints r) as [(a & b & Hin & Hab)|[H0 _]]; [|exact H0]. exfalso.
    assert (F : forallb (fun e => 0 <=? fst (fst e)) graphemeCodePoints = true) by (vm_compute; reflexivity).
    rewrite forallb_forall in F. specialize (F _ Hin). cbn [fst snd] in F. lia.
Qed.

(** ** What a text adds behind a state *)
Definition after (s : st) (x : gcb * Z) : st :=
  (next (fst s) (fst x), if brk (fst s) (fst x) then snd x >? 0 else snd s || (snd x >? 0)).
Definition adds (s : st) (x : gcb * Z) : Z :=
  if brk (fst s) (fst x) then snd x else if snd s then 0 else snd x.
Fixpoint gain (s : st) (l : list (gcb * Z)) : Z :=
  match l with [] => 0 | x :: l => adds s x + gain (after s x) l end.
Definition reach (s : st) (l : list (gcb * Z)) : st := fold_left after l s.
Lemma gain_app l1 : forall s l2, gain s (l1 ++ l2) = gain s l1 + gain (reach s l1) l2.
Proof. induction l1 as [|x l1 IH]; intros s l2; [cbn; lia|]. cbn [app gain]. rewrite IH. unfold reach. cbn [fold_left]. lia. Qed.
Definition letter (c : Condition) (r : Z) : gcb * Z := (class r, RuneWidth c r).
Lemma run_gain c l : forall before w v, fst (run c before (w, v) l) = w + gain (ctx_of before, v) (map (letter c) l).
Proof.
  induction l as [|r l IH]; intros before w v; [cbn; lia|]. cbn [run map gain]. rewrite brk_of. unfold vstep.
  unfold adds, after. cbn [fst snd letter]. destruct (brk (ctx_of before) (class r)).
  - rewrite IH, next_of. lia.
  - rewrite IH, next_of. destruct v; lia.
Qed.
Definition start : st := (None, false).
Lemma swidth_gain c l : WidthOK c -> swidth c l = gain start (map (letter c) l).
Proof. intros HO. rewrite swidth_run by exact HO. rewrite run_gain. reflexivity. Qed.

(** ** The table *)
Definition states : list st := [
  (None, false);
  (Some (CR, false), false);
  (Some (Control, false), false);
  (Some (Control, false), true);
  (Some (Extend, false), false);
  (Some (Extend, false), true);
  (Some (Extend, true), true);
  (Some (HL, false), true);
  (Some (LF, false), false);
  (Some (HLV, false), true);
  (Some (HLVT, false), true);
  (Some (Other, false), false);
  (Some (Other, false), true);
  (Some (Pict, true), true);
  (Some (Prepend, false), false);
  (Some (Prepend, false), true);
  (Some (RI, false), true);
  (Some (RI, true), true);
  (Some (SpacingMark, false), false);
  (Some (SpacingMark, false), true);
  (Some (HT, false), true);
  (Some (HV, false), true);
  (Some (ZWJ, false), false);
  (Some (ZWJ, false), true);
  (Some (ZWJ, true), true)].
Definition table : list (list Z) := [
  [0; 0; 0; 0; 0; 2; 4; 2; 0; 2; 2; 0; 2; 4; 0; 2; 2; 2; 0; 2; 2; 2; 0; 2; 2];
  [0; 0; 0; 0; 0; 2; 4; 2; 0; 2; 2; 0; 2; 4; 0; 2; 2; 2; 0; 2; 2; 2; 0; 2; 2];
  [0; 0; 0; 0; 0; 2; 4; 2; 0; 2; 2; 0; 2; 4; 0; 2; 2; 2; 0; 2; 2; 2; 0; 2; 2];
  [0; 0; 0; 0; 0; 2; 4; 2; 0; 2; 2; 0; 2; 4; 0; 2; 2; 2; 0; 2; 2; 2; 0; 2; 2];
  [0; 0; 0; 0; 0; 2; 4; 2; 0; 2; 2; 0; 2; 4; 0; 2; 2; 2; 0; 2; 2; 2; 0; 2; 2];
  [0; 0; 0; 0; 0; 0; 2; 2; 0; 1; 1; 0; 0; 2; 0; 2; 0; 1; 0; 0; 1; 1; 0; 0; 2];
  [0; 0; 0; 0; 0; 0; 0; 2; 0; 1; 1; 0; 0; 0; 0; 2; 0; 1; 0; 0; 1; 1; 0; 0; 2];
  [0; 0; 0; 0; 0; 0; 2; 0; 0; 1; 1; 0; 0; 2; 0; 2; 0; 1; 0; 0; 1; 1; 0; 0; 2];
  [0; 0; 0; 0; 0; 2; 4; 2; 0; 2; 2; 0; 2; 4; 0; 2; 2; 2; 0; 2; 2; 2; 0; 2; 2];
  [0; 0; 0; 0; 0; 0; 2; 2; 0; 0; 0; 0; 0; 2; 0; 2; 0; 1; 0; 0; 0; 0; 0; 0; 2];
  [0; 0; 0; 0; 0; 0; 2; 2; 0; 1; 0; 0; 0; 2; 0; 2; 0; 1; 0; 0; 0; 1; 0; 0; 2];
  [0; 0; 0; 0; 0; 2; 4; 2; 0; 2; 2; 0; 2; 4; 0; 2; 2; 2; 0; 2; 2; 2; 0; 2; 2];
  [0; 0; 0; 0; 0; 0; 2; 2; 0; 1; 1; 0; 0; 2; 0; 2; 0; 1; 0; 0; 1; 1; 0; 0; 2];
  [0; 0; 0; 0; 0; 0; 0; 2; 0; 1; 1; 0; 0; 0; 0; 2; 0; 1; 0; 0; 1; 1; 0; 0; 2];
  [0; 0; 0; 0; 0; 2; 4; 2; 0; 2; 2; 0; 2; 4; 0; 2; 2; 2; 0; 2; 2; 2; 0; 2; 2];
  [0; 0; 0; 0; 0; 0; 2; 0; 0; 0; 0; 0; 0; 2; 0; 0; 0; 0; 0; 0; 0; 0; 0; 0; 0];
  [0; 0; 0; 0; 0; 0; 2; 2; 0; 1; 1; 0; 0; 2; 0; 2; 0; 1; 0; 0; 1; 1; 0; 0; 2];
  [0; 0; 0; 0; 0; 0; 2; 2; 0; 1; 1; 0; 0; 2; 0; 2; 0; 0; 0; 0; 1; 1; 0; 0; 2];
  [0; 0; 0; 0; 0; 2; 4; 2; 0; 2; 2; 0; 2; 4; 0; 2; 2; 2; 0; 2; 2; 2; 0; 2; 2];
  [0; 0; 0; 0; 0; 0; 2; 2; 0; 1; 1; 0; 0; 2; 0; 2; 0; 1; 0; 0; 1; 1; 0; 0; 2];
  [0; 0; 0; 0; 0; 0; 2; 2; 0; 1; 0; 0; 0; 2; 0; 2; 0; 1; 0; 0; 0; 1; 0; 0; 2];
  [0; 0; 0; 0; 0; 0; 2; 2; 0; 0; 0; 0; 0; 2; 0; 2; 0; 1; 0; 0; 0; 0; 0; 0; 2];
  [0; 0; 0; 0; 0; 2; 4; 2; 0; 2; 2; 0; 2; 4; 0; 2; 2; 2; 0; 2; 2; 2; 0; 2; 2];
  [0; 0; 0; 0; 0; 0; 2; 2; 0; 1; 1; 0; 0; 2; 0; 2; 0; 1; 0; 0; 1; 1; 0; 0; 2];
  [0; 0; 0; 0; 0; 0; 2; 2; 0; 1; 1; 0; 0; 2; 0; 2; 0; 1; 0; 0; 1; 1; 0; 0; 0]].

Definition st_eqb (a b : st) : bool :=
  Bool.eqb (snd a) (snd b) &&
  match fst a, fst b with
  | None, None => true
  | Some (g, x), Some (h, y) => gcb_eqb g h && Bool.eqb x y
  | _, _ => false
  end.
Lemma st_eqb_eq a b : st_eqb a b = true -> a = b.
Proof.
  destruct a as [[[g x]|] v], b as [[[h y]|] w]; unfold st_eqb; cbn [fst snd]; rewrite ?andb_true_iff; intros [K1 K2]; try discriminate.
  - destruct K2 as [K2 K3]. apply gcb_eqb_eq in K2. apply Bool.eqb_prop in K1, K3. congruence.
  - apply Bool.eqb_prop in K1. congruence.
Qed.
Fixpoint pos (s : st) (l : list st) : nat := match l with [] => O | x :: l => if st_eqb s x then O else S (pos s l) end.
Definition most (s t : st) : Z := nth (pos t states) (nth (pos s states) table []) 9.

Definition known (s : st) : bool := existsb (st_eqb s) states.
Lemma known_in s : known s = true -> In s states.
Proof. unfold known. rewrite existsb_exists. intros (x & Hx & K). apply st_eqb_eq in K. subst x. exact Hx. Qed.
Lemma known_all : forallb (fun s => forallb (fun x => known (after s x)) letters) states = true.
Proof. vm_compute. reflexivity. Qed.
Lemma known_after s x : In s states -> In x letters -> In (after s x) states.
Proof.
  intros Hs Hx. pose proof known_all as K. rewrite forallb_forall in K. specialize (K s Hs). rewrite forallb_forall in K. apply known_in, K, Hx.
Qed.
Lemma most_all : forallb (fun s => forallb (fun t => let m := most s t in (0 <=? m) &&
  forallb (fun x => adds s x - adds t x + most (after s x) (after t x) <=? m) letters) states) states = true.
Proof. vm_compute. reflexivity. Qed.
Lemma most_step s t : In s states -> In t states -> 0 <= most s t /\
  forall x, In x letters -> adds s x - adds t x + most (after s x) (after t x) <= most s t.
Proof.
  intros Hs Ht. pose proof most_all as K. rewrite forallb_forall in K. specialize (K s Hs). rewrite forallb_forall in K. specialize (K t Ht).
  cbv zeta in K. apply andb_true_iff in K. destruct K as [K1 K2]. rewrite forallb_forall in K2. split; [lia|]. intros x Hx. specialize (K2 x Hx). lia.
Qed.
Lemma gain_most l : Forall (fun x => In x letters) l -> forall s t, In s states -> In t states -> gain s l - gain t l <= most s t.
Proof.
  induction 1 as [|x l Hx _ IH]; intros s t Hs Ht; destruct (most_step s t Hs Ht) as [K1 K2]; [cbn [gain]; lia|].
  cbn [gain]. specialize (K2 x Hx). specialize (IH (after s x) (after t x)). pose proof (known_after s x Hs Hx) as Ks.
  pose proof (known_after t x Ht Hx) as Kt. specialize (IH Ks Kt). lia.
Qed.
Lemma letters_of c l : Reachable c -> Forall (fun x => In x letters) (map (letter c) l).
Proof. intros Hc. apply Forall_forall. intros x Hx. apply in_map_iff in Hx. destruct Hx as (r & <- & _). apply letters_in, fits_width, Hc. Qed.
Lemma reach_known l : Forall (fun x => In x letters) l -> forall s, In s states -> In (reach s l) states.
Proof. induction 1 as [|x l Hx _ IH]; intros s Hs; [exact Hs|]. unfold reach in *. cbn [fold_left]. apply IH, known_after; assumption. Qed.
Lemma start_known : In start states.
Proof. left. reflexivity. Qed.

(** ** Edits, on runes *)
Section Edits.
Variable c : Condition.
Hypothesis HC : Reachable c.
Let HO : WidthOK c := Reachable_OK c HC.
Notation W := (swidth c).

Lemma split_at a b : exists s, In s states /\ forall m, W (a ++ m ++ b) = W a + gain s (map (letter c) m) + gain (reach s (map (letter c) m)) (map (letter c) b).
Proof.
  exists (reach start (map (letter c) a)). split; [apply reach_known; [apply letters_of, HC|apply start_known]|].
  intros m. rewrite !swidth_gain by exact HO. rewrite !map_app, !gain_app. lia.
Qed.

Lemma seam_rows : forallb (fun t => most start t <=? 4) states = true.
Proof. vm_compute. reflexivity. Qed.
Lemma seam_loss a b : W a + W b - 4 <= W (a ++ b) <= W a + W b.
Proof.
  split; [|apply swidth_subadd, HC]. destruct (split_at a b) as (s & Hs & E). specialize (E []). cbn [app map gain reach fold_left] in E.
  rewrite E, (swidth_gain c b HO). pose proof (gain_most _ (letters_of c b HC) start s start_known Hs) as K.
  pose proof seam_rows as F. rewrite forallb_forall in F. specialize (F s Hs). lia.
Qed.

Lemma insert_rows : forallb (fun s => forallb (fun x => let t := after s x in
  (adds s x + most t s <=? 5) && (-3 <=? adds s x - most s t)) letters) states = true.
Proof. vm_compute. reflexivity. Qed.
Lemma insert_one a r b : W (a ++ b) - 3 <= W (a ++ [r] ++ b) <= W (a ++ b) + 5.
Proof.
  destruct (split_at a b) as (s & Hs & E). pose proof (E []) as E0. specialize (E [r]). rewrite E. cbn [app map gain reach fold_left] in E0 |- *.
  rewrite E0. pose proof (letters_of c [r] HC) as Hx. inversion Hx as [|x l Hr _]; subst. set (x := letter c r) in *.
  pose proof (gain_most _ (letters_of c b HC) s (after s x) Hs (known_after s x Hs Hr)) as K1.
  pose proof (gain_most _ (letters_of c b HC) (after s x) s (known_after s x Hs Hr) Hs) as K2.
  pose proof insert_rows as F. rewrite forallb_forall in F. specialize (F s Hs). rewrite forallb_forall in F. specialize (F x Hr). cbv zeta in F. lia.
Qed.

Lemma replace_rows : forallb (fun s => forallb (fun x => forallb (fun y =>
  adds s x - adds s y + most (after s x) (after s y) <=? 5) letters) letters) states = true.
Proof. vm_compute. reflexivity. Qed.
Lemma replace_one a r r' b : W (a ++ [r] ++ b) <= W (a ++ [r'] ++ b) + 5.
Proof.
  destruct (split_at a b) as (s & Hs & E). rewrite !E. cbn [map gain reach fold_left].
  pose proof (letters_of c [r] HC) as Hx. inversion Hx as [|x l Hr _]; subst. set (x := letter c r) in *.
  pose proof (letters_of c [r'] HC) as Hy. inversion Hy as [|y l Hr' _]; subst. set (y := letter c r') in *.
  pose proof (gain_most _ (letters_of c b HC) (after s x) (after s y) (known_after s x Hs Hr) (known_after s y Hs Hr')) as K1.
  pose proof replace_rows as F. rewrite forallb_forall in F. specialize (F s Hs). rewrite forallb_forall in F. specialize (F x Hr).
  rewrite forallb_forall in F. specialize (F y Hr'). lia.
Qed.

Lemma swap_rows : forallb (fun s => forallb (fun x => forallb (fun y =>
  adds s x + adds (after s x) y - adds s y - adds (after s y) x + most (after (after s x) y) (after (after s y) x) <=? 4) letters) letters) states = true.
Proof. vm_compute. reflexivity. Qed.
Lemma swap_two a r r' b : W (a ++ [r; r'] ++ b) <= W (a ++ [r'; r] ++ b) + 4.
Proof.
  destruct (split_at a b) as (s & Hs & E). rewrite !E. cbn [map gain reach fold_left].
  pose proof (letters_of c [r] HC) as Hx. inversion Hx as [|x l Hr _]; subst. set (x := letter c r) in *.
  pose proof (letters_of c [r'] HC) as Hy. inversion Hy as [|y l Hr' _]; subst. set (y := letter c r') in *.
  pose proof (known_after s x Hs Hr) as Kx. pose proof (known_after s y Hs Hr') as Ky.
  pose proof (gain_most _ (letters_of c b HC) _ _ (known_after _ y Kx Hr') (known_after _ x Ky Hr)) as K1.
  pose proof swap_rows as F. rewrite forallb_forall in F. specialize (F s Hs). rewrite forallb_forall in F. specialize (F x Hr).
  rewrite forallb_forall in F. specialize (F y Hr'). lia.
Qed.

Lemma splice a x y b : W (a ++ x ++ b) <= W (a ++ y ++ b) + W x + 4.
Proof.
  pose proof (seam_loss a (x ++ b)). pose proof (seam_loss x b). pose proof (seam_loss (a ++ y) b) as K. rewrite <- app_assoc in K.
  pose proof (swidth_prefix c a y HO). lia.
Qed.

(** Behind a visible rune that is no Extend, ZWJ or RI. *)
Lemma settles_rows : forallb (fun s => forallb (fun x => match fst x with Extend | ZWJ | RI => true | _ =>
  (snd x =? 0) || st_eqb (after s x) (after start x) end) letters) states = true.
Proof. vm_compute. reflexivity. Qed.
Lemma settles a r b : 0 < RuneWidth c r -> class r <> Extend -> class r <> ZWJ -> class r <> RI ->
  W (a ++ [r] ++ b) = W (a ++ [r]) + W ([r] ++ b) - W [r].
Proof.
  intros Hw H1 H2 H3. rewrite !swidth_gain by exact HO. rewrite !map_app, !gain_app. cbn [map gain reach fold_left]. fold (reach start (map (letter c) a)).
  assert (Hs : In (reach start (map (letter c) a)) states) by (apply reach_known; [apply letters_of, HC|apply start_known]).
  set (s := reach start (map (letter c) a)) in *.
  pose proof (letters_of c [r] HC) as Hx. inversion Hx as [|x l Hr _]; subst.
  pose proof settles_rows as F. rewrite forallb_forall in F. specialize (F s Hs). rewrite forallb_forall in F. specialize (F _ Hr).
  assert (E : after s (letter c r) = after start (letter c r)); [|rewrite E; unfold reach; cbn [fold_left]; lia].
  change (fst (letter c r)) with (class r) in F. change (snd (letter c r)) with (RuneWidth c r) in F.
  replace (RuneWidth c r =? 0) with false in F by lia. cbn [orb] in F.
  apply st_eqb_eq. destruct (class r); congruence || exact F.
Qed.
End Edits.
