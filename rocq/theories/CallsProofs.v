(** * CallsProofs: getters, alignments, lists and writers that keep state. *)
From Coq Require Import ZifyBool ZifyNat.
From Verif Require Import GoBase CacheProofs Runewidth Width AlignSpec Table Merge TableContract TableOpsProofs MergeSpec MergeLayout MergeRender MergeSearch Calls CallsSpec.
Local Open Scope Z_scope.

Section Basics.
Context {Item Val E G L : Type}.
Notation kcol := (kcol G L).
Notation act := (act Item Val E G L).
Notation kprog := (kprog Item Val E G L).
Notation environment := (environment Item Val E G L).

(** What can happen, whatever is answered and read. *)
Fixpoint Can {R} (p : kprog R) (tr : list act) (r : R) : Prop :=
  match p with
  | KRet x => tr = [] /\ r = x
  | KAsk q k => exists a t, tr = Called q a :: t /\ Can (k a) t r
  | KLook name k => exists v t, tr = Looked name v :: t /\ Can (k v) t r
  | KRaise name w p => exists t, tr = Raised name w :: t /\ Can p t r
  end.
Lemma krun_can {W R} (env : environment W) (p : kprog R) : forall w m w' m' r tr, krun env p w m = (w', m', r, tr) -> Can p tr r.
Proof.
  induction p as [x|q k IH|name k IH|name v p IH]; intros w m w' m' r tr e; cbn [krun Can] in *.
  - injection e as <- <- <- <-. auto.
  - destruct (env q w m) as [[w1 m1] a]. destruct (krun env (k a) w1 m1) as [[[w2 m2] r2] t2] eqn:K. injection e as <- <- <- <-. eauto.
  - destruct (krun env (k (m name)) w m) as [[[w2 m2] r2] t2] eqn:K. injection e as <- <- <- <-. eauto.
  - destruct (krun env p w _) as [[[w2 m2] r2] t2] eqn:K. injection e as <- <- <- <-. eauto.
Qed.
Lemma krun_bind {W A B} (env : environment W) (p : kprog A) (f : A -> kprog B) : forall w m,
  krun env (kbind p f) w m = let '(w1, m1, a, t1) := krun env p w m in let '(w2, m2, r, t2) := krun env (f a) w1 m1 in (w2, m2, r, t1 ++ t2).
Proof.
  induction p as [x|q k IH|name k IH|name v p IH]; intros w m; cbn [krun kbind].
  - destruct (krun env (f x) w m) as [[[w2 m2] r2] t2]. reflexivity.
  - destruct (env q w m) as [[w1 m1] a]. rewrite IH. destruct (krun env (k a) w1 m1) as [[[w2 m2] r2] t2].
    destruct (krun env (f r2) w2 m2) as [[[w3 m3] r3] t3]. reflexivity.
  - rewrite IH. destruct (krun env (k (m name)) w m) as [[[w2 m2] r2] t2]. destruct (krun env (f r2) w2 m2) as [[[w3 m3] r3] t3]. reflexivity.
  - rewrite IH. destruct (krun env p w _) as [[[w2 m2] r2] t2]. destruct (krun env (f r2) w2 m2) as [[[w3 m3] r3] t3]. reflexivity.
Qed.
Lemma can_bind {A B} (p : kprog A) (f : A -> kprog B) : forall tr r, Can (kbind p f) tr r ->
  exists t1 a t2, tr = t1 ++ t2 /\ Can p t1 a /\ Can (f a) t2 r.
Proof.
  induction p as [x|q k IH|name k IH|name v p IH]; intros tr r C; cbn [kbind Can] in *.
  - exists [], x, tr. auto.
  - destruct C as (a & t & -> & C). destruct (IH a t r C) as (t1 & b & t2 & -> & C1 & C2). exists (Called q a :: t1), b, t2. split; [reflexivity|]. eauto.
  - destruct C as (v & t & -> & C). destruct (IH v t r C) as (t1 & b & t2 & -> & C1 & C2). exists (Looked name v :: t1), b, t2. split; [reflexivity|]. eauto.
  - destruct C as (t & -> & C). destruct (IH t r C) as (t1 & b & t2 & -> & C1 & C2). exists (Raised name v :: t1), b, t2. split; [reflexivity|]. eauto.
Qed.

(** ** Widths *)
Lemma run_grows {W R} (env : environment W) (p : kprog R) : Grows env -> forall w m w' m' r tr, krun env p w m = (w', m', r, tr) ->
  (forall n, m n <= m' n) /\ (forall n v, In (Raised n v) tr -> v <= m' n) /\ (forall n v, In (Looked n v) tr -> m n <= v <= m' n).
Proof.
  intros HG. induction p as [x|q k IH|name k IH|name v p IH]; intros w m w' m' r tr e; cbn [krun] in e.
  - injection e as <- <- <- <-. split; [intros; lia|]. split; intros n v [].
  - specialize (HG q w m). destruct (env q w m) as [[w1 m1] a]. destruct (krun env (k a) w1 m1) as [[[w2 m2] r2] t2] eqn:K. injection e as <- <- <- <-.
    cbn [fst snd] in HG. destruct (IH _ _ _ _ _ _ _ K) as (I1 & I2 & I3). split; [intros n; specialize (HG n); specialize (I1 n); lia|]. split.
    + intros n v [D|D]; [discriminate|auto].
    + intros n v [D|D]; [discriminate|]. specialize (I3 n v D). specialize (HG n). lia.
  - destruct (krun env (k (m name)) w m) as [[[w2 m2] r2] t2] eqn:K. injection e as <- <- <- <-. destruct (IH _ _ _ _ _ _ _ K) as (I1 & I2 & I3).
    split; auto. split; [intros n v [D|D]; [discriminate|auto]|]. intros n v [D|D]; [|auto]. injection D as <- <-. specialize (I1 name). lia.
  - set (m1 := if v >? m name then wset m name v else m) in *.
    assert (M : forall n, m n <= m1 n).
    { intros n. unfold m1. destruct (Z.gtb_spec v (m name)); [|lia]. unfold wset. destruct (str_eqb_spec n name) as [->|]; lia. }
    assert (Mv : v <= m1 name).
    { unfold m1. destruct (Z.gtb_spec v (m name)); [|lia]. unfold wset. destruct (str_eqb_spec name name); [lia|congruence]. }
    destruct (krun env p w m1) as [[[w2 m2] r2] t2] eqn:K. injection e as <- <- <- <-. destruct (IH _ _ _ _ _ _ K) as (I1 & I2 & I3).
    split; [intros n; specialize (I1 n); specialize (M n); lia|]. split.
    + intros n u [D|D]; [|auto]. injection D as <- <-. specialize (I1 name). lia.
    + intros n u [D|D]; [discriminate|]. specialize (I3 n u D). specialize (M n). lia.
Qed.
Lemma run_quiet {W R} (env : environment W) (p : kprog R) : Quiet env -> forall w m w' m' r tr, krun env p w m = (w', m', r, tr) ->
  forall n, IsMax (fun x => x = m n \/ In (Raised n x) tr) (m' n).
Proof.
  intros HG. induction p as [x|q k IH|name k IH|name v p IH]; intros w m w' m' r tr e n; cbn [krun] in e.
  - injection e as <- <- <- <-. split; [auto|]. intros x0 [->|[]]. lia.
  - specialize (HG q w m). destruct (env q w m) as [[w1 m1] a]. destruct (krun env (k a) w1 m1) as [[[w2 m2] r2] t2] eqn:K. injection e as <- <- <- <-.
    cbn [fst snd] in HG. subst m1. destruct (IH _ _ _ _ _ _ _ K n) as [[I1|I1] I2].
    + split; [auto|]. intros x [D|[D|D]]; try discriminate; auto.
    + split; [right; right; auto|]. intros x [D|[D|D]]; try discriminate; auto.
  - destruct (krun env (k (m name)) w m) as [[[w2 m2] r2] t2] eqn:K. injection e as <- <- <- <-. destruct (IH _ _ _ _ _ _ _ K n) as [[I1|I1] I2].
    + split; [auto|]. intros x [D|[D|D]]; try discriminate; auto.
    + split; [right; right; auto|]. intros x [D|[D|D]]; try discriminate; auto.
  - set (m1 := if v >? m name then wset m name v else m) in *.
    assert (M : m1 n = if str_eqb n name then Z.max (m n) v else m n).
    { unfold m1. destruct (Z.gtb_spec v (m name)); unfold wset; destruct (str_eqb_spec n name) as [->|]; lia. }
    destruct (krun env p w m1) as [[[w2 m2] r2] t2] eqn:K. injection e as <- <- <- <-. destruct (IH _ _ _ _ _ _ K n) as [I1 I2].
    clear K IH. clearbody m1. rewrite M in I2, I1. clear M. destruct (str_eqb_spec n name) as [en|N]; [rewrite en in *|].
    + pose proof (I2 _ (or_introl eq_refl)) as I0. split.
      * destruct I1 as [I1|I1]; [|right; right; auto]. destruct (Z.max_spec (m name) v) as [[_ e]|[_ e]]; rewrite e in I1; rewrite I1; [right; left; reflexivity|auto].
      * intros x [->|[D|D]]; [lia|injection D as ->; lia|auto].
    + split; [destruct I1 as [I1|I1]; [auto|right; right; auto]|]. intros x [->|[D|D]]; [auto|congruence|auto].
Qed.
(** Programs that compare nothing leave what quiet objects leave. *)
Lemma run_fixed {W R} (env : environment W) (p : kprog R) : Quiet env -> forall w m w' m' r tr, krun env p w m = (w', m', r, tr) ->
  (forall n v, ~ In (Raised n v) tr) -> m' = m /\ forall n v, In (Looked n v) tr -> v = m n.
Proof.
  intros HG. induction p as [x|q k IH|name k IH|name v p IH]; intros w m w' m' r tr e HR; cbn [krun] in e.
  - injection e as <- <- <- <-. split; auto. intros n v [].
  - specialize (HG q w m). destruct (env q w m) as [[w1 m1] a]. destruct (krun env (k a) w1 m1) as [[[w2 m2] r2] t2] eqn:K. injection e as <- <- <- <-.
    cbn [fst snd] in HG. subst m1. destruct (IH _ _ _ _ _ _ _ K) as [I1 I2]; [intros n v D; apply (HR n v); right; auto|]. split; auto.
    intros n v [D|D]; [discriminate|auto].
  - destruct (krun env (k (m name)) w m) as [[[w2 m2] r2] t2] eqn:K. injection e as <- <- <- <-.
    destruct (IH _ _ _ _ _ _ _ K) as [I1 I2]; [intros n v D; apply (HR n v); right; auto|]. split; auto.
    intros n v [D|D]; [injection D as <- <-; reflexivity|auto].
  - destruct (krun env p w _) as [[[w2 m2] r2] t2] eqn:K. injection e as <- <- <- <-. exfalso. eapply HR. left. reflexivity.
Qed.

(** ** Formatting *)
Lemma format_acts c item : forall cols acc tr r, Can (formatK c cols item acc) tr r ->
  exists done rest tail, cols = map (fun x => Some (fcCol x)) done ++ rest /\
    Forall (fun x => kGetter (fcCol x) = Some (fcGetter x)) done /\ tr = flat_map (fcell_acts c item) done ++ tail /\
    ((rest = [] /\ tail = [] /\ r = Ok (acc ++ map fcText done))
     \/ (exists col more, rest = col :: more /\ lacksGetter col /\ tail = [] /\ r = Panic NilDereference)
     \/ (exists k g more, rest = Some k :: more /\ kGetter k = Some g /\
          ((exists o, tail = [Called (CValue g item) o] /\ PassedOn o r)
           \/ (exists v o, tail = [Called (CValue g item) (Ok v); Called (CFormat g item v) o] /\ PassedOn o r)))).
Proof.
  induction cols as [|[col|] cols IH]; intros acc tr r C; cbn [formatK] in C.
  - destruct C as [-> ->]. exists [], [], []. split; [reflexivity|]. split; [constructor|]. split; [reflexivity|]. left. rewrite app_nil_r. auto.
  - destruct (kGetter col) as [g|] eqn:Eg.
    + unfold kobind, kask in C. cbn [kbind Can] in C. destruct C as (o & t & -> & C). destruct o as [v|e|p]; cbn [Can] in C.
      * destruct C as (o & t2 & -> & C). destruct o as [s|e|p]; cbn [Can] in C.
        -- destruct C as (t3 & -> & C). destruct (IH _ _ _ C) as (done & rest & tail & -> & HF & -> & D).
           exists ({| fcCol := col; fcGetter := g; fcValue := v; fcText := s |} :: done), rest, tail. split; [reflexivity|]. split; [constructor; auto|]. split; [reflexivity|].
           cbn [map]. rewrite <- app_assoc in D. exact D.
        -- destruct C as [-> ->]. exists [], (Some col :: cols), [Called (CValue g item) (Ok v); Called (CFormat g item v) (Err e)].
           split; [reflexivity|]. split; [constructor|]. split; [reflexivity|]. right. right. exists col, g, cols. split; auto. split; auto. right. eexists _, _. split; [reflexivity|]. reflexivity.
        -- destruct C as [-> ->]. exists [], (Some col :: cols), [Called (CValue g item) (Ok v); Called (CFormat g item v) (Panic p)].
           split; [reflexivity|]. split; [constructor|]. split; [reflexivity|]. right. right. exists col, g, cols. split; auto. split; auto. right. eexists _, _. split; [reflexivity|]. reflexivity.
      * destruct C as [-> ->]. exists [], (Some col :: cols), [Called (CValue g item) (Err e)].
        split; [reflexivity|]. split; [constructor|]. split; [reflexivity|]. right. right. exists col, g, cols. split; auto. split; auto. left. eexists. split; [reflexivity|]. reflexivity.
      * destruct C as [-> ->]. exists [], (Some col :: cols), [Called (CValue g item) (Panic p)].
        split; [reflexivity|]. split; [constructor|]. split; [reflexivity|]. right. right. exists col, g, cols. split; auto. split; auto. left. eexists. split; [reflexivity|]. reflexivity.
    + destruct C as [-> ->]. exists [], (Some col :: cols), []. split; [reflexivity|]. split; [constructor|]. split; [reflexivity|]. right. left. exists (Some col), cols. auto.
  - destruct C as [-> ->]. exists [], (None :: cols), []. split; [reflexivity|]. split; [constructor|]. split; [reflexivity|]. right. left. exists None, cols. cbn. auto.
Qed.
Lemma basic_acts item sep : forall cols i acc tr r, 0 <= i -> Can (basicK cols item sep i acc) tr r ->
  exists done rest tail, cols = map (fun x => Some (scCol x)) done ++ rest /\
    Forall (fun x => kGetter (scCol x) = Some (scGetter x)) done /\
    tr = map (fun x => Called (CString (scGetter x) (kName (scCol x)) item) (Ok (scText x))) done ++ tail /\
    ((rest = [] /\ tail = [] /\ r = Ok (acc ++ concat (map (fun x => if i >? 0 then sep ++ scText x else scText x) (firstn 1 done))
        ++ concat (map (fun x => sep ++ scText x) (skipn 1 done))))
     \/ (exists col more, rest = col :: more /\ lacksGetter col /\ tail = [] /\ r = Panic NilDereference)
     \/ (exists k g more o, rest = Some k :: more /\ kGetter k = Some g /\ tail = [Called (CString g (kName k) item) o] /\ PassedOn o r)).
Proof.
  induction cols as [|[col|] cols IH]; intros i acc tr r Hi C; cbn [basicK] in C.
  - destruct C as [-> ->]. exists [], [], []. split; [reflexivity|]. split; [constructor|]. split; [reflexivity|]. left. cbn. rewrite app_nil_r. auto.
  - destruct (kGetter col) as [g|] eqn:Eg.
    + unfold kobind, kask in C. cbn [kbind Can] in C. destruct C as (o & t & -> & C). destruct o as [s|e|p]; cbn [Can] in C.
      * destruct (IH (i + 1) _ _ _ ltac:(lia) C) as (done & rest & tail & -> & HF & -> & D).
        exists ({| scCol := col; scGetter := g; scText := s |} :: done), rest, tail. split; [reflexivity|]. split; [constructor; auto|]. split; [reflexivity|].
        destruct D as [(-> & -> & ->)|D]; [left|right; exact D]. split; auto. split; auto. f_equal.
        destruct (Z.gtb_spec (i + 1) 0); [|lia]. destruct (i >? 0), done as [|y done]; cbn [firstn skipn map concat scText app]; rewrite ?app_nil_r, <- ?app_assoc; reflexivity.
      * destruct C as [-> ->]. exists [], (Some col :: cols), [Called (CString g (kName col) item) (Err e)].
        split; [reflexivity|]. split; [constructor|]. split; [reflexivity|]. right. right. exists col, g, cols. eexists. split; auto. split; auto. split; [reflexivity|]. reflexivity.
      * destruct C as [-> ->]. exists [], (Some col :: cols), [Called (CString g (kName col) item) (Panic p)].
        split; [reflexivity|]. split; [constructor|]. split; [reflexivity|]. right. right. exists col, g, cols. eexists. split; auto. split; auto. split; [reflexivity|]. reflexivity.
    + destruct C as [-> ->]. exists [], (Some col :: cols), []. split; [reflexivity|]. split; [constructor|]. split; [reflexivity|]. right. left. exists (Some col), cols. auto.
  - destruct C as [-> ->]. exists [], (None :: cols), []. split; [reflexivity|]. split; [constructor|]. split; [reflexivity|]. right. left. exists None, cols. cbn. auto.
Qed.
Lemma join_steps sep (l : list str) : TableContract.join sep l = concat (firstn 1 l) ++ concat (map (fun x => sep ++ x) (skipn 1 l)).
Proof.
  destruct l as [|x l]; [reflexivity|]. cbn [firstn skipn concat map]. rewrite app_nil_r. revert x. induction l as [|y l IH]; intros x.
  - cbn. rewrite app_nil_r. reflexivity.
  - change (TableContract.join sep (x :: y :: l)) with (x ++ sep ++ TableContract.join sep (y :: l)). rewrite IH. cbn [map concat]. rewrite <- !app_assoc. reflexivity.
Qed.
Lemma align_some (x : kcell) al : kAlign (kcCol x) = Some al ->
  align_acts x = [Looked (kName (kcCol x)) (kcWidth x); Called (CAlign al (kcText x) (kcWidth x)) (Ok (kcOut x))] :> list act.
Proof. unfold align_acts. intros ->. reflexivity. Qed.
Lemma align_none (x : kcell) : kAlign (kcCol x) = None -> align_acts x = [] :> list act.
Proof. unfold align_acts. intros ->. reflexivity. Qed.
Lemma align_acts_ok : forall cols pre todo tr s r, length todo = length cols -> Can (alignK cols pre todo) tr (s, r) ->
  exists done rest todo' tail, cols = map (fun x => Some (kcCol x)) done ++ rest /\ todo = map kcText done ++ todo' /\
    Forall align_ok done /\ tr = flat_map align_acts done ++ tail /\ s = pre ++ map kcOut done ++ todo' /\
    ((rest = [] /\ todo' = [] /\ tail = [] /\ r = Ok s)
     \/ (exists more, rest = None :: more /\ tail = [] /\ r = Panic NilDereference)
     \/ (exists k al s w p more, rest = Some k :: more /\ kAlign k = Some al /\ nth_error todo' 0 = Some s /\
          tail = [Looked (kName k) w; Called (CAlign al s w) (Panic p)] /\ r = Panic p)).
Proof.
  induction cols as [|[col|] cols IH]; intros pre [|x todo] tr s r Hl C; cbn [alignK length] in *; try discriminate.
  - destruct C as [-> C]. injection C as -> ->. exists [], [], [], []. repeat (split; [auto; constructor|]). left. auto.
  - injection Hl as Hl. destruct (kAlign col) as [al|] eqn:Ea.
    + destruct C as (w & t & -> & C). destruct C as (o & t2 & -> & C). destruct o as [y|e|p]; [|destruct e|].
      * destruct (IH _ _ _ _ _ Hl C) as (done & rest & todo' & tail & -> & -> & HF & -> & -> & D).
        exists ({| kcCol := col; kcText := x; kcWidth := w; kcOut := y |} :: done), rest, todo', tail.
        split; [reflexivity|]. split; [reflexivity|]. split; [constructor; auto; intros K; cbn in K; congruence|].
        split; [cbn [flat_map]; rewrite (align_some {| kcCol := col; kcText := x; kcWidth := w; kcOut := y |} al Ea); reflexivity|].
        split; [rewrite <- app_assoc; reflexivity|]. exact D.
      * destruct C as [-> C]. injection C as -> ->. exists [], (Some col :: cols), (x :: todo). eexists. split; [reflexivity|]. split; [reflexivity|]. split; [constructor|].
        split; [reflexivity|]. split; [reflexivity|]. right. right. exists col, al, x, w, p, cols. repeat (split; auto).
    + destruct (IH _ _ _ _ _ Hl C) as (done & rest & todo' & tail & -> & -> & HF & -> & -> & D).
      exists ({| kcCol := col; kcText := x; kcWidth := 0; kcOut := x |} :: done), rest, todo', tail.
      split; [reflexivity|]. split; [reflexivity|]. split; [constructor; auto; intros K; reflexivity|].
      split; [cbn [flat_map]; rewrite (align_none {| kcCol := col; kcText := x; kcWidth := 0; kcOut := x |} Ea); reflexivity|].
      split; [rewrite <- app_assoc; reflexivity|]. exact D.
  - destruct C as [-> C]. injection C as -> ->. exists [], (None :: cols), (x :: todo), []. repeat (split; [auto; constructor|]). right. left. exists cols. auto.
Qed.
End Basics.
