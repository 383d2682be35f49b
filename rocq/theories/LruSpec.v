(** * LruSpec: when a width is computed, in terms of the texts asked for before. *)
From Verif Require Import GoBase Runewidth Width Cached.
Local Open Scope Z_scope.

(** Different texts in a list. *)
Definition distinct (l : list str) : nat := length (nodup str_eq_dec l).

(** [s] is computed after [before] (latest first): it takes no width, was not
    asked for before, or at least [cap] other texts were since. *)
Definition Computed (cap : nat) (c : Condition) (before : list str) (s : str) : Prop :=
  vwidth c s = 0 \/ ~ In s before \/
  exists since earlier, before = since ++ s :: earlier /\ ~ In s since /\ (cap <= distinct since)%nat.

Definition count (l : list bool) : nat := length (filter (fun b => b) l).

(** Texts without width, and different texts with one. *)
Definition zeros (c : Condition) (l : list str) : nat := length (filter (fun s => vwidth c s =? 0) l).
Definition visible (c : Condition) (l : list str) : nat := distinct (filter (fun s => negb (vwidth c s =? 0)) l).

(** The texts a program measures, if widths are [w] and the n-th Write
    succeeds when [ok n]. *)
Fixpoint texts {A} (w : str -> Z) (ok : nat -> bool) (n : nat) (p : wprog A) : list str :=
  match p with
  | WRet _ => []
  | WCall s k => s :: texts w ok n (k (w s))
  | Write txt k => texts w ok (S n) (k (ok n))
  end.

Section Types.
Context {Item Val E : Type}.

(** A column whose alignment is the default or one of the three. *)
Definition Built (col : PColumn Item Val E) : Prop :=
  pcAlignment col = None \/ pcAlignment col = Some alignLeftP \/ pcAlignment col = Some alignRightP
  \/ pcAlignment col = Some alignCenterP.

(** The column's getter, which measures nothing itself, makes [s] of [item]. *)
Definition Gives (col : PColumn Item Val E) (item : Item) (s : str) : Prop :=
  exists g v, pcGetter col = Some g /\ pgValue g item = Ret (Ok v) /\ pgFormat g item v = Ret (Ok s).
End Types.
