(** * LutRaceSpec: what goroutines sharing a Condition may see. *)
From Verif Require Import GoBase Runewidth ConditionSpec LutRace.
Local Open Scope Z_scope.

(** ** What the programs do to the condition *)

(** Flags are only set to these values. *)
Inductive SetsOnly (E S : bool -> Prop) {A} : lprog A -> Prop :=
| so_ret a : SetsOnly E S (LRet a)
| so_width r k : (forall w, SetsOnly E S (k w)) -> SetsOnly E S (LWidth r k)
| so_create k : SetsOnly E S k -> SetsOnly E S (LCreate k)
| so_default k : SetsOnly E S k -> SetsOnly E S (LCreateDefault k)
| so_ea b k : E b -> SetsOnly E S k -> SetsOnly E S (LSetEA b k)
| so_strict b k : S b -> SetsOnly E S k -> SetsOnly E S (LSetStrict b k).

(** The program never makes a table. *)
Inductive MakesNone {A} : lprog A -> Prop :=
| mn_ret a : MakesNone (LRet a)
| mn_width r k : (forall w, MakesNone (k w)) -> MakesNone (LWidth r k)
| mn_ea b k : MakesNone k -> MakesNone (LSetEA b k)
| mn_strict b k : MakesNone k -> MakesNone (LSetStrict b k).

(** It calls only the package-level CreateLUT, which does nothing when there
    is a table. *)
Inductive OnlyDefault {A} : lprog A -> Prop :=
| od_ret a : OnlyDefault (LRet a)
| od_width r k : (forall w, OnlyDefault (k w)) -> OnlyDefault (LWidth r k)
| od_default k : OnlyDefault k -> OnlyDefault (LCreateDefault k)
| od_ea b k : OnlyDefault k -> OnlyDefault (LSetEA b k)
| od_strict b k : OnlyDefault k -> OnlyDefault (LSetStrict b k).

(** It makes at most one table: after the first call only package-level ones. *)
Inductive MakesOne {A} : lprog A -> Prop :=
| mo_ret a : MakesOne (LRet a)
| mo_width r k : (forall w, MakesOne (k w)) -> MakesOne (LWidth r k)
| mo_create k : OnlyDefault k -> MakesOne (LCreate k)
| mo_default k : OnlyDefault k -> MakesOne (LCreateDefault k)
| mo_ea b k : MakesOne k -> MakesOne (LSetEA b k)
| mo_strict b k : MakesOne k -> MakesOne (LSetStrict b k).

(** ** What they may return *)

(** The results of a program when RuneWidth(r) may answer any [w] with [F r w]. *)
Inductive MayReturn (F : Z -> Z -> Prop) {A} : lprog A -> A -> Prop :=
| mr_ret a : MayReturn F (LRet a) a
| mr_width r k w a : F r w -> MayReturn F (k w) a -> MayReturn F (LWidth r k) a
| mr_create k a : MayReturn F k a -> MayReturn F (LCreate k) a
| mr_default k a : MayReturn F k a -> MayReturn F (LCreateDefault k) a
| mr_ea b k a : MayReturn F k a -> MayReturn F (LSetEA b k) a
| mr_strict b k a : MayReturn F k a -> MayReturn F (LSetStrict b k) a.

(** The answers allowed: that of the condition [c] at the start, or that of a
    condition without table whose flags are among the values they have had. *)
Definition answers (c : Condition) (E S : bool -> Prop) (r w : Z) : Prop :=
  w = RuneWidth c r \/ exists ea st, E ea /\ S st /\ w = RuneWidth (plainCondition ea st) r.

(** The result of a program run alone with widths [f]. *)
Fixpoint result (f : Z -> Z) {A} (p : lprog A) : A :=
  match p with
  | LRet a => a
  | LWidth r k => result f (k (f r))
  | LCreate k | LCreateDefault k | LSetEA _ k | LSetStrict _ k => result f k
  end.

(** ** Memory *)

(** The memory holding [c]. *)
Definition mem_of (c : Condition) : mem :=
  {| mHdr := match combinedLut c with [] => None | _ => Some 0%nat end;
     mArrs := match combinedLut c with [] => [] | l => [l] end;
     mEA := EastAsianWidth c; mStrict := StrictEmojiNeutral c |}.
(** The condition held in memory. *)
Definition cond_of (m : mem) : Condition :=
  {| combinedLut := arr m (mHdr m); EastAsianWidth := mEA m; StrictEmojiNeutral := mStrict m |}.

Definition ended {A} (t : lstate A) : Prop := exists a, t = AtProg (LRet a).

(** One goroutine makes one step. *)
Definition goes_on {A} (x y : mem * list (lstate A)) : Prop := exists m before t after m' t',
  x = (m, before ++ t :: after) /\ lstep m t = Some (m', t') /\ y = (m', before ++ t' :: after).
