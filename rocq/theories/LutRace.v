(** * LutRace: goroutines using one Condition while its lookup table is made
    (runewidth/runewidth.go:105-211).  Every read and write of a field or of a
    table element is a step of its own; goroutines interleave in any way.
    Simplification: a slice header is read and written as a whole, and memory
    is sequentially consistent (Go promises less to programs with races). *)
From Verif Require Import GoBase Uniseg Runewidth.
Local Open Scope Z_scope.

(** ** Programs *)

(** What a goroutine does with the condition [c]. *)
Inductive lprog (A : Type) : Type :=
| LRet (a : A)
| LWidth (r : Z) (k : Z -> lprog A)           (* w := c.RuneWidth(r) *)
| LCreate (k : lprog A)                       (* c.CreateLUT() *)
| LCreateDefault (k : lprog A)                (* CreateLUT(), c being DefaultCondition *)
| LSetEA (b : bool) (k : lprog A)             (* c.EastAsianWidth = b *)
| LSetStrict (b : bool) (k : lprog A).        (* c.StrictEmojiNeutral = b *)
Arguments LRet {A} _.
Arguments LWidth {A} _ _.
Arguments LCreate {A} _.
Arguments LCreateDefault {A} _.
Arguments LSetEA {A} _ _.
Arguments LSetStrict {A} _ _.

(** runewidth/runewidth.go:184-197, [StringWidth]. *)
Fixpoint clusterP {A} (ch : Z) (rs : list Z) (k : Z -> lprog A) : lprog A :=
  match rs with
  | [] => k ch
  | r :: rest => LWidth r (fun w => if w >? 0 then k w else clusterP w rest k)
  end.
Fixpoint clustersP {A} (width : Z) (gs : list (list Z)) (k : Z -> lprog A) : lprog A :=
  match gs with
  | [] => k width
  | rs :: rest => clusterP 0 rs (fun ch => clustersP (width + ch) rest k)
  end.
Definition stringWidthP {A} (s : str) (k : Z -> lprog A) : lprog A :=
  match iterate (S (length s)) (NewGraphemes s) with
  | Some gs => clustersP 0 (map Runes gs) k
  | None => k 0
  end.

(** ** Memory *)

(** c.combinedLut: nil, or a whole array; the arrays; the flags. *)
Record mem := { mHdr : option nat; mArrs : list (list Z); mEA : bool; mStrict : bool }.
Definition arr (m : mem) (h : option nat) : list Z :=
  match h with None => [] | Some a => nth a (mArrs m) [] end.
(** :166, :172: make([]byte, max/2). *)
Definition new_lut : list Z := repeat 0 (Z.to_nat (0x110000 / 2)).
Definition set_hdr (m : mem) (h : option nat) : mem :=
  {| mHdr := h; mArrs := mArrs m; mEA := mEA m; mStrict := mStrict m |}.
Fixpoint set_nth {T} (l : list T) (i : nat) (v : T) : list T :=
  match l, i with
  | [], _ => []
  | _ :: l, O => v :: l
  | x :: l, S i => x :: set_nth l i v
  end.
Definition set_elem (m : mem) (h : option nat) (i : nat) (v : Z) : mem :=
  match h with
  | None => m
  | Some a => {| mHdr := mHdr m; mArrs := set_nth (mArrs m) a (set_nth (nth a (mArrs m) []) i v);
                 mEA := mEA m; mStrict := mStrict m |}
  end.

(** ** Goroutines *)

(** Who asked for a width: the program, or the loop of CreateLUT (:175, :176)
    for entry [i] of [lut]. *)
Inductive caller (A : Type) : Type :=
| ToProg (k : Z -> lprog A)
| ToX0 (lut : option nat) (i : nat) (k : lprog A)
| ToX1 (lut : option nat) (i : nat) (x0 : Z) (k : lprog A).
Arguments ToProg {A} _.
Arguments ToX0 {A} _ _ _.
Arguments ToX1 {A} _ _ _ _.

(** Where a goroutine is; the comments give what it does next. *)
Inductive lstate (A : Type) : Type :=
| AtProg (p : lprog A)
| AtLen (r : Z) (c : caller A)                        (* :125 len(c.combinedLut) > 0 *)
| AtTable (r : Z) (c : caller A)                      (* :126 read c.combinedLut *)
| AtElem (r : Z) (lut : option nat) (c : caller A)    (* :126 read the element *)
| AtEA (r : Z) (c : caller A)                         (* :129 read c.EastAsianWidth *)
| AtStrict (r : Z) (ea : bool) (c : caller A)         (* :154 read c.StrictEmojiNeutral (also where :129-137 do not need it) *)
| AtGuard (k : lprog A)                               (* :207 *)
| AtTake (k : lprog A)                                (* :167 lut := c.combinedLut *)
| AtTest (lut : option nat) (k : lprog A)             (* :168 len(c.combinedLut) != 0 *)
| AtDrop (lut : option nat) (k : lprog A)             (* :170 c.combinedLut = nil *)
| AtMake (k : lprog A)                                (* :172 *)
| AtLoop (lut : option nat) (i : nat) (k : lprog A)   (* :173 *)
| AtWrite (lut : option nat) (i : nat) (x0 x1 : Z) (k : lprog A) (* :177 *)
| AtStore (lut : option nat) (k : lprog A)            (* :179 *)
| Died.                                               (* index out of range *)
Arguments AtProg {A} _.
Arguments AtLen {A} _ _.
Arguments AtTable {A} _ _.
Arguments AtElem {A} _ _ _.
Arguments AtEA {A} _ _.
Arguments AtStrict {A} _ _ _.
Arguments AtGuard {A} _.
Arguments AtTake {A} _.
Arguments AtTest {A} _ _.
Arguments AtDrop {A} _ _.
Arguments AtMake {A} _.
Arguments AtLoop {A} _ _ _.
Arguments AtWrite {A} _ _ _ _ _.
Arguments AtStore {A} _ _.
Arguments Died {A}.

Section Machine.
Context {A : Type}.
(** A width is returned to the caller. *)
Definition give (c : caller A) (w : Z) : lstate A :=
  match c with
  | ToProg k => AtProg (k w)
  | ToX0 lut i k =>                                   (* :176 c.RuneWidth(i32 + 1) *)
    AtLen (Z.of_nat i * 2 + 1) (ToX1 lut i w k)
  | ToX1 lut i x0 k => AtWrite lut i x0 w k
  end.
(** :122-124: runes out of range have width 0. *)
Definition ask (r : Z) (c : caller A) : lstate A :=
  if (r <? 0) || (r >? 0x10FFFF) then give c 0 else AtLen r c.

(** One step; [None] for a goroutine that has ended.  The calls of CreateLUT
    itself are in range, so [give] goes to [AtLen] directly. *)
Definition lstep (m : mem) (t : lstate A) : option (mem * lstate A) :=
  match t with
  | AtProg (LRet _) => None
  | AtProg (LWidth r k) => Some (m, ask r (ToProg k))
  | AtProg (LCreate k) => Some (m, AtTake k)
  | AtProg (LCreateDefault k) => Some (m, AtGuard k)
  | AtProg (LSetEA b k) => Some ({| mHdr := mHdr m; mArrs := mArrs m; mEA := b; mStrict := mStrict m |}, AtProg k)
  | AtProg (LSetStrict b k) => Some ({| mHdr := mHdr m; mArrs := mArrs m; mEA := mEA m; mStrict := b |}, AtProg k)
  | AtLen r c => Some (m, if 0 <? slen (arr m (mHdr m)) then AtTable r c else AtEA r c)
  | AtTable r c => Some (m, AtElem r (mHdr m) c)
  | AtElem r lut c =>
    match at_index (arr m lut) (Z.shiftr r 1) with
    | None => Some (m, Died)
    | Some b => Some (m, give c (Z.land (Z.shiftr b (Z.land r 1 * 4)) 3))
    end
  | AtEA r c => Some (m, AtStrict r (mEA m) c)
  | AtStrict r ea c => Some (m, give c (RuneWidth_tables ea (mStrict m) r))
  | AtGuard k => Some (m, if 0 <? slen (arr m (mHdr m)) then AtProg k else AtTake k)
  | AtTake k => Some (m, AtTest (mHdr m) k)
  | AtTest lut k => Some (m, if negb (slen (arr m (mHdr m)) =? 0) then AtDrop lut k else AtMake k)
  | AtDrop lut k => Some (set_hdr m None, AtLoop lut 0 k)
  | AtMake k => Some ({| mHdr := mHdr m; mArrs := mArrs m ++ [new_lut];
                         mEA := mEA m; mStrict := mStrict m |}, AtLoop (Some (length (mArrs m))) 0 k)
  | AtLoop lut i k =>
    Some (m, if (i <? length (arr m lut))%nat then AtLen (Z.of_nat i * 2) (ToX0 lut i k) else AtStore lut k)
  | AtWrite lut i x0 x1 k => Some (set_elem m lut i (Z.lor (u8 x0) (u8 (Z.shiftl (u8 x1) 4))), AtLoop lut (S i) k)
  | AtStore lut k => Some (set_hdr m lut, AtProg k)
  | Died => None
  end.

(** Executions: some goroutine makes a step. *)
Inductive lexec : mem * list (lstate A) -> mem * list (lstate A) -> Prop :=
| le_refl x : lexec x x
| le_step x m before t after m' t' : lexec x (m, before ++ t :: after) -> lstep m t = Some (m', t') ->
    lexec x (m', before ++ t' :: after).
End Machine.
