(** * WeakRace: goroutines using one Condition, without sequential consistency
    (runewidth/runewidth.go:105-211).  As LutRace.v, but
    - a slice header is two words, pointer and length, read and written apart
      (its capacity is never used);
    - a goroutine reads from a word what it wrote there last (or what was
      there when it was started), or anything another goroutine has written
      there, however long ago: writes arrive in any order, if at all.
    There is no synchronisation but that of starting the goroutines.
    Simplification: a read does not return what will only be written later. *)
From Verif Require Import GoBase Uniseg Runewidth LutRace.
Local Open Scope Z_scope.

(** ** Words of memory *)

(** Pointers: 0 is nil, [a] > 0 the array with that number.  Arrays of tables
    have :172 max/2 elements. *)
Inductive word := WPtr | WLen | WElem (a i : Z) | WEA | WStrict.
Definition word_eqb (x y : word) : bool :=
  match x, y with
  | WPtr, WPtr | WLen, WLen | WEA, WEA | WStrict, WStrict => true
  | WElem a i, WElem b j => (a =? b) && (i =? j)
  | _, _ => false
  end.
Definition view := word -> Z.
Definition write (v : view) (l : word) (x : Z) : view := fun l' => if word_eqb l l' then x else v l'.
Definition lutLen : Z := 0x110000 / 2.
Definition of_bool (b : bool) : Z := if b then 1 else 0.

(** ** Goroutines *)

(** As [caller]; a slice is its pointer [p] and its length [n]. *)
Inductive wcaller (A : Type) : Type :=
| WToProg (k : Z -> lprog A)
| WToX0 (p n i : Z) (k : lprog A)
| WToX1 (p n i x0 : Z) (k : lprog A).
Arguments WToProg {A} _.
Arguments WToX0 {A} _ _ _ _.
Arguments WToX1 {A} _ _ _ _ _.

(** As [lstate], one state for every word read or written. *)
Inductive wstate (A : Type) : Type :=
| WAt (p : lprog A)
| WAtLen (r : Z) (c : wcaller A)                       (* :125 len(c.combinedLut) > 0 *)
| WAtTablePtr (r : Z) (c : wcaller A)                  (* :126 pointer of c.combinedLut *)
| WAtTableLen (r p : Z) (c : wcaller A)                (* :126 its length, for the bounds check *)
| WAtElem (r p : Z) (c : wcaller A)                    (* :126 the element *)
| WAtEA (r : Z) (c : wcaller A)                        (* :129 *)
| WAtStrict (r ea : Z) (c : wcaller A)                 (* :154 *)
| WAtGuard (k : lprog A)                               (* :207 *)
| WAtTakePtr (k : lprog A)                             (* :167 lut := c.combinedLut *)
| WAtTakeLen (p : Z) (k : lprog A)                     (* :167 *)
| WAtTest (p n : Z) (k : lprog A)                      (* :168 *)
| WAtDropPtr (p n : Z) (k : lprog A)                   (* :170 c.combinedLut = nil *)
| WAtDropLen (p n : Z) (k : lprog A)                   (* :170 *)
| WAtMake (k : lprog A)                                (* :172 *)
| WAtLoop (p n i : Z) (k : lprog A)                    (* :173 *)
| WAtWrite (p n i x0 x1 : Z) (k : lprog A)             (* :177 *)
| WAtStorePtr (p n : Z) (k : lprog A)                  (* :179 *)
| WAtStoreLen (n : Z) (k : lprog A)                    (* :179 *)
| WDied.                                               (* index out of range, or nil dereferenced *)
Arguments WAt {A} _.
Arguments WAtLen {A} _ _.
Arguments WAtTablePtr {A} _ _.
Arguments WAtTableLen {A} _ _ _.
Arguments WAtElem {A} _ _ _.
Arguments WAtEA {A} _ _.
Arguments WAtStrict {A} _ _ _.
Arguments WAtGuard {A} _.
Arguments WAtTakePtr {A} _.
Arguments WAtTakeLen {A} _ _.
Arguments WAtTest {A} _ _ _.
Arguments WAtDropPtr {A} _ _ _.
Arguments WAtDropLen {A} _ _ _.
Arguments WAtMake {A} _.
Arguments WAtLoop {A} _ _ _ _.
Arguments WAtWrite {A} _ _ _ _ _ _.
Arguments WAtStorePtr {A} _ _ _.
Arguments WAtStoreLen {A} _ _.
Arguments WDied {A}.

(** What a goroutine does next. *)
Inductive waction (A : Type) : Type :=
| WNothing
| WLocal (t : wstate A)
| WRead (l : word) (f : Z -> wstate A)
| WWrite (l : word) (x : Z) (t : wstate A)
| WAlloc (f : Z -> wstate A).                          (* a new array of zeroes *)
Arguments WNothing {A}.
Arguments WLocal {A} _.
Arguments WRead {A} _ _.
Arguments WWrite {A} _ _ _.
Arguments WAlloc {A} _.

Section Machine.
Context {A : Type}.
(** What the caller of RuneWidth (runewidth/runewidth.go:121-158) does with the width. *)
Definition wgive (c : wcaller A) (w : Z) : wstate A :=
  match c with
  | WToProg k => WAt (k w)
  | WToX0 p n i k => WAtLen (i * 2 + 1) (WToX1 p n i w k)
  | WToX1 p n i x0 k => WAtWrite p n i x0 w k
  end.
(** :122-124. *)
Definition wask (r : Z) (c : wcaller A) : wstate A :=
  if (r <? 0) || (r >? 0x10FFFF) then wgive c 0 else WAtLen r c.

(** The next access of a goroutine to shared memory (runewidth/runewidth.go:121-158, :165-181). *)
Definition wact (t : wstate A) : waction A :=
  match t with
  | WAt (LRet _) => WNothing
  | WAt (LWidth r k) => WLocal (wask r (WToProg k))
  | WAt (LCreate k) => WLocal (WAtTakePtr k)
  | WAt (LCreateDefault k) => WLocal (WAtGuard k)
  | WAt (LSetEA b k) => WWrite WEA (of_bool b) (WAt k)
  | WAt (LSetStrict b k) => WWrite WStrict (of_bool b) (WAt k)
  | WAtLen r c => WRead WLen (fun n => if 0 <? n then WAtTablePtr r c else WAtEA r c)
  | WAtTablePtr r c => WRead WPtr (fun p => WAtTableLen r p c)
  | WAtTableLen r p c => WRead WLen (fun n => if Z.shiftr r 1 <? n then WAtElem r p c else WDied)
  | WAtElem r p c =>
    if p =? 0 then WLocal WDied
    else WRead (WElem p (Z.shiftr r 1)) (fun b => wgive c (Z.land (Z.shiftr b (Z.land r 1 * 4)) 3))
  | WAtEA r c => WRead WEA (fun ea => WAtStrict r ea c)
  | WAtStrict r ea c => WRead WStrict (fun st => wgive c (RuneWidth_tables (negb (ea =? 0)) (negb (st =? 0)) r))
  | WAtGuard k => WRead WLen (fun n => if 0 <? n then WAt k else WAtTakePtr k)
  | WAtTakePtr k => WRead WPtr (fun p => WAtTakeLen p k)
  | WAtTakeLen p k => WRead WLen (fun n => WAtTest p n k)
  | WAtTest p n k => WRead WLen (fun n' => if negb (n' =? 0) then WAtDropPtr p n k else WAtMake k)
  | WAtDropPtr p n k => WWrite WPtr 0 (WAtDropLen p n k)
  | WAtDropLen p n k => WWrite WLen 0 (WAtLoop p n 0 k)
  | WAtMake k => WAlloc (fun a => WAtLoop a lutLen 0 k)
  | WAtLoop p n i k => WLocal (if i <? n then WAtLen (i * 2) (WToX0 p n i k) else WAtStorePtr p n k)
  | WAtWrite p n i x0 x1 k =>
    if p =? 0 then WLocal WDied
    else WWrite (WElem p i) (Z.lor (u8 x0) (u8 (Z.shiftl (u8 x1) 4))) (WAtLoop p n (i + 1) k)
  | WAtStorePtr p n k => WWrite WPtr p (WAtStoreLen n k)
  | WAtStoreLen n k => WWrite WLen n (WAt k)
  | WDied => WNothing
  end.

(** ** The machine: what has been written by whom, the number of arrays, and
    each goroutine with what it knows. *)
Record wconfig := { cLog : list (nat * word * Z); cArrs : Z; cThreads : list (view * wstate A) }.

(** A read returns what the goroutine knows, or anything another goroutine wrote. *)
Inductive may_read (log : list (nat * word * Z)) (i : nat) (v : view) (l : word) : Z -> Prop :=
| mr_own : may_read log i v l (v l)
| mr_other j x : j <> i -> In (j, l, x) log -> may_read log i v l x.

(** One step of one goroutine. *)
Inductive wstep : wconfig -> wconfig -> Prop :=
| ws_local log n before v t after t' : wact t = WLocal t' ->
    wstep {| cLog := log; cArrs := n; cThreads := before ++ (v, t) :: after |}
          {| cLog := log; cArrs := n; cThreads := before ++ (v, t') :: after |}
| ws_read log n before v t after l f x : wact t = WRead l f -> may_read log (length before) v l x ->
    wstep {| cLog := log; cArrs := n; cThreads := before ++ (v, t) :: after |}
          {| cLog := log; cArrs := n; cThreads := before ++ (v, f x) :: after |}
| ws_write log n before v t after l x t' : wact t = WWrite l x t' ->
    wstep {| cLog := log; cArrs := n; cThreads := before ++ (v, t) :: after |}
          {| cLog := (length before, l, x) :: log; cArrs := n; cThreads := before ++ (write v l x, t') :: after |}
| ws_alloc log n before v t after f : wact t = WAlloc f ->
    wstep {| cLog := log; cArrs := n; cThreads := before ++ (v, t) :: after |}
          {| cLog := log; cArrs := n + 1; cThreads := before ++ (v, f (n + 1)) :: after |}.

(** Any number of steps. *)
Inductive wexec : wconfig -> wconfig -> Prop :=
| we_refl x : wexec x x
| we_step x y z : wexec x y -> wstep y z -> wexec x z.
End Machine.
Arguments wconfig : clear implicits.

(** ** The start *)

(** What every goroutine knows of the condition [c] when it is started. *)
Definition view_of (c : Condition) : view := fun l =>
  match l with
  | WPtr => match combinedLut c with [] => 0 | _ => 1 end
  | WLen => slen (combinedLut c)
  | WElem a i => if a =? 1 then nth (Z.to_nat i) (combinedLut c) 0 else 0
  | WEA => of_bool (EastAsianWidth c)
  | WStrict => of_bool (StrictEmojiNeutral c)
  end.
Definition wstart {A} (c : Condition) (ps : list (lprog A)) : wconfig A :=
  {| cLog := []; cArrs := match combinedLut c with [] => 0 | _ => 1 end;
     cThreads := map (fun p => (view_of c, WAt p)) ps |}.
