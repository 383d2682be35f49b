(** * GoBase: the fragment of Go's values and standard library the model needs.

    Nothing here is from /repo itself; each definition models a Go language
    or standard library facility that the cited lines of /repo rely on. *)
From Coq Require Export List ZArith Lia Bool.
From Coq Require Export Strings.Byte.
From Coq Require Import Strings.String.
Export ListNotations.
Local Open Scope Z_scope.

(** A Go [string] is an immutable sequence of bytes (no encoding is
    enforced), used everywhere in /repo. *)
Definition str := list byte.

(** Literal helper: an ASCII Coq string as a Go string. *)
Definition lit (s : string) : str := list_byte_of_string s.

(** Numeric value of a byte, 0..255. *)
Definition bv (b : byte) : Z := Z.of_N (Byte.to_N b).

(** Go [len(s)] for strings and slices. *)
Definition slen {A} (s : list A) : Z := Z.of_nat (List.length s).

(** Go [s == t] on strings. *)
Definition byte_eq_dec (a b : byte) : {a = b} + {a <> b} := Byte.byte_eq_dec a b.
Definition str_eq_dec (a b : str) : {a = b} + {a <> b} := list_eq_dec byte_eq_dec a b.
Definition str_eqb (a b : str) : bool := if str_eq_dec a b then true else false.

(** Conversion to [uint16] ([uint16(x)]) and uint16 arithmetic: reduction
    modulo 2^16.  Go [int] is modelled as unbounded [Z]. *)
Definition u16 (x : Z) : Z := x mod 65536.

(** The space byte 0x20. *)
Definition space : byte := x20.

(** [strings.Repeat(" ", n)]: the only pattern /repo repeats is one space
    (alignment.go:5,14,22,33).  [strings.Repeat] panics on a negative count;
    every count in /repo is proved non-negative (see AlignProofs). *)
Definition spaces (n : Z) : str := repeat space (Z.to_nat n).

(** [strings.Join(parts, sep)] (vertical.go:60,62, horizontal.go:60,62). *)
Fixpoint join (sep : str) (parts : list str) : str :=
  match parts with
  | [] => []
  | [p] => p
  | p :: rest => p ++ sep ++ join sep rest
  end.

(** Go [s[:n]] and [s[n:]] for 0 <= n <= len(s). *)
Definition take (n : Z) (s : str) : str := firstn (Z.to_nat n) s.
Definition drop (n : Z) (s : str) : str := skipn (Z.to_nat n) s.

(** Go slice read [l[i]]: [None] is the index-out-of-range panic. *)
Definition at_index {A} (l : list A) (i : Z) : option A :=
  if i <? 0 then None else nth_error l (Z.to_nat i).

(** Why a call can panic in /repo. *)
Inductive panic_reason : Type :=
| NilDereference      (* method call or field access through nil *)
| NilMapWrite         (* assignment to entry in nil map *)
| IndexOutOfRange
| DivideByZero
| WriteFailed         (* panic(err) at vertical.go:64 / horizontal.go:64 *)
| BadCapacity.        (* make with a capacity out of range *)

(** Result of a Go call that returns [(A, error)] or panics.  [E] is the
    type of error values. *)
Inductive outcome (E A : Type) : Type :=
| Ok (a : A)
| Err (e : E)
| Panic (p : panic_reason).
Arguments Ok {E A} _.
Arguments Err {E A} _.
Arguments Panic {E A} _.

(** A call followed by the rest of the function, if it returns normally. *)
Definition obind {E A B} (m : outcome E A) (f : A -> outcome E B) : outcome E B :=
  match m with Ok a => f a | Err e => Err e | Panic p => Panic p end.

(** Sequencing a list of calls, left to right, stopping at the first that
    does not return normally. *)
Fixpoint omap {E A B} (f : A -> outcome E B) (l : list A) : outcome E (list B) :=
  match l with
  | [] => Ok []
  | a :: rest => obind (f a) (fun b => obind (omap f rest) (fun bs => Ok (b :: bs)))
  end.

(** [for i := 0; i < n; i++] as the list of its index values. *)
Definition zrange (n : Z) : list Z := map Z.of_nat (seq 0 (Z.to_nat n)).

(** Sum of a list of integers. *)
Definition zsum (l : list Z) : Z := fold_right Z.add 0 l.
