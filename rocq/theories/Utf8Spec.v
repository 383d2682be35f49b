(** * Utf8Spec: well-formed UTF-8 (the Unicode standard's table 3-6). *)
From Verif Require Import GoBase.
Local Open Scope Z_scope.

(** A Unicode scalar value. *)
Definition Scalar (r : Z) : Prop := 0 <= r < 0xD800 \/ 0xE000 <= r <= 0x10FFFF.

(** [e] is the encoding of [r]: the bits of [r], shortest form. *)
Inductive Encodes : Z -> str -> Prop :=
| e1 b : bv b < 0x80 -> Encodes (bv b) [b]
| e2 r x y b1 b2 : 0 <= x < 32 -> 0 <= y < 64 -> bv b1 = 0xC0 + x -> bv b2 = 0x80 + y ->
    r = 64 * x + y -> 0x80 <= r -> Encodes r [b1; b2]
| e3 r x y z b1 b2 b3 : 0 <= x < 16 -> 0 <= y < 64 -> 0 <= z < 64 ->
    bv b1 = 0xE0 + x -> bv b2 = 0x80 + y -> bv b3 = 0x80 + z ->
    r = 4096 * x + 64 * y + z -> 0x800 <= r -> Scalar r -> Encodes r [b1; b2; b3]
| e4 r w x y z b1 b2 b3 b4 : 0 <= w < 8 -> 0 <= x < 64 -> 0 <= y < 64 -> 0 <= z < 64 ->
    bv b1 = 0xF0 + w -> bv b2 = 0x80 + x -> bv b3 = 0x80 + y -> bv b4 = 0x80 + z ->
    r = 262144 * w + 4096 * x + 64 * y + z -> 0x10000 <= r -> Scalar r -> Encodes r [b1; b2; b3; b4].

(** [s] is the text [rs]. *)
Definition EncodesText (rs : list Z) (s : str) : Prop :=
  exists es, Forall2 Encodes rs es /\ s = concat es.

(** [t] does not start in the middle of an encoding. *)
Definition StartsRune (t : str) : Prop :=
  match t with [] => True | b :: _ => bv b < 0x80 \/ 0xC0 <= bv b end.
