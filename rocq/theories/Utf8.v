(** * Utf8: Go's UTF-8 decoding (package unicode/utf8 and []rune(s)).

    Models [utf8.DecodeRuneInString], called at
    runewidth/uniseg/step.go:69 and :93, and the conversion [[]rune(s)] at
    runewidth/uniseg/grapheme.go:69.  Standard library behaviour: an invalid
    or truncated encoding yields U+FFFD and consumes one byte. *)
From Verif Require Import GoBase.
Local Open Scope Z_scope.

(** [utf8.RuneError], U+FFFD (Go standard library, not in /repo). *)
Definition RuneError : Z := 0xFFFD.

(** lo <= x <= hi *)
Definition inb (lo hi x : Z) : bool := (lo <=? x) && (x <=? hi).

(** The admissible range of the second byte of a three- or four-byte
    sequence, by first byte (the [acceptRanges] table of unicode/utf8). *)
Definition second_lo (b0 : Z) : Z :=
  if b0 =? 0xE0 then 0xA0 else if b0 =? 0xF0 then 0x90 else 0x80.
Definition second_hi (b0 : Z) : Z :=
  if b0 =? 0xED then 0x9F else if b0 =? 0xF4 then 0x8F else 0xBF.

(** [utf8.DecodeRuneInString(s)]: the first rune and its size in bytes;
    (RuneError, 0) on the empty string. *)
Definition DecodeRune (s : str) : Z * Z :=
  match s with
  | [] => (RuneError, 0)
  | c0 :: s1 =>
    let b0 := bv c0 in
    if b0 <? 0x80 then (b0, 1)
    else if inb 0xC2 0xDF b0 then
      match s1 with
      | c1 :: _ =>
        if inb 0x80 0xBF (bv c1)
        then ((b0 - 0xC0) * 64 + (bv c1 - 0x80), 2)
        else (RuneError, 1)
      | [] => (RuneError, 1)
      end
    else if inb 0xE0 0xEF b0 then
      match s1 with
      | c1 :: c2 :: _ =>
        if inb (second_lo b0) (second_hi b0) (bv c1) && inb 0x80 0xBF (bv c2)
        then ((b0 - 0xE0) * 4096 + (bv c1 - 0x80) * 64 + (bv c2 - 0x80), 3)
        else (RuneError, 1)
      | _ => (RuneError, 1)
      end
    else if inb 0xF0 0xF4 b0 then
      match s1 with
      | c1 :: c2 :: c3 :: _ =>
        if inb (second_lo b0) (second_hi b0) (bv c1)
           && inb 0x80 0xBF (bv c2) && inb 0x80 0xBF (bv c3)
        then ((b0 - 0xF0) * 262144 + (bv c1 - 0x80) * 4096
              + (bv c2 - 0x80) * 64 + (bv c3 - 0x80), 4)
        else (RuneError, 1)
      | _ => (RuneError, 1)
      end
    else (RuneError, 1)
  end.

(** Decoding a whole string: the successive (rune, size) pairs, as Go's
    [for range s] and [[]rune(s)] produce them.  [fuel] bounds the number of
    runes; [len s] always suffices because each step consumes a byte. *)
Fixpoint decode_fuel (fuel : nat) (s : str) : list (Z * Z) :=
  match fuel with
  | O => []
  | S f =>
    match s with
    | [] => []
    | _ => let '(r, n) := DecodeRune s in (r, n) :: decode_fuel f (drop n s)
    end
  end.

(** The runes of a whole string with their lengths, as [range s] visits them. *)
Definition decode (s : str) : list (Z * Z) := decode_fuel (length s) s.

(** [[]rune(s)] (grapheme.go:69). *)
Definition runes (s : str) : list Z := map fst (decode s).
