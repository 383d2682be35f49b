(** * HangulSpec: the canonical decomposition of Hangul syllables (Unicode
    standard, section 3.12). *)
From Verif Require Import GoBase.
Local Open Scope Z_scope.

Definition Syllable (r : Z) : Prop := 0xAC00 <= r <= 0xD7A3.

(** Leading consonant, vowel and, except in every 28th syllable, trailing consonant. *)
Definition decompose (r : Z) : list Z :=
  let i := r - 0xAC00 in
  [0x1100 + i / 588; 0x1161 + i mod 588 / 28] ++ (if i mod 28 =? 0 then [] else [0x11A7 + i mod 28]).
