(** * EnvSpec: decimal numerals. *)
From Coq Require Import NArith Strings.String DecimalString DecimalN.

(** The digits of a number, without leading zeros. *)
Definition decimal (n : N) : string := NilEmpty.string_of_uint (N.to_uint n).
