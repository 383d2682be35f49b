(** * CachedExamples: a table for the example of C50. *)
From Coq Require Import Strings.String.
From Verif Require Import GoBase Runewidth Width Table Merge Cached.
Local Open Scope Z_scope.

(** Two columns, two items; compaction puts both on one line. *)
Definition exPTable : PTable unit unit str :=
  {| ptColumns := [Some {| pcGetter := None; pcAlignment := Some alignRightP; pcName := lit "a"%string; pcTitle := []; pcShortTitle := [] |};
                   Some {| pcGetter := None; pcAlignment := None; pcName := lit "b"%string; pcTitle := []; pcShortTitle := [] |}];
     ptWidth := Some (wset (wset wempty (lit "a"%string) 2) (lit "b"%string) 1) |}.
Definition exPItems : PItems str :=
  {| piLen := 2; piGet := fun i => Ret (Ok [lit "x"%string; lit "y"%string]) |}.
Definition exP : wprog (status str) := mergeVP 9 exPTable exPItems 7 (lit "|"%string) true.
