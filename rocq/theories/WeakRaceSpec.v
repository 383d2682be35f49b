(** * WeakRaceSpec: what goroutines may see without sequential consistency. *)
From Verif Require Import GoBase Runewidth LutRace LutRaceSpec WeakRace.
Local Open Scope Z_scope.

(** As [answers], or none: an element of the table not yet written. *)
Definition answers_or_zero (c : Condition) (E S : bool -> Prop) (r w : Z) : Prop := w = 0 \/ answers c E S r w.

(** The element of an array a goroutine is about to read or write. *)
Definition touches {A} (t : wstate A) (a i : Z) : Prop :=
  (exists f, wact t = WRead (WElem a i) f) \/ (exists x t', wact t = WWrite (WElem a i) x t').

(** Nothing the program does makes or remakes the table of [c]. *)
Definition KeepsTable {A} (c : Condition) (p : lprog A) : Prop :=
  match combinedLut c with [] => MakesNone p | _ => OnlyDefault p end.
