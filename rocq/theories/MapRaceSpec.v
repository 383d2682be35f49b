(** * MapRaceSpec: who may use a table at the same time. *)
From Verif Require Import GoBase Runewidth Width Table TableRace TableRaceSpec MapRace.
Local Open Scope Z_scope.

Section WithTypes.
Context {Item Val E A : Type}.

(** Alone, the calls leave all widths as they are. *)
Definition Unchanging (t : Table Item Val E) (p : cprog Item E A) : Prop :=
  forall name, Width (fst (in_turn t p)) name = Width t name.

(** Alone, the calls change a width. *)
Definition Changing (t : Table Item Val E) (p : cprog Item E A) : Prop :=
  exists name, Width (fst (in_turn t p)) name <> Width t name.

(** The calls look at the widths at all: some execution can take a step. *)
Definition Touching (t : Table Item Val E) (p : cprog Item E A) : Prop :=
  forall a, steps (Columns (tSpec t)) p <> SRet a.

(** The program formats none but the given items and calls UpdateWidth never. *)
Inductive FormatsOnly (c : Condition) (items : list Item) : cprog Item E A -> Prop :=
| fo_ret a : FormatsOnly c items (CRet a)
| fo_width name k : (forall w, FormatsOnly c items (k w)) -> FormatsOnly c items (CWidth name k)
| fo_format item k : In item items -> (forall r, FormatsOnly c items (k r)) -> FormatsOnly c items (CFormat c item k)
| fo_align formatted k : (forall r, FormatsOnly c items (k r)) -> FormatsOnly c items (CAlign formatted k)
| fo_header c' sep k : (forall r, FormatsOnly c items (k r)) -> FormatsOnly c items (CHeader c' sep k)
| fo_table margin k : (forall r, FormatsOnly c items (k r)) -> FormatsOnly c items (CTableWidth margin k).
End WithTypes.

(** A goroutine inside the map is one about to store. *)
Definition outside {A} (t : rthread A) : sprog A := match t with RAt p => p | RPut name w p => SPut name w p end.
