(** * TintSpec: cutting a text with attribute sequences. *)
From Verif Require Import GoBase Utf8 Runewidth Table TerminalSpec TrimSpec.
Local Open Scope Z_scope.

(** Only the sequences are left. *)
Inductive Mute : str -> str -> Prop :=
| mu_end t : SimpleText t -> Mute t []
| mu_more t e s p : SimpleText t -> Quiet e -> Mute s p -> Mute (t ++ e ++ s) (e ++ p).

(** Text between sequences is taken as long as there is room; where it ends the
    text is cut as in TrimSpec, and of what follows the sequences are taken. *)
Inductive Tint (c : Condition) : Z -> str -> str -> Prop :=
| ti_end w t p q : SimpleText t -> Trim c w t p q -> Tint c w t p
| ti_more w t e s p : SimpleText t -> Quiet e -> StringWidth c t <= w -> Tint c (w - StringWidth c t) s p -> Tint c w (t ++ e ++ s) (t ++ e ++ p)
| ti_full w t p q e s p' : SimpleText t -> Quiet e -> Trim c w t p q -> q <> [] -> Mute s p' -> Tint c w (t ++ e ++ s) (p ++ e ++ p').

(** Every text of every row cut to the recorded width of its column. *)
Definition TintRows {Item Val E} (c : Condition) (t : Table Item Val E) (cols : list (Column Item Val E)) (texts rows : list (list str)) : Prop :=
  Forall2 (fun text row => Forall2 (fun col sp => Tint c (Width t (colName col)) (fst sp) (snd sp)) cols (combine text row)
    /\ List.length text = List.length row) texts rows.
