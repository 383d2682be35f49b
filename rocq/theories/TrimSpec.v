(** * TrimSpec: cutting a text that is too wide. *)
From Verif Require Import GoBase Utf8 Runewidth Table MergeSpec PartsSpec.
Local Open Scope Z_scope.

(** Characters are taken from the front as long as the text stays within [w]:
    [p] is what is taken and [q] the rest. *)
Definition Trim (c : Condition) (w : Z) (s p q : str) : Prop :=
  exists cl1 cl2, Clusters s (cl1 ++ cl2) /\ p = concat cl1 /\ q = concat cl2 /\ StringWidth c p <= w /\
    forall k cl, cl2 = k :: cl -> w < StringWidth c p + StringWidth c k.

(** The same again with the rest, until nothing is left. *)
Inductive Lines (c : Condition) (w : Z) : str -> list str -> Prop :=
| ln_end : Lines c w [] []
| ln_more s p q ps : s <> [] -> Trim c w s p q -> Lines c w q ps -> Lines c w s (p :: ps).

(** Cells cut to the recorded widths of their columns. *)
Definition CutRows {Item Val E} (c : Condition) (t : Table Item Val E) (cols : list (Column Item Val E)) (texts rows : list (list str)) : Prop :=
  Forall2 (fun text row => Forall2 (fun col sp => exists q, Trim c (Width t (colName col)) (fst sp) (snd sp) q) cols (combine text row) /\ length text = length row)
    texts rows.
