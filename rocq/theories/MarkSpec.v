(** * MarkSpec: marks put onto the characters of a text. *)
From Verif Require Import GoBase Utf8 Utf8Spec GraphemeSpec TextSpec Runewidth Table Merge.
Local Open Scope Z_scope.

(** A rune that belongs to what precedes it (GB9, GB9a), but the joiner. *)
Definition Mark (r : Z) : Prop := class r = Extend \/ class r = SpacingMark.

(** A cluster ends where [a] ends when [b] follows. *)
Definition EndsWhere (a b : str) : Prop :=
  forall r post, runes b = r :: post -> breaks (rev (map class (runes a))) (class r) = true.
(** [a] does not end in a control character. *)
Definition TakesMarks (a : str) : Prop := exists pre r, runes a = pre ++ [r] /\ is_control (class r) = false.
(** The last cluster of [a] has a rune that takes width. *)
Definition VisibleEnd (c : Condition) (a : str) : Prop :=
  exists cl last r, IsSegmentation (runes a) (cl ++ [last]) /\ In r last /\ 0 < RuneWidth c r.

(** [s'] is [s] with marks put at the end of one of its clusters; they take no
    width, or the cluster does already. *)
Inductive Marked (c : Condition) : str -> str -> Prop :=
| marked a ms m b : EncodesText ms m -> Forall Mark ms -> StartsRune b -> TakesMarks a -> EndsWhere a b ->
    Forall (fun r => RuneWidth c r = 0) ms \/ VisibleEnd c a -> Marked c (a ++ b) (a ++ m ++ b).

(** Texts that differ in marks, put on or taken off, and in colours around the
    whole text. *)
Inductive Decorated (c : Condition) : str -> str -> Prop :=
| de_same s : Decorated c s s
| de_mark s s' u : Forall (fun r => ~ Introducer r) (runes s) -> Marked c s s' -> Decorated c s' u -> Decorated c s u
| de_clean s s' u : Forall (fun r => ~ Introducer r) (runes s') -> Marked c s' s -> Decorated c s' u -> Decorated c s u
| de_colour on off s u : SGR on -> SGR off -> ~ JoinsPrevious s -> Decorated c (on ++ s ++ off) u -> Decorated c s u
| de_plain on off s u : SGR on -> SGR off -> ~ JoinsPrevious s -> Decorated c s u -> Decorated c (on ++ s ++ off) u.

(** Two lists whose cells differ in that only. *)
Definition DecoratedItems {E} (c : Condition) (items items' : FormattedItemList E) : Prop :=
  fiLen items' = fiLen items /\
  forall i, match fiGet items i, fiGet items' i with
            | Ok row, Ok row' => Forall2 (Decorated c) row row'
            | Err e, Err e' => e' = e
            | Panic p, Panic p' => p' = p
            | _, _ => False
            end.

(** A character and the marks on it. *)
Definition spelled (p : Z * list Z) : list Z := fst p :: snd p.
