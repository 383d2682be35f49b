(** * CommentSpec: what comments in the code say, as definitions. *)
From Verif Require Import GoBase IntervalSpec PropConst GraphemeData EastAsianData EmojiData GraphemeSpec CrossSpec Uniseg.
Local Open Scope Z_scope.

(** runewidth/uniseg/width.go:6-15: "Every rune has a width of 1, except for
    runes with the following properties (evaluated in this order)". *)
Definition documented (r : Z) : list (Prop * Z) := [
  (ZeroClass r, 0);
  (r = 0x2E3A, 3);
  (r = 0x2E3B, 4);
  (HasProperty eastAsianWidth r prF \/ HasProperty eastAsianWidth r prW, 2);
  (class r = RI, 2);
  (class r = Pict /\ HasProperty emojiPresentation r prEmojiPresentation, 2)].

(** The first rule whose condition holds decides; 1 if none does. *)
Inductive Decides : list (Prop * Z) -> Z -> Prop :=
| de_none : Decides [] 1
| de_first (p : Prop) v l : p -> Decides ((p, v) :: l) v
| de_later (p : Prop) v l w : ~ p -> Decides l w -> Decides ((p, v) :: l) w.

(** runewidth/uniseg/graphemerules.go:121-128: the transition map has an entry
    for the state [st] and any property, none for [st] and the property of [r],
    and none for any state and the property of [r]. *)
Definition OnlySpecificState (st r : Z) : Prop :=
  let prop := property graphemeCodePoints r in
  trans_lookup grTransitions st prop = None /\ trans_lookup grTransitions st prAny <> None
  /\ trans_lookup grTransitions grAny prop = None.

(** runewidth/uniseg/properties.go:7: "prAny must be 0".  The transitions if it
    were. *)
Definition zeroTransitions : list ((Z * Z) * (Z * Z * Z)) :=
  map (fun '((st, prop), v) => ((st, if prop =? prAny then 0 else prop), v)) grTransitions.
Definition zeroTransition (state prop : Z) : Z * bool :=
  match trans_lookup zeroTransitions state prop with
  | Some (ns, b, _) => (ns, b =? grBoundary)
  | None =>
    match trans_lookup zeroTransitions state 0, trans_lookup zeroTransitions grAny prop with
    | Some (_, bP, nP), Some (nsS, bS, nS) => (nsS, if nP <? nS then bP =? grBoundary else bS =? grBoundary)
    | Some (nsP, bP, _), None => (nsP, bP =? grBoundary)
    | None, Some (nsS, bS, _) => (nsS, bS =? grBoundary)
    | None, None => (grAny, true)
    end
  end.

(** [L] is the smallest number of lines that hold [n] items in [g] groups. *)
Definition Lines (n g L : Z) : Prop := (L - 1) * g < n <= L * g.
