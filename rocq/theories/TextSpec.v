(** * TextSpec: when the parts of a line measure independently.

    Grapheme clusters can join the end of one text with the start of the
    next; these predicates say when that happens. *)
From Verif Require Import GoBase Utf8 GraphemeSpec EscapeSpec Runewidth ConditionSpec.
Local Open Scope Z_scope.

(** The text ends in a rune that absorbs what follows (GB9b). *)
Definition JoinsNext (s : str) : Prop :=
  exists pre r, runes s = pre ++ [r] /\ class r = Prepend.

(** The text starts with a rune that attaches to what precedes (GB9, GB9a). *)
Definition JoinsPrevious (s : str) : Prop :=
  exists r post, runes s = r :: post /\
    (class r = Extend \/ class r = ZWJ \/ class r = SpacingMark).

(** No invalid byte. *)
Definition ValidUTF8 (s : str) : Prop := Forall (fun x => x <> (RuneError, 1)) (decode s).

(** ESC, or its one-rune form U+009B. *)
Definition Introducer (r : Z) : Prop := r = 0x1B \/ r = 0x9B.

(** A rune that may occur inside an escape sequence after its introducer. *)
Definition SequenceRune (r : Z) : Prop :=
  oneof digits r \/ oneof punctuation r \/ oneof finals r.

(** A separator that keeps its neighbours apart, whatever they are: valid
    text, without introducers, whose first and last rune join no cluster, and
    whose first rune cannot extend an escape sequence. *)
Definition Inert (r : Z) : Prop := class r = Other \/ class r = Control.
Definition Separates (sep : str) : Prop :=
  ValidUTF8 sep /\ Forall (fun r => ~ Introducer r) (runes sep)
  /\ (exists r post, runes sep = r :: post /\ ~ SequenceRune r /\ Inert r)
  /\ (exists pre r, runes sep = pre ++ [r] /\ Inert r).

(** An escape sequence in bytes: introduced by ESC, ended by a character that
    is not a digit. *)
Definition EscSequence (e : str) : Prop :=
  exists body fin, e = x1b :: body ++ [fin]
    /\ Escape (map bv e) /\ ~ oneof digits (bv fin).

(** A colour sequence: ESC [ parameters m. *)
Inductive SGR : str -> Prop :=
| sgr params : Params (map bv params) -> SGR (x1b :: (x5b :: params) ++ [x6d]).

(** The condition measures as a fresh one with these flags would. *)
Definition Behaves (c : Condition) (eastAsian strict : bool) : Prop :=
  forall r, RuneWidth c r = RuneWidth (plainCondition eastAsian strict) r.
