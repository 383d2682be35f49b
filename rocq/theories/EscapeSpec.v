(** * EscapeSpec: terminal escape sequences, and how they are found.

    Independent of the matcher in Regex.v: a grammar for the sequences and a
    declarative "leftmost, longest, one after the other" scan. *)
From Verif Require Import GoBase Utf8.
From Coq Require Import Strings.String.
Local Open Scope Z_scope.

(** Membership of a rune in a set given as an ASCII string. *)
Definition oneof (set : string) (r : Z) : Prop := In r (map bv (lit set)).

Definition digits : string := "0123456789".
Definition punctuation : string := "[()#;?".
Definition finals : string := "0123456789ABCDEFGHIJKLMNORZcfghijklmnqry=><".

(** 1 to 4 (0 to 4) digits. *)
Definition Digits1 (l : list Z) : Prop :=
  Forall (oneof digits) l /\ (1 <= List.length l <= 4)%nat.
Definition Digits0 (l : list Z) : Prop :=
  Forall (oneof digits) l /\ (List.length l <= 4)%nat.

(** Parameters: groups of digits, separated by semicolons. *)
Inductive MoreParams : list Z -> Prop :=
| mp_nil : MoreParams []
| mp_group ds l : Digits0 ds -> MoreParams l -> MoreParams (59 :: ds ++ l).
Inductive Params : list Z -> Prop :=
| p_none : Params []
| p_some ds l : Digits1 ds -> MoreParams l -> Params (ds ++ l).

(** An escape sequence: ESC or U+009B, punctuation, parameters, final. *)
Inductive Escape : list Z -> Prop :=
| escape intro ps params fin :
    (intro = 0x1B \/ intro = 0x9B) -> Forall (oneof punctuation) ps -> Params params ->
    oneof finals fin -> Escape (intro :: ps ++ params ++ [fin]).

(** Decoded text: runes with their sizes in bytes. *)
Definition text := list (Z * Z).
Definition text_runes (l : text) : list Z := map fst l.
Definition text_bytes (l : text) : Z := zsum (map snd l).

(** [m] is the escape sequence a scan of [pre ++ m ++ rest] must find first:
    none starts earlier, none starting there is longer. *)
Definition FirstEscape (pre m rest : text) : Prop :=
  Escape (text_runes m)
  /\ (forall pre' m' rest', pre ++ m ++ rest = pre' ++ m' ++ rest' ->
        Escape (text_runes m') -> (List.length pre <= List.length pre')%nat)
  /\ (forall m' rest', m ++ rest = m' ++ rest' ->
        Escape (text_runes m') -> (List.length m' <= List.length m)%nat).

(** The escape sequences found in a text, from left to right. *)
Inductive Scan : text -> list text -> Prop :=
| scan_none l :
    (forall pre m rest, l = pre ++ m ++ rest -> ~ Escape (text_runes m)) -> Scan l []
| scan_next pre m rest ms :
    FirstEscape pre m rest -> Scan rest ms -> Scan (pre ++ m ++ rest) (m :: ms).
