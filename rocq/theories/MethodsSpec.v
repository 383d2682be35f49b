(** * MethodsSpec: a text taken apart into escape sequences and what is
    between them. *)
From Verif Require Import GoBase Utf8 GraphemeSpec EscapeSpec Runewidth.
From Coq Require Import Strings.String.
Local Open Scope Z_scope.

(** [Apart s ps es]: looking for escape sequences from left to right in [s]
    finds [es], and leaves the texts [ps] before, between and behind them.
    Removing the sequences ([ReplaceAllString] with the empty string) gives
    [concat ps]. *)
Inductive Apart : str -> list str -> list str -> Prop :=
| ap_none s : (forall pre m rest, decode s = pre ++ m ++ rest -> ~ Escape (text_runes m)) -> Apart s [s] []
| ap_next a e b ps es :
    decode (a ++ e ++ b) = decode a ++ decode e ++ decode b ->
    FirstEscape (decode a) (decode e) (decode b) -> Apart b ps es -> Apart (a ++ e ++ b) (a :: ps) (e :: es).

(** What a text adds when it stands behind a letter. *)
Definition behind (c : Condition) (p : str) : Z := StringWidth c (lit "a"%string ++ p) - 1.

(** How many of the sequences are introduced by U+009B. *)
Definition c1_introduced (es : list str) : Z :=
  slen (filter (fun e => match runes e with r :: _ => r =? 0x9B | [] => false end) es).

(** Without the sequences, a cluster would still begin where each of the
    texts begins. *)
Definition SeamsBreak (ps : list str) : Prop :=
  forall done p rest r l, ps = done ++ p :: rest -> runes p = r :: l -> done <> [] ->
  breaks (rev (map class (runes (List.concat done)))) (class r) = true.
