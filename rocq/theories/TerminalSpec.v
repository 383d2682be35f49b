(** * TerminalSpec: a terminal that shows what is printed.

    Independent of the code: the usual state machine of a terminal, as far as
    it decides where the cursor stands (ECMA-48: control sequences ESC [ ...,
    operating system commands ESC ] ..., the other escapes), and the texts
    the properties are about.  Only the number of cells a rune takes is
    shared with the code: [RuneWidth c], so that the terminal and the library
    agree about single runes. *)
From Coq Require Import Strings.String.
From Verif Require Import GoBase Utf8 Runewidth GraphemeSpec EscapeSpec TextSpec.
Local Open Scope Z_scope.

(** What the terminal is in the middle of. *)
Inductive tmode : Type :=
| Ground                 (* printing *)
| AfterEsc               (* ESC read *)
| InCsi (ps : list Z)    (* ESC [ and these parameter characters, last first *)
| InOsc                  (* ESC ] : everything up to BEL or ESC \ is hidden *)
| OscEsc.                (* ESC read inside a command *)

(** The cursor's column and the attribute changes made, latest first. *)
Record terminal := mkT { tMode : tmode; tCol : Z; tStyle : list (list Z) }.

(** The number at the start of the parameters. *)
Fixpoint number_from (n : Z) (ps : list Z) : Z :=
  match ps with
  | [] => n
  | d :: l => if (48 <=? d) && (d <=? 57) then number_from (10 * n + (d - 48)) l else n
  end.
Definition number (ps : list Z) : Z := number_from 0 ps.

(** The end of a control sequence: m changes attributes; C, D and G move the
    cursor along its line; the rest does not move it. *)
Definition execute (fin : Z) (ps : list Z) (t : terminal) : terminal :=
  if fin =? 109 then mkT Ground (tCol t) (ps :: tStyle t)
  else if fin =? 67 then mkT Ground (tCol t + Z.max 1 (number ps)) (tStyle t)
  else if fin =? 68 then mkT Ground (Z.max 0 (tCol t - Z.max 1 (number ps))) (tStyle t)
  else if fin =? 71 then mkT Ground (Z.max 1 (number ps) - 1) (tStyle t)
  else mkT Ground (tCol t) (tStyle t).

Definition step (c : Condition) (t : terminal) (r : Z) : terminal :=
  match tMode t with
  | Ground =>
    if r =? 0x1B then mkT AfterEsc (tCol t) (tStyle t)
    else if r =? 0x9B then mkT (InCsi []) (tCol t) (tStyle t)
    else if (r =? 0x0A) || (r =? 0x0D) then mkT Ground 0 (tStyle t)
    else if (r <? 0x20) || ((0x7F <=? r) && (r <? 0xA0)) then t
    else mkT Ground (tCol t + RuneWidth c r) (tStyle t)
  | AfterEsc =>
    if r =? 91 then mkT (InCsi []) (tCol t) (tStyle t)
    else if r =? 93 then mkT InOsc (tCol t) (tStyle t)
    else if (0x20 <=? r) && (r <=? 0x2F) then t
    else mkT Ground (tCol t) (tStyle t)
  | InCsi ps =>
    if (0x20 <=? r) && (r <=? 0x3F) then mkT (InCsi (r :: ps)) (tCol t) (tStyle t)
    else if (0x40 <=? r) && (r <=? 0x7E) then execute r (rev ps) t
    else if r =? 0x1B then mkT AfterEsc (tCol t) (tStyle t)
    else t
  | InOsc =>
    if r =? 0x07 then mkT Ground (tCol t) (tStyle t)
    else if r =? 0x1B then mkT OscEsc (tCol t) (tStyle t)
    else t
  | OscEsc =>
    if r =? 92 then mkT Ground (tCol t) (tStyle t) else mkT InOsc (tCol t) (tStyle t)
  end.

(** Printing a text. *)
Definition show (c : Condition) (t : terminal) (s : str) : terminal :=
  fold_left (step c) (runes s) t.
Definition home : terminal := mkT Ground 0 [].

(** Text without combining runes, controls or invalid bytes. *)
Definition Stands (r : Z) : Prop :=
  class r = Other \/ class r = HLV \/ class r = HLVT \/ class r = Pict.
Definition SimpleText (s : str) : Prop := ValidUTF8 s /\ Forall Stands (runes s).

(** Control sequences that do not move the cursor along its line: attributes,
    clearing, modes. *)
Inductive Quiet : str -> Prop :=
| quiet ps params fin :
    Forall (fun b => oneof ";?" (bv b)) ps -> Params (map bv params) ->
    oneof "mJKhl" (bv fin) -> Quiet (x1b :: x5b :: (ps ++ params) ++ [fin]).

(** Text with such sequences anywhere between its runes. *)
Inductive Styled : str -> Prop :=
| st_end t : SimpleText t -> Styled t
| st_more t e s : SimpleText t -> Quiet e -> Styled s -> Styled (t ++ e ++ s).

(** Digits and semicolons with at most four digits in a row. *)
Definition ShortNumbers (p : str) : Prop :=
  Forall (fun b => oneof "0123456789;" (bv b)) p /\
  forall pre ds post, p = pre ++ ds ++ post ->
    Forall (fun b => oneof digits (bv b)) ds -> (List.length ds <= 4)%nat.
