(** * ColourSpec: with which attributes a terminal draws each rune.

    Independent of the code, on top of the terminal of TerminalSpec, which keeps
    the attribute changes ESC [ ... m made so far, latest first. *)
From Verif Require Import GoBase Utf8 Runewidth TextSpec TerminalSpec WrapSpec Table Merge.
Local Open Scope Z_scope.

(** ESC [ m, ESC [ 0 m and the like take all attributes back. *)
Definition resets (ps : list Z) : bool := forallb (fun r => (r =? 48) || (r =? 59)) ps.

(** The changes in force: those made after the latest of these. *)
Fixpoint in_force (st : list (list Z)) : list (list Z) :=
  match st with
  | [] => []
  | ps :: st => if resets ps then [] else ps :: in_force st
  end.

(** The runes drawn, each with the changes in force. *)
Fixpoint ink (c : Condition) (t : terminal) (rs : list Z) : list (Z * list (list Z)) :=
  match rs with
  | [] => []
  | r :: rs =>
    match tMode t with
    | Ground => if drawn r then [(r, in_force (tStyle t))] else []
    | _ => []
    end ++ ink c (step c t r) rs
  end.
Definition paint (c : Condition) (t : terminal) (s : str) : list (Z * list (list Z)) := ink c t (runes s).

(** Text that leaves the terminal printing, with no attributes in force. *)
Definition Closed (c : Condition) (s : str) : Prop :=
  ValidUTF8 s /\ tMode (show c home s) = Ground /\ in_force (tStyle (show c home s)) = [].

(** Runes drawn without attributes. *)
Definition bare (rs : list Z) : list (Z * list (list Z)) := map (fun r => (r, [])) rs.

(** A text between an attribute sequence and ESC [ m. *)
Definition coloured (p s : str) : str := (x1b :: x5b :: p ++ [x6d]) ++ s ++ [x1b; x5b; x6d].

(** A list all of whose cells are such text. *)
Definition ClosedItems {E} (c : Condition) (items : FormattedItemList E) : Prop :=
  forall i row, 0 <= i < fiLen items -> fiGet items i = Ok row -> Forall (Closed c) row.

(** A cell drawn as [s] is, with spaces without attributes before and after. *)
Definition Around (c : Condition) (s cell : str) : Prop :=
  Closed c cell /\ exists p q, paint c home cell = bare (repeat 32 p) ++ paint c home s ++ bare (repeat 32 q).
