(** * GraphemeSpec: extended grapheme clusters as UAX #29 defines them.

    Independent of the state machine in Uniseg.v: the rules look at the whole
    text before a position. *)
From Verif Require Import GoBase IntervalSpec PropConst GraphemeData.
Local Open Scope Z_scope.

(** The Grapheme_Cluster_Break classes, and Extended_Pictographic. *)
Inductive gcb :=
| Other | CR | LF | Control | Extend | ZWJ | RI | Prepend | SpacingMark
| HL | HV | HT | HLV | HLVT | Pict.

(** The number the package uses for each class. *)
Definition code (g : gcb) : Z :=
  match g with
  | Other => prXX | CR => prCR | LF => prLF | Control => prControl
  | Extend => prExtend | ZWJ => prZWJ | RI => prRegionalIndicator
  | Prepend => prPrepend | SpacingMark => prSpacingMark
  | HL => prL | HV => prV | HT => prT | HLV => prLV | HLVT => prLVT
  | Pict => prExtendedPictographic
  end.

Definition all_gcb : list gcb :=
  [Other; CR; LF; Control; Extend; ZWJ; RI; Prepend; SpacingMark;
   HL; HV; HT; HLV; HLVT; Pict].

Definition of_code (p : Z) : gcb :=
  match find (fun g => code g =? p) all_gcb with Some g => g | None => Other end.

(** The class of a rune, according to the package's table. *)
Definition class (r : Z) : gcb := of_code (lookup graphemeCodePoints r).

(** The text before a position is given as the list of its classes, nearest
    first. *)

(** ... Pict Extend* (GB11, left of the ZWJ) *)
Fixpoint pict_extend (before : list gcb) : bool :=
  match before with
  | Extend :: l => pict_extend l
  | Pict :: _ => true
  | _ => false
  end.

(** Number of regional indicators immediately before the position. *)
Fixpoint ri_count (before : list gcb) : nat :=
  match before with
  | RI :: l => S (ri_count l)
  | _ => O
  end.

Definition is_control (g : gcb) : bool :=
  match g with CR | LF | Control => true | _ => false end.

(** Is there a cluster boundary between [before] and a following rune of
    class [b]?  The rules of UAX #29 in order; the first that applies
    decides. *)
Definition breaks (before : list gcb) (b : gcb) : bool :=
  match before with
  | [] => true                                                       (* GB1 *)
  | a :: prev =>
    if match a, b with CR, LF => true | _, _ => false end then false (* GB3 *)
    else if is_control a then true                                   (* GB4 *)
    else if is_control b then true                                   (* GB5 *)
    else if match a, b with
            | HL, (HL | HV | HLV | HLVT) => true                     (* GB6 *)
            | (HLV | HV), (HV | HT) => true                          (* GB7 *)
            | (HLVT | HT), HT => true                                (* GB8 *)
            | _, (Extend | ZWJ) => true                              (* GB9 *)
            | _, SpacingMark => true                                 (* GB9a *)
            | Prepend, _ => true                                     (* GB9b *)
            | ZWJ, Pict => pict_extend prev                          (* GB11 *)
            | RI, RI => Nat.odd (ri_count before)                    (* GB12, GB13 *)
            | _, _ => false
            end then false
    else true                                                        (* GB999 *)
  end.

(** [cl] divides the runes [rs] into clusters exactly at the boundaries the
    rules demand. *)
Definition IsSegmentation (rs : list Z) (cl : list (list Z)) : Prop :=
  concat cl = rs /\ ~ In [] cl /\
  forall pre r post, rs = pre ++ r :: post -> pre <> [] ->
    ((exists a b, cl = a ++ b /\ concat a = pre) <->
     breaks (rev (map class pre)) (class r) = true).
