(** * Generate: model of the table generators, runewidth/script/generate.go and
    runewidth/uniseg/gen_properties.go.  A data line is given by its fields
    here; splitting lines into fields and printing Go source are in GenText.v. *)
From Verif Require Import GoBase.
Local Open Scope Z_scope.

(** ** runewidth/script/generate.go *)

(** script/generate.go:40-51, [shapeup], the loop with variables [i] and [arr].
    Removing element [i] and giving its [lo] to the next one.  Every round
    shortens what lies after [i], so [length arr] rounds suffice. *)
Fixpoint shapeup_loop (fuel : nat) (i : nat) (arr : list (Z * Z)) : list (Z * Z) :=
  match fuel with
  | O => arr
  | S f =>
    match nth_error arr i, nth_error arr (S i) with
    | Some (lo, hi), Some (lo', hi') =>
      if hi + 1 =? lo' then shapeup_loop f i (firstn i arr ++ (lo, hi') :: skipn (S (S i)) arr)
      else shapeup_loop f (S i) arr
    | _, _ => arr
    end
  end.
Definition shapeup (arr : list (Z * Z)) : list (Z * Z) := shapeup_loop (length arr) 0 arr.

(** A line of EastAsianWidth.txt: the range, the class, and whether the line
    contains "COMBINING" (script/generate.go:63-84). *)
Inductive class := W | F | A | Na | N | Other.
Record ea_line := { eaLo : Z; eaHi : option Z; eaClass : class; eaCombining : bool }.
Definition ea_range (l : ea_line) : Z * Z :=
  (eaLo l, match eaHi l with Some h => h | None => eaLo l end).

(** script/generate.go:53-129, [eastasian]: combining, doublewidth, ambiguous,
    narrow, neutral. *)
Definition collect (p : ea_line -> bool) (lines : list ea_line) : list (Z * Z) :=
  fold_left (fun acc l => if p l then acc ++ [ea_range l] else acc) lines [].
Record ea_tables := { eaCmb : list (Z * Z); eaDbl : list (Z * Z); eaAmb : list (Z * Z);
                      eaNar : list (Z * Z); eaNeu : list (Z * Z) }.
Definition eastasian (lines : list ea_line) : ea_tables :=
  {| eaCmb := shapeup (collect eaCombining lines);
     eaDbl := shapeup (collect (fun l => match eaClass l with W | F => true | _ => false end) lines);
     eaAmb := shapeup (collect (fun l => match eaClass l with A => true | _ => false end) lines);
     eaNar := shapeup (collect (fun l => match eaClass l with Na => true | _ => false end) lines);
     eaNeu := shapeup (collect (fun l => match eaClass l with N => true | _ => false end) lines) |}.

(** script/generate.go:131-174, [emoji], from the line after the marker on:
    ranges ending below 0xFF are left out (:160-162). *)
Definition emoji_table (lines : list (Z * option Z)) : list (Z * Z) :=
  shapeup (fold_left (fun acc '(lo, hi) =>
             let hi := match hi with Some h => h | None => lo end in
             if hi <? 0xFF then acc else acc ++ [(lo, hi)]) lines []).

(** ** runewidth/uniseg/gen_properties.go *)

(** gen_properties.go:238-252, [parseProperty]: an absent end is the start. *)
Definition prop_entry (l : Z * option Z * Z) : Z * Z * Z :=
  let '(from, to_, p) := l in (from, match to_ with Some t => t | None => from end, p).
