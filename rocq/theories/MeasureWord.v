(** * MeasureWord: model of width.go, runewidth.go and uniseg with machine
    integers: every [int] operation wraps around, and indices and slices out of
    range panic.  [None] = a panic or out of fuel. *)
From Verif Require Import GoBase Utf8 PropConst GraphemeData EastAsianData EmojiData RuneWidthData Uniseg Runewidth Regex Width MergeWord.
Local Open Scope Z_scope.

Section Word.
(** An [int] is in [-half, half). *)
Context (half : Z).
Local Notation wr := (wrap half).

(** [s[n:]] and [s[:n]]. *)
Definition sliceFrom (s : str) (n : Z) : option str := if (0 <=? n) && (n <=? slen s) then Some (drop n s) else None.
Definition sliceTo (s : str) (n : Z) : option str := if (0 <=? n) && (n <=? slen s) then Some (take n s) else None.

(** ** uniseg *)

(** runewidth/uniseg/properties.go:101-119. *)
Fixpoint propertySearchW_loop (fuel : nat) (dict : list (Z * Z * Z)) (r from to_ : Z) : option (Z * Z * Z) :=
  match fuel with
  | O => None
  | S f =>
    if to_ >? from then
      let middle := Z.quot (wr (from + to_)) 2 in
      match at_index dict middle with
      | None => None
      | Some cpRange =>
        let '(lo, hi, _) := cpRange in
        if r <? lo then propertySearchW_loop f dict r from middle
        else if r >? hi then propertySearchW_loop f dict r (wr (middle + 1)) to_
        else Some cpRange
      end
    else Some (0, 0, 0)
  end.
(** runewidth/uniseg/properties.go:123-125. *)
Definition propertyW (dict : list (Z * Z * Z)) (r : Z) : option Z :=
  match propertySearchW_loop (S (length dict)) dict r 0 (slen dict) with Some (_, _, p) => Some p | None => None end.

(** runewidth/uniseg/graphemerules.go:98-138. *)
Definition transitionGraphemeStateW (state r : Z) : option (Z * Z * bool) :=
  match propertyW graphemeCodePoints r with
  | Some prop => let '(ns, b) := transition state prop in Some (ns, prop, b)
  | None => None
  end.

(** runewidth/uniseg/width.go:16-42. *)
Definition uniRuneWidthW (r g : Z) : option Z :=
  if (g =? prControl) || (g =? prCR) || (g =? prLF) || (g =? prExtend) || (g =? prZWJ) then Some 0
  else if g =? prRegionalIndicator then Some 2
  else if g =? prExtendedPictographic then
    match propertyW emojiPresentation r with
    | Some p => Some (if p =? prEmojiPresentation then 2 else 1)
    | None => None
    end
  else if r =? 0x2e3a then Some 3
  else if r =? 0x2e3b then Some 4
  else match propertyW eastAsianWidth r with
       | Some w => Some (if (w =? prW) || (w =? prF) then 2 else 1)
       | None => None
       end.

(** runewidth/uniseg/step.go:103-113. *)
Definition step_widthW (firstProp width r prop : Z) : option Z :=
  if r =? vs16 then Some 2
  else if negb (firstProp =? prExtendedPictographic) && negb (firstProp =? prRegionalIndicator) && negb (firstProp =? prL)
       then match uniRuneWidthW r prop with Some w => Some (wr (width + w)) | None => None end
  else if firstProp =? prExtendedPictographic then Some (if r =? vs15 then 1 else 2)
  else Some width.

(** runewidth/uniseg/step.go:87-119. *)
Fixpoint step_loopW (fuel : nat) (s remainder : str) (length graphemeState firstProp width : Z) : option (str * str * Z * Z) :=
  match fuel with
  | O => None
  | S f =>
    let '(r, l) := DecodeRune remainder in
    match sliceFrom s (wr (length + l)), transitionGraphemeStateW graphemeState r with
    | Some remainder', Some (graphemeState', prop, graphemeBoundary) =>
      if graphemeBoundary then
        match sliceTo s length, sliceFrom s length with
        | Some cluster, Some rest =>
          Some (cluster, rest, wr (Z.shiftl width ShiftWidth), Z.lor graphemeState' (wr (Z.shiftl prop shiftPropState)))
        | _, _ => None
        end
      else
        match step_widthW firstProp width r prop with
        | None => None
        | Some width' =>
          let length' := wr (length + l) in
          if slen s <=? length' then
            Some (s, [], wr (Z.shiftl width' ShiftWidth), Z.lor grAny (wr (Z.shiftl prop shiftPropState)))
          else step_loopW f s remainder' length' graphemeState' firstProp width'
        end
    | _, _ => None
    end
  end.

(** runewidth/uniseg/step.go:62-120. *)
Definition StepStringW (s : str) (state : Z) : option (str * str * Z * Z) :=
  match s with
  | [] => Some ([], [], 0, 0)
  | _ =>
    let '(r, length) := DecodeRune s in
    if slen s <=? length then
      match propertyW graphemeCodePoints r with
      | Some prop => match uniRuneWidthW r prop with
                     | Some w => Some (s, [], wr (Z.shiftl w ShiftWidth), grAny)
                     | None => None
                     end
      | None => None
      end
    else
      match sliceFrom s length,
        (if state <? 0 then match transitionGraphemeStateW state r with Some (ns, p, _) => Some (ns, p) | None => None end
         else Some (Z.land state maskGraphemeState, Z.shiftr state shiftPropState)) with
      | Some remainder, Some (graphemeState, firstProp) =>
        match uniRuneWidthW r firstProp with
        | Some w => step_loopW (List.length s) s remainder length graphemeState firstProp w
        | None => None
        end
      | _, _ => None
      end
  end.

(** runewidth/uniseg/grapheme.go:50-60. *)
Definition NextW (g : Graphemes) : option (Graphemes * bool) :=
  match g_remaining g with
  | [] =>
    Some ({| g_original := g_original g; g_remaining := g_remaining g; g_cluster := []; g_offset := g_offset g;
             g_boundaries := g_boundaries g; g_state := -2 |}, false)
  | _ =>
    match StepStringW (g_remaining g) (g_state g) with
    | None => None
    | Some (cluster, rest, boundaries, newState) =>
      Some ({| g_original := g_original g; g_remaining := rest; g_cluster := cluster;
               g_offset := wr (g_offset g + slen (g_cluster g)); g_boundaries := boundaries; g_state := newState |}, true)
    end
  end.
(** The loop [for g.Next()] (runewidth/runewidth.go:186). *)
Fixpoint iterateW (fuel : nat) (g : Graphemes) : option (list Graphemes) :=
  match fuel with
  | O => None
  | S f =>
    match NextW g with
    | Some (g', true) => match iterateW f g' with Some l => Some (g' :: l) | None => None end
    | Some (_, false) => Some []
    | None => None
    end
  end.

(** ** runewidth *)

(** runewidth/runewidth.go:69-80. *)
Fixpoint inTableW_loop (fuel : nat) (t : table) (r bot top : Z) : option bool :=
  match fuel with
  | O => None
  | S f =>
    if top >=? bot then
      let mid := Z.shiftr (wr (bot + top)) 1 in
      match at_index t mid with
      | None => None
      | Some (first, last) =>
        if last <? r then inTableW_loop f t r (wr (mid + 1)) top
        else if first >? r then inTableW_loop f t r bot (wr (mid - 1))
        else Some true
      end
    else Some false
  end.
(** runewidth/runewidth.go:62-83. *)
Definition inTableW (r : Z) (t : table) : option bool :=
  match t with
  | [] => None
  | (first0, _) :: _ => if r <? first0 then Some false else inTableW_loop (S (length t)) t r 0 (wr (slen t - 1))
  end.
(** runewidth/runewidth.go:53-60. *)
Fixpoint inTablesW (r : Z) (ts : list table) : option bool :=
  match ts with
  | [] => Some false
  | t :: rest => match inTableW r t with Some true => Some true | Some false => inTablesW r rest | None => None end
  end.
(** A [case] of a [switch]. *)
Definition caseW (b : option bool) (yes : Z) (no : option Z) : option Z :=
  match b with Some true => Some yes | Some false => no | None => None end.

(** runewidth/runewidth.go:129-159. *)
Definition RuneWidth_tablesW (eastAsian strictEmoji : bool) (r : Z) : option Z :=
  if negb eastAsian then
    if r <? 0x20 then Some 0
    else if ((r >=? 0x7F) && (r <=? 0x9F)) || (r =? 0xAD) then Some 0
    else if r <? 0x300 then Some 1
    else caseW (inTableW r tbl_narrow) 1
        (caseW (inTablesW r [tbl_nonprint; tbl_combining]) 0
        (caseW (inTableW r tbl_doublewidth) 2 (Some 1)))
  else
    caseW (inTablesW r [tbl_nonprint; tbl_combining]) 0
   (caseW (inTableW r tbl_narrow) 1
   (caseW (inTablesW r [tbl_ambiguous; tbl_doublewidth]) 2
   (caseW (if negb strictEmoji then inTablesW r [tbl_ambiguous; tbl_emoji; tbl_narrow] else Some false) 2 (Some 1)))).

(** runewidth/runewidth.go:121-160; the index panics outside the table. *)
Definition RuneWidthW (c : Condition) (r : Z) : option Z :=
  if (r <? 0) || (r >? 0x10FFFF) then Some 0
  else if 0 <? slen (combinedLut c) then
    match at_index (combinedLut c) (Z.shiftr r 1) with
    | Some b => Some (Z.land (Z.shiftr b (Z.land r 1 * 4)) 3)
    | None => None
    end
  else RuneWidth_tablesW (EastAsianWidth c) (StrictEmojiNeutral c) r.

(** runewidth/runewidth.go:187-193. *)
Fixpoint cluster_widthW (c : Condition) (chWidth : Z) (rs : list Z) : option Z :=
  match rs with
  | [] => Some chWidth
  | r :: rest => match RuneWidthW c r with
                 | Some w => if w >? 0 then Some w else cluster_widthW c w rest
                 | None => None
                 end
  end.
(** runewidth/runewidth.go:184-197. *)
Fixpoint addWidthsW (c : Condition) (gs : list Graphemes) (width : Z) : option Z :=
  match gs with
  | [] => Some width
  | g :: gs => match cluster_widthW c 0 (Runes g) with
               | Some chWidth => addWidthsW c gs (wr (width + chWidth))
               | None => None
               end
  end.
Definition StringWidthW (c : Condition) (s : str) : option Z :=
  match iterateW (S (length s)) (NewGraphemes s) with Some gs => addWidthsW c gs 0 | None => None end.

(** ** width.go *)

(** width.go:43-53. *)
Fixpoint countMatchesW_loop (fuel : nat) (r : re) (s : str) (start total : Z) : option Z :=
  match fuel with
  | O => None
  | S f =>
    if start <? slen s then
      match sliceFrom s start with
      | None => None
      | Some remaining =>
        match FindStringIndex r remaining with
        | None => Some total
        | Some (loc0, loc1) =>
          countMatchesW_loop f r s (wr (start + loc1)) (wr (total + wr (wr (loc1 - loc0) - 1)))
        end
      end
    else Some total
  end.
(** width.go:39-55. *)
Definition countMatchesLengthW (r : re) (s : str) : option Z := countMatchesW_loop (S (length s)) r s 0 0.

(** width.go:34: the conversion to uint16 keeps the low bits. *)
Definition vwidthW (c : Condition) (s : str) : option Z :=
  match StringWidthW c s, countMatchesLengthW ansiEscapeRE s with
  | Some w, Some n => Some (u16 (wr (w - n)))
  | _, _ => None
  end.
End Word.
