(** * Cost: the functions that measure text, counting their operations.

    One operation is a rune decoded, an entry of a table looked at, or a look
    at the map of transitions.  Slicing a string counts nothing, nor does
    arithmetic.  Otherwise the definitions are those of Uniseg.v and
    Runewidth.v. *)
From Verif Require Import GoBase Utf8 PropConst GraphemeData EastAsianData EmojiData RuneWidthData Uniseg Runewidth Regex Width.
Local Open Scope Z_scope.

(** A result and the number of operations it took. *)
Definition counted (A : Type) : Type := (A * Z)%type.
Definition cret {A} (a : A) : counted A := (a, 0).
Definition cbind {A B} (m : counted A) (f : A -> counted B) : counted B := (fst (f (fst m)), snd m + snd (f (fst m))).
Definition tick {A} (m : counted A) : counted A := (fst m, 1 + snd m).

(** ** uniseg *)

(** runewidth/uniseg/properties.go:101-119. *)
Fixpoint propertySearchC_loop (fuel : nat) (dict : list (Z * Z * Z)) (r from to_ : Z) : counted (option (Z * Z * Z)) :=
  match fuel with
  | O => cret None
  | S f =>
    if to_ >? from then
      let middle := (from + to_) / 2 in
      tick match at_index dict middle with
           | None => cret None
           | Some cpRange =>
             let '(lo, hi, _) := cpRange in
             if r <? lo then propertySearchC_loop f dict r from middle
             else if r >? hi then propertySearchC_loop f dict r (middle + 1) to_
             else cret (Some cpRange)
           end
    else cret (Some (0, 0, 0))
  end.
(** runewidth/uniseg/properties.go:123-125. *)
Definition propertyC (dict : list (Z * Z * Z)) (r : Z) : counted Z :=
  cbind (propertySearchC_loop (S (length dict)) dict r 0 (slen dict))
    (fun e => cret match e with Some (_, _, p) => p | None => 0 end).

(** runewidth/uniseg/graphemerules.go:98-138: one look at the map, and two
    more if the first finds nothing. *)
Definition transitionC (state r : Z) : counted (Z * Z * bool) :=
  cbind (propertyC graphemeCodePoints r) (fun prop =>
    let '(ns, b) := transition state prop in
    ((ns, prop, b), match trans_lookup grTransitions state prop with Some _ => 1 | None => 3 end)).

(** runewidth/uniseg/width.go:16-42. *)
Definition uniRuneWidthC (r g : Z) : counted Z :=
  if (g =? prControl) || (g =? prCR) || (g =? prLF) || (g =? prExtend) || (g =? prZWJ) then cret 0
  else if g =? prRegionalIndicator then cret 2
  else if g =? prExtendedPictographic then
    cbind (propertyC emojiPresentation r) (fun p => cret (if p =? prEmojiPresentation then 2 else 1))
  else if r =? 0x2e3a then cret 3
  else if r =? 0x2e3b then cret 4
  else cbind (propertyC eastAsianWidth r) (fun w => cret (if (w =? prW) || (w =? prF) then 2 else 1)).

(** runewidth/uniseg/step.go:103-113. *)
Definition step_widthC (firstProp width r prop : Z) : counted Z :=
  if r =? vs16 then cret 2
  else if negb (firstProp =? prExtendedPictographic) && negb (firstProp =? prRegionalIndicator) && negb (firstProp =? prL)
       then cbind (uniRuneWidthC r prop) (fun w => cret (width + w))
  else if firstProp =? prExtendedPictographic then cret (if r =? vs15 then 1 else 2)
  else cret width.

(** runewidth/uniseg/step.go:87-119. *)
Fixpoint step_loopC (fuel : nat) (s remainder : str) (length graphemeState firstProp width : Z) : counted (option (str * str * Z * Z)) :=
  match fuel with
  | O => cret None
  | S f =>
    let '(r, l) := DecodeRune remainder in
    let remainder' := drop (length + l) s in
    tick (cbind (transitionC graphemeState r) (fun '(graphemeState', prop, graphemeBoundary) =>
      if graphemeBoundary then
        cret (Some (take length s, drop length s, Z.shiftl width ShiftWidth, Z.lor graphemeState' (Z.shiftl prop shiftPropState)))
      else
        cbind (step_widthC firstProp width r prop) (fun width' =>
        let length' := length + l in
        if slen s <=? length' then
          cret (Some (s, [], Z.shiftl width' ShiftWidth, Z.lor grAny (Z.shiftl prop shiftPropState)))
        else step_loopC f s remainder' length' graphemeState' firstProp width')))
  end.

(** runewidth/uniseg/step.go:62-120. *)
Definition StepStringC (s : str) (state : Z) : counted (option (str * str * Z * Z)) :=
  match s with
  | [] => cret (Some ([], [], 0, 0))
  | _ =>
    let '(r, length) := DecodeRune s in
    tick (if slen s <=? length then
      cbind (propertyC graphemeCodePoints r) (fun prop =>
      cbind (uniRuneWidthC r prop) (fun w => cret (Some (s, [], Z.shiftl w ShiftWidth, grAny))))
    else
      let remainder := drop length s in
      cbind (if state <? 0 then cbind (transitionC state r) (fun '(ns, p, _) => cret (ns, p))
             else cret (Z.land state maskGraphemeState, Z.shiftr state shiftPropState)) (fun '(graphemeState, firstProp) =>
      cbind (uniRuneWidthC r firstProp) (fun w =>
      step_loopC (List.length s) s remainder length graphemeState firstProp w)))
  end.

(** runewidth/uniseg/grapheme.go:50-60. *)
Definition NextC (g : Graphemes) : counted (option (Graphemes * bool)) :=
  match g_remaining g with
  | [] =>
    cret (Some ({| g_original := g_original g; g_remaining := g_remaining g; g_cluster := []; g_offset := g_offset g;
                   g_boundaries := g_boundaries g; g_state := -2 |}, false))
  | _ =>
    cbind (StepStringC (g_remaining g) (g_state g)) (fun e => cret
      match e with
      | None => None
      | Some (cluster, rest, boundaries, newState) =>
        Some ({| g_original := g_original g; g_remaining := rest; g_cluster := cluster;
                 g_offset := g_offset g + slen (g_cluster g); g_boundaries := boundaries; g_state := newState |}, true)
      end)
  end.

(** runewidth/uniseg/grapheme.go:65-70: every rune of the cluster is decoded. *)
Definition RunesC (g : Graphemes) : counted (list Z) := (Runes g, slen (Runes g)).

(** ** runewidth *)

(** runewidth/runewidth.go:69-80. *)
Fixpoint inTableC_loop (fuel : nat) (t : table) (r bot top : Z) : counted (option bool) :=
  match fuel with
  | O => cret None
  | S f =>
    if top >=? bot then
      let mid := Z.shiftr (bot + top) 1 in
      tick match at_index t mid with
           | None => cret None
           | Some (first, last) =>
             if last <? r then inTableC_loop f t r (mid + 1) top
             else if first >? r then inTableC_loop f t r bot (mid - 1)
             else cret (Some true)
           end
    else cret (Some false)
  end.
(** runewidth/runewidth.go:62-83. *)
Definition inTableC (r : Z) (t : table) : counted bool :=
  match t with
  | [] => cret false
  | (first0, _) :: _ =>
    tick (if r <? first0 then cret false
          else cbind (inTableC_loop (S (length t)) t r 0 (slen t - 1))
                 (fun b => cret match b with Some b => b | None => false end))
  end.
(** runewidth/runewidth.go:53-60. *)
Fixpoint inTablesC (r : Z) (ts : list table) : counted bool :=
  match ts with
  | [] => cret false
  | t :: rest => cbind (inTableC r t) (fun b => if b then cret true else inTablesC r rest)
  end.

(** runewidth/runewidth.go:129-159. *)
Definition RuneWidth_tablesC (eastAsian strictEmoji : bool) (r : Z) : counted Z :=
  if negb eastAsian then
    if r <? 0x20 then cret 0
    else if ((r >=? 0x7F) && (r <=? 0x9F)) || (r =? 0xAD) then cret 0
    else if r <? 0x300 then cret 1
    else cbind (inTableC r tbl_narrow) (fun b => if b then cret 1
    else cbind (inTablesC r [tbl_nonprint; tbl_combining]) (fun b => if b then cret 0
    else cbind (inTableC r tbl_doublewidth) (fun b => if b then cret 2
    else cret 1)))
  else
    cbind (inTablesC r [tbl_nonprint; tbl_combining]) (fun b => if b then cret 0
    else cbind (inTableC r tbl_narrow) (fun b => if b then cret 1
    else cbind (inTablesC r [tbl_ambiguous; tbl_doublewidth]) (fun b => if b then cret 2
    else if strictEmoji then cret 1
    else cbind (inTablesC r [tbl_ambiguous; tbl_emoji; tbl_narrow]) (fun b => if b then cret 2
    else cret 1)))).

(** runewidth/runewidth.go:121-160. *)
Definition RuneWidthC (c : Condition) (r : Z) : counted Z :=
  if (r <? 0) || (r >? 0x10FFFF) then cret 0
  else if 0 <? slen (combinedLut c) then
    tick (cret (Z.land (Z.shiftr (nth (Z.to_nat (Z.shiftr r 1)) (combinedLut c) 0) (Z.land r 1 * 4)) 3))
  else RuneWidth_tablesC (EastAsianWidth c) (StrictEmojiNeutral c) r.

(** runewidth/runewidth.go:187-193. *)
Fixpoint cluster_widthC (c : Condition) (chWidth : Z) (rs : list Z) : counted Z :=
  match rs with
  | [] => cret chWidth
  | r :: rest => cbind (RuneWidthC c r) (fun w => if w >? 0 then cret w else cluster_widthC c w rest)
  end.

(** runewidth/runewidth.go:184-197: the loop; [None] = still running after [fuel] rounds. *)
Fixpoint widthC_loop (fuel : nat) (c : Condition) (g : Graphemes) (width : Z) : counted (option Z) :=
  match fuel with
  | O => cret None
  | S f =>
    cbind (NextC g) (fun e =>
    match e with
    | Some (g', true) =>
      cbind (RunesC g') (fun rs => cbind (cluster_widthC c 0 rs) (fun chWidth => widthC_loop f c g' (width + chWidth)))
    | Some (_, false) => cret (Some width)
    | None => cret None
    end)
  end.
Definition StringWidthC (c : Condition) (s : str) : counted (option Z) :=
  widthC_loop (S (length s)) c (NewGraphemes s) 0.

(** ** width.go *)

(** width.go:43-53, with the texts that are searched. *)
Fixpoint countMatchesC_loop (fuel : nat) (r : re) (s : str) (start total : Z) : option (Z * list str) :=
  match fuel with
  | O => None
  | S f =>
    if start <? slen s then
      match FindStringIndex r (drop start s) with
      | None => Some (total, [drop start s])
      | Some (loc0, loc1) =>
        match countMatchesC_loop f r s (start + loc1) (total + (loc1 - loc0 - 1)) with
        | Some (total', texts) => Some (total', drop start s :: texts)
        | None => None
        end
      end
    else Some (total, [])
  end.
(** width.go:39-55. *)
Definition countMatchesC (r : re) (s : str) : option (Z * list str) := countMatchesC_loop (S (length s)) r s 0 0.

(** width.go:23-37: which calls of visualWidth compute the width.  Each call
    comes with the entries that survive its [Set]. *)
Fixpoint computing (c : Condition) (m : cache) (calls : list ((str -> bool) * str)) : list bool :=
  match calls with
  | [] => []
  | (keep, s) :: rest =>
    negb ((match cache_get m s with Some v => v | None => 0 end) >? 0) :: computing c (snd (visualWidth c keep m s)) rest
  end.
