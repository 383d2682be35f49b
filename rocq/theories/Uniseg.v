(** * Uniseg: model of package runewidth/uniseg. *)
From Verif Require Import GoBase Utf8 PropConst GraphemeData EastAsianData EmojiData.
Local Open Scope Z_scope.

(** ** properties.go *)

(** runewidth/uniseg/properties.go:93-96. *)
Definition vs15 : Z := 0xfe0e.
Definition vs16 : Z := 0xfe0f.

(** runewidth/uniseg/properties.go:101-119, [propertySearch], the loop
    [for to > from].  The dictionary entry type is [3]int here (the [4]int
    instance is never used in /repo).  [None] = index out of range or fuel
    exhausted; proved unreachable in TableProofs.  [from]/[to_] are the loop
    variables. *)
Fixpoint propertySearch_loop (fuel : nat) (dict : list (Z * Z * Z)) (r from to_ : Z)
  : option (Z * Z * Z) :=
  match fuel with
  | O => None
  | S f =>
    if to_ >? from then
      let middle := (from + to_) / 2 in
      match at_index dict middle with
      | None => None
      | Some cpRange =>
        let '(lo, hi, _) := cpRange in
        if r <? lo then propertySearch_loop f dict r from middle
        else if r >? hi then propertySearch_loop f dict r (middle + 1) to_
        else Some cpRange
      end
    else Some (0, 0, 0)
  end.

(** runewidth/uniseg/properties.go:101-119. *)
Definition propertySearch (dict : list (Z * Z * Z)) (r : Z) : option (Z * Z * Z) :=
  propertySearch_loop (S (length dict)) dict r 0 (slen dict).

(** runewidth/uniseg/properties.go:123-125.  The [None] case is proved
    unreachable for every dictionary used. *)
Definition property (dict : list (Z * Z * Z)) (r : Z) : Z :=
  match propertySearch dict r with
  | Some (_, _, p) => p
  | None => 0
  end.

(** ** graphemerules.go *)

(** runewidth/uniseg/graphemerules.go:4-16. *)
Definition grAny : Z := 0.
Definition grCR : Z := 1.
Definition grControlLF : Z := 2.
Definition grL : Z := 3.
Definition grLVV : Z := 4.
Definition grLVTT : Z := 5.
Definition grPrepend : Z := 6.
Definition grExtendedPictographic : Z := 7.
Definition grExtendedPictographicZWJ : Z := 8.
Definition grRIOdd : Z := 9.
Definition grRIEven : Z := 10.

(** runewidth/uniseg/graphemerules.go:19-22. *)
Definition grNoBoundary : Z := 0.
Definition grBoundary : Z := 1.

(** runewidth/uniseg/graphemerules.go:40-92, the map [grTransitions] as the
    list of its entries (the keys are pairwise distinct). *)
Definition grTransitions : list ((Z * Z) * (Z * Z * Z)) := [
  (* GB5 *)
  ((grAny, prCR), (grCR, grBoundary, 50));
  ((grAny, prLF), (grControlLF, grBoundary, 50));
  ((grAny, prControl), (grControlLF, grBoundary, 50));
  (* GB4 *)
  ((grCR, prAny), (grAny, grBoundary, 40));
  ((grControlLF, prAny), (grAny, grBoundary, 40));
  (* GB3 *)
  ((grCR, prLF), (grControlLF, grNoBoundary, 30));
  (* GB6 *)
  ((grAny, prL), (grL, grBoundary, 9990));
  ((grL, prL), (grL, grNoBoundary, 60));
  ((grL, prV), (grLVV, grNoBoundary, 60));
  ((grL, prLV), (grLVV, grNoBoundary, 60));
  ((grL, prLVT), (grLVTT, grNoBoundary, 60));
  (* GB7 *)
  ((grAny, prLV), (grLVV, grBoundary, 9990));
  ((grAny, prV), (grLVV, grBoundary, 9990));
  ((grLVV, prV), (grLVV, grNoBoundary, 70));
  ((grLVV, prT), (grLVTT, grNoBoundary, 70));
  (* GB8 *)
  ((grAny, prLVT), (grLVTT, grBoundary, 9990));
  ((grAny, prT), (grLVTT, grBoundary, 9990));
  ((grLVTT, prT), (grLVTT, grNoBoundary, 80));
  (* GB9 *)
  ((grAny, prExtend), (grAny, grNoBoundary, 90));
  ((grAny, prZWJ), (grAny, grNoBoundary, 90));
  (* GB9a *)
  ((grAny, prSpacingMark), (grAny, grNoBoundary, 91));
  (* GB9b *)
  ((grAny, prPrepend), (grPrepend, grBoundary, 9990));
  ((grPrepend, prAny), (grAny, grNoBoundary, 92));
  (* GB11 *)
  ((grAny, prExtendedPictographic), (grExtendedPictographic, grBoundary, 9990));
  ((grExtendedPictographic, prExtend), (grExtendedPictographic, grNoBoundary, 110));
  ((grExtendedPictographic, prZWJ), (grExtendedPictographicZWJ, grNoBoundary, 110));
  ((grExtendedPictographicZWJ, prExtendedPictographic),
     (grExtendedPictographic, grNoBoundary, 110));
  (* GB12 / GB13 *)
  ((grAny, prRegionalIndicator), (grRIOdd, grBoundary, 9990));
  ((grRIOdd, prRegionalIndicator), (grRIEven, grNoBoundary, 120));
  ((grRIEven, prRegionalIndicator), (grRIOdd, grBoundary, 120))
].

(** Go map read [m[k]] with presence flag, as [option]. *)
Fixpoint trans_lookup (m : list ((Z * Z) * (Z * Z * Z))) (state prop : Z)
  : option (Z * Z * Z) :=
  match m with
  | [] => None
  | ((st, pr), v) :: rest =>
    if (st =? state) && (pr =? prop) then Some v else trans_lookup rest state prop
  end.

(** runewidth/uniseg/graphemerules.go:103-137, the body of
    [transitionGraphemeState] after line 100 has computed [prop]: new state
    and boundary flag.  (The property is returned unchanged on every path:
    [prop] is a named result set at line 100.) *)
Definition transition (state prop : Z) : Z * bool :=
  match trans_lookup grTransitions state prop with
  | Some (ns, b, _) => (ns, b =? grBoundary)
  | None =>
    match trans_lookup grTransitions state prAny,
          trans_lookup grTransitions grAny prop with
    | Some (_, bP, nP), Some (nsS, bS, nS) =>
        (nsS, if nP <? nS then bP =? grBoundary else bS =? grBoundary)
    | Some (nsP, bP, _), None => (nsP, bP =? grBoundary)
    | None, Some (nsS, bS, _) => (nsS, bS =? grBoundary)
    | None, None => (grAny, true)
    end
  end.

(** runewidth/uniseg/graphemerules.go:98-138, [transitionGraphemeState]:
    (newState, prop, boundary). *)
Definition transitionGraphemeState (state r : Z) : Z * Z * bool :=
  let prop := property graphemeCodePoints r in
  let '(ns, b) := transition state prop in
  (ns, prop, b).

(** ** width.go *)

(** runewidth/uniseg/width.go:16-42, [runeWidth]. *)
Definition uniRuneWidth (r graphemeProperty : Z) : Z :=
  let g := graphemeProperty in
  if (g =? prControl) || (g =? prCR) || (g =? prLF) || (g =? prExtend) || (g =? prZWJ)
  then 0
  else if g =? prRegionalIndicator then 2
  else if g =? prExtendedPictographic then
    (if property emojiPresentation r =? prEmojiPresentation then 2 else 1)
  else if r =? 0x2e3a then 3
  else if r =? 0x2e3b then 4
  else
    let w := property eastAsianWidth r in
    if (w =? prW) || (w =? prF) then 2 else 1.

(** ** step.go *)

(** runewidth/uniseg/step.go:7,14,20. *)
Definition ShiftWidth : Z := 4.
Definition shiftPropState : Z := 21.
Definition maskGraphemeState : Z := 0xf.

(** The width update of one loop iteration, step.go:103-113. *)
Definition step_width (firstProp width r prop : Z) : Z :=
  if r =? vs16 then 2
  else if negb (firstProp =? prExtendedPictographic)
          && negb (firstProp =? prRegionalIndicator)
          && negb (firstProp =? prL)
       then width + uniRuneWidth r prop
  else if firstProp =? prExtendedPictographic then
         (if r =? vs15 then 1 else 2)
  else width.

(** runewidth/uniseg/step.go:87-119, the [for] loop of [StepString].
    [length] is the Go variable (bytes accepted so far); [remainder] is
    [s[length:]].  Result: (cluster, rest, boundaries, newState).  [None] is
    fuel exhaustion, proved unreachable with fuel [len s]. *)
Fixpoint step_loop (fuel : nat) (s remainder : str)
    (length graphemeState firstProp width : Z) : option (str * str * Z * Z) :=
  match fuel with
  | O => None
  | S f =>
    let '(r, l) := DecodeRune remainder in
    let remainder' := drop (length + l) s in
    let '(graphemeState', prop, graphemeBoundary) :=
      transitionGraphemeState graphemeState r in
    if graphemeBoundary then
      Some (take length s, drop length s, Z.shiftl width ShiftWidth,
            Z.lor graphemeState' (Z.shiftl prop shiftPropState))
    else
      let width' := step_width firstProp width r prop in
      let length' := length + l in
      if slen s <=? length' then
        Some (s, [], Z.shiftl width' ShiftWidth,
              Z.lor grAny (Z.shiftl prop shiftPropState))
      else step_loop f s remainder' length' graphemeState' firstProp width'
  end.

(** runewidth/uniseg/step.go:62-120, [StepString]. *)
Definition StepString (s : str) (state : Z) : option (str * str * Z * Z) :=
  match s with
  | [] => Some ([], [], 0, 0)
  | _ =>
    let '(r, length) := DecodeRune s in
    if slen s <=? length then
      let prop := property graphemeCodePoints r in
      Some (s, [], Z.shiftl (uniRuneWidth r prop) ShiftWidth, grAny)
    else
      let remainder := drop length s in
      let '(graphemeState, firstProp) :=
        if state <? 0 then
          let '(ns, p, _) := transitionGraphemeState state r in (ns, p)
        else (Z.land state maskGraphemeState, Z.shiftr state shiftPropState) in
      step_loop (List.length s) s remainder length graphemeState firstProp
                (uniRuneWidth r firstProp)
  end.

(** ** grapheme.go *)

(** runewidth/uniseg/grapheme.go:17-36, the iterator. *)
Record Graphemes := {
  g_original : str;
  g_remaining : str;
  g_cluster : str;
  g_offset : Z;
  g_boundaries : Z;
  g_state : Z
}.

(** runewidth/uniseg/grapheme.go:39-45. *)
Definition NewGraphemes (s : str) : Graphemes :=
  {| g_original := s; g_remaining := s; g_cluster := []; g_offset := 0;
     g_boundaries := 0; g_state := -1 |}.

(** runewidth/uniseg/grapheme.go:50-60: new iterator and return value.
    [None] is the out-of-fuel case of [StepString], proved unreachable. *)
Definition Next (g : Graphemes) : option (Graphemes * bool) :=
  match g_remaining g with
  | [] =>
    Some ({| g_original := g_original g; g_remaining := g_remaining g;
             g_cluster := []; g_offset := g_offset g;
             g_boundaries := g_boundaries g; g_state := -2 |}, false)
  | _ =>
    match StepString (g_remaining g) (g_state g) with
    | None => None
    | Some (cluster, rest, boundaries, newState) =>
      Some ({| g_original := g_original g; g_remaining := rest;
               g_cluster := cluster;
               g_offset := g_offset g + slen (g_cluster g);
               g_boundaries := boundaries; g_state := newState |}, true)
    end
  end.

(** runewidth/uniseg/grapheme.go:65-70; Go's nil slice is [[]]. *)
Definition Runes (g : Graphemes) : list Z :=
  if g_state g <? 0 then [] else runes (g_cluster g).

(** The client loop [for g.Next() { ... g.Runes() ... }]
    (runewidth/runewidth.go:186-188): the iterator states at which the loop
    body runs, in order.  [None] = the loop is still running after [fuel]
    calls. *)
Fixpoint iterate (fuel : nat) (g : Graphemes) : option (list Graphemes) :=
  match fuel with
  | O => None
  | S f =>
    match Next g with
    | Some (g', true) =>
      match iterate f g' with Some l => Some (g' :: l) | None => None end
    | Some (_, false) => Some []
    | None => None
    end
  end.
