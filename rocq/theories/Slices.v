(** * Slices: merging (vertical.go, horizontal.go) with the slices it makes.
    A slice has elements and a capacity; [make] and an [append] that lacks room
    are noted.  The functions are those of Merge.v otherwise.  Not modelled:
    what [strings.Join], [fmt.Fprintln], the alignments, the width cache and the
    list itself allocate. *)
From Verif Require Import GoBase Utf8 Runewidth Width Table Merge MergeSpec.
Local Open Scope Z_scope.

(** [Made n]: a [make] with room for [n] elements.  [Grown n]: an [append] to a
    full slice, which moves it to room for [n]. *)
Inductive event := Made (slots : Z) | Grown (slots : Z).
Record slice (A : Type) := { elems : list A; room : Z }.
Arguments elems {A} _.
Arguments room {A} _.

Section WithTypes.
Context {Item Val E : Type}.
(** The room [append] gives a full slice of that many elements. *)
Context (grow : Z -> Z).

(** A computation with the slice operations it makes. *)
Definition mem (A : Type) : Type := list event * outcome E A.
Definition mret {A} (a : A) : mem A := ([], Ok a).
Definition quiet {A} (o : outcome E A) : mem A := ([], o).
Definition mbind {A B} (m : mem A) (f : A -> mem B) : mem B :=
  match snd m with
  | Ok a => let r := f a in (fst m ++ fst r, snd r)
  | Err e => (fst m, Err e)
  | Panic p => (fst m, Panic p)
  end.

(** [make([]T, 0, n)]. *)
Definition make0 {A} (n : Z) : mem (slice A) :=
  if n <? 0 then ([], Panic BadCapacity) else ([Made n], Ok {| elems := []; room := n |}).
(** [make([]T, n)], with the zero value of [T]. *)
Definition makeZ {A} (zero : A) (n : Z) : mem (slice A) :=
  if n <? 0 then ([], Panic BadCapacity) else ([Made n], Ok {| elems := repeat zero (Z.to_nat n); room := n |}).
(** [s = append(s, a)]. *)
Definition append {A} (s : slice A) (a : A) : mem (slice A) :=
  if slen (elems s) <? room s
  then ([], Ok {| elems := elems s ++ [a]; room := room s |})
  else let n := grow (slen (elems s)) in ([Grown n], Ok {| elems := elems s ++ [a]; room := n |}).
(** [s[i] = a]. *)
Definition store {A} (s : slice A) (i : Z) (a : A) : mem (slice A) :=
  if (i <? 0) || (slen (elems s) <=? i) then ([], Panic IndexOutOfRange)
  else ([], Ok {| elems := firstn (Z.to_nat i) (elems s) ++ a :: skipn (S (Z.to_nat i)) (elems s); room := room s |}).

(** vertical.go:49-59, horizontal.go:49-59. *)
Fixpoint cellsA (c : Condition) (getWidth : Z -> Z -> outcome E Z)
    (cols : list (option (Column Item Val E))) (item : list str) (colI groupI : Z) (cell : slice str) : mem (slice str) :=
  match cols with
  | [] => mret cell
  | None :: _ => quiet (Panic NilDereference)
  | Some col :: rest =>
    let al := match colAlignment col with Some f => f | None => AlignmentLeft c end in
    mbind (quiet (index item colI)) (fun txt =>
    mbind (quiet (getWidth colI groupI)) (fun w =>
    mbind (store cell colI (al txt w)) (fun cell =>
    cellsA c getWidth rest item (colI + 1) groupI cell)))
  end.
(** vertical.go:48-60, horizontal.go:48-60. *)
Definition renderA (c : Condition) (t : Table Item Val E) (items : FormattedItemList E)
    (getWidth : Z -> Z -> outcome E Z) (itemIdx groupI : Z) : mem str :=
  mbind (quiet (fiGet items itemIdx)) (fun item =>
  mbind (makeZ [] (ColumnCount (tSpec t))) (fun cell =>
  mbind (cellsA c getWidth (Columns (tSpec t)) item 0 groupI cell) (fun cell =>
  mret (join innerSep (elems cell))))).
(** vertical.go:42-61, horizontal.go:42-61. *)
Fixpoint groupsA (itemN : Z) (itemIdx : Z -> Z) (render : Z -> Z -> mem str) (groups : list Z) (line : slice str) : mem (slice str) :=
  match groups with
  | [] => mret line
  | groupI :: rest =>
    if itemIdx groupI >=? itemN then append line []
    else
      mbind (render (itemIdx groupI) groupI) (fun block =>
      mbind (append line block) (fun line =>
      groupsA itemN itemIdx render rest line))
  end.
(** vertical.go:41-62, horizontal.go:41-62: one line. *)
Definition lineA (c : Condition) (t : Table Item Val E) (items : FormattedItemList E) (sep : str) (groupCount : Z)
    (getWidth : Z -> Z -> outcome E Z) (itemIdx : Z -> Z) : mem str :=
  mbind (make0 groupCount) (fun line =>
  mbind (groupsA (fiLen items) itemIdx (renderA c t items getWidth) (zrange groupCount) line) (fun line =>
  mret (join sep (elems line)))).
(** vertical.go:40-66, horizontal.go:40-66. *)
Fixpoint linesA (writeOK : nat -> bool) (line : Z -> mem str) (ls : list Z) (k : nat) (acc : list str) : list event * run E :=
  match ls with
  | [] => ([], {| written := acc; stop := Finished |})
  | lineI :: rest =>
    let l := line lineI in
    match snd l with
    | Panic p => (fst l, {| written := acc; stop := Panicked p |})
    | Err e => (fst l, {| written := acc; stop := Failed e |})
    | Ok txt =>
      if writeOK k
      then let r := linesA writeOK line rest (S k) (acc ++ [txt ++ [x0a]]) in (fst l ++ fst r, snd r)
      else (fst l, {| written := acc; stop := Panicked WriteFailed |})
    end
  end.
Definition emitA (c : Condition) (t : Table Item Val E) (items : FormattedItemList E) (sep : str) (writeOK : nat -> bool)
    (groupCount : Z) (getWidth : Z -> Z -> outcome E Z) (pos : Z -> Z -> Z -> Z) : list event * run E :=
  let lineCount := lineCountOf (fiLen items) groupCount in
  linesA writeOK (fun lineI => lineA c t items sep groupCount getWidth (pos lineCount lineI)) (zrange lineCount) 0 [].

(** vertical.go:115-126, horizontal.go:99-108. *)
Fixpoint columnsA (c : Condition) (items : FormattedItemList E) (idxs : list Z) (colIs : list Z) (width : slice Z) : mem (slice Z) :=
  match colIs with
  | [] => mret width
  | colI :: rest =>
    mbind (quiet (maxCell c items colI idxs 0)) (fun mw =>
    mbind (append width mw) (fun width =>
    columnsA c items idxs rest width))
  end.
(** vertical.go:110-127, horizontal.go:98-109. *)
Fixpoint widthsA (c : Condition) (items : FormattedItemList E) (colN : Z) (idxs : Z -> list Z) (groupIs : list Z) (width : slice Z) : mem (slice Z) :=
  match groupIs with
  | [] => mret width
  | groupI :: rest =>
    mbind (columnsA c items (idxs groupI) (zrange colN) width) (fun width =>
    widthsA c items colN idxs rest width)
  end.
(** horizontal.go:91-111 and vertical.go:94-128; [Ok None] is nil. *)
Definition mergedA (m : mode) (c : Condition) (t : Table Item Val E) (items : FormattedItemList E) (groupCount : Z) : mem (option (slice Z)) :=
  let itemN := fiLen items in
  let colN := ColumnCount (tSpec t) in
  let fill idxs :=
    mbind (make0 (groupCount * colN)) (fun width =>
    mbind (widthsA c items colN idxs (zrange groupCount) width) (fun width => mret (Some width))) in
  match m with
  | H => fill (fun groupI => steps groupI itemN groupCount)
  | V =>
    let lineCount := lineCountOf itemN groupCount in
    if lineCount =? 0 then quiet (Panic DivideByZero)
    else if groupCount >? Z.quot (itemN - 1) lineCount + 1 then mret None
    else fill (fun groupI =>
      let endItemIdx := (groupI + 1) * lineCount in
      let endItemIdx := if endItemIdx >? itemN then itemN else endItemIdx in
      steps (groupI * lineCount) endItemIdx 1)
  end.
(** horizontal.go:69-89 and vertical.go:69-92. *)
Fixpoint calcA (m : mode) (fuel : nat) (c : Condition) (t : Table Item Val E) (items : FormattedItemList E)
    (maxWidth margin groupCountInit extra : Z) (cellWidth : list Z) : list event * option (outcome E (Z * list Z)) :=
  match fuel with
  | O => ([], None)
  | S f =>
    let colN := u16 (ColumnCount (tSpec t)) in
    let groupCount := groupCountInit + extra + 1 in
    let new := mergedA m c t items groupCount in
    match snd new with
    | Panic p => (fst new, Some (Panic p))
    | Err e => (fst new, Some (Err e))
    | Ok None => (fst new, Some (Ok (extra, cellWidth)))
    | Ok (Some w) =>
      if totalWidthOf margin groupCount colN (elems w) >? maxWidth
      then (fst new, Some (Ok (extra, cellWidth)))
      else let r := calcA m f c t items maxWidth margin groupCountInit (extra + 1) (elems w) in (fst new ++ fst r, snd r)
    end
  end.
(** horizontal.go:9-67 and vertical.go:9-67. *)
Definition mergeA (m : mode) (fuel : nat) (c : Condition) (t : Table Item Val E) (writeOK : nat -> bool) (items : FormattedItemList E)
    (maxWidthArg : Z) (sep : str) (compact : bool) : list event * run E :=
  let margin := u16 (slen sep) in
  let maxWidth := clampWidth maxWidthArg in
  let finish gc getWidth :=
    emitA c t items sep writeOK gc getWidth
      (match m with H => fun lineCount lineI groupI => lineI * gc + groupI | V => fun lineCount lineI groupI => groupI * lineCount + lineI end) in
  match initialGroupCount t maxWidthArg sep with
  | Panic p => ([], {| written := []; stop := Panicked p |})
  | Err e => ([], {| written := []; stop := Failed e |})
  | Ok groupCount =>
    if compact then
      let found := calcA m fuel c t items maxWidth margin groupCount 0 [] in
      match snd found with
      | None => (fst found, {| written := []; stop := Running |})
      | Some (Panic p) => (fst found, {| written := []; stop := Panicked p |})
      | Some (Err e) => (fst found, {| written := []; stop := Failed e |})
      | Some (Ok (extra, cellWidth)) =>
        let r := if extra >? 0 then finish (groupCount + extra) (getWidth_compact (ColumnCount (tSpec t)) cellWidth)
                 else finish groupCount (getWidth_default t) in
        (fst found ++ fst r, snd r)
      end
    else finish groupCount (getWidth_default t)
  end.
End WithTypes.
