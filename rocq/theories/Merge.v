(** * Merge: model of vertical.go and horizontal.go. *)
From Verif Require Import GoBase Utf8 Runewidth Width Table.
Local Open Scope Z_scope.

(** table.go:9-11. *)
Definition innerSep : str := [space].
Definition innerMargin : Z := u16 (slen innerSep).
Definition MAX_WIDTH : Z := 65535.

Section WithTypes.
Context {Item Val E : Type}.

(** These functions return no error: [E] is only a placeholder in the
    [outcome]s below. *)

(** table_iface.go:3-6: [fiLen] is [Len()], [fiGet i] is [Get(i)], which may
    panic.  Both are deterministic. *)
Record FormattedItemList := {
  fiLen : Z;
  fiGet : Z -> outcome E (list str)
}.

(** Slice read that panics when out of range. *)
Definition index {A} (l : list A) (i : Z) : outcome E A :=
  match at_index l i with Some a => Ok a | None => Panic IndexOutOfRange end.

(** vertical.go:16-25 and horizontal.go:16-25 (identical text): the initial
    number of groups per line.  Division by zero panics. *)
Definition clampWidth (maxWidthArg : Z) : Z :=
  u16 (if maxWidthArg >? MAX_WIDTH then MAX_WIDTH else maxWidthArg).
Definition initialGroupCount (t : Table Item Val E) (maxWidthArg : Z) (sep : str)
  : outcome E Z :=
  let margin := u16 (slen sep) in
  let maxWidth := clampWidth maxWidthArg in
  obind (TableWidth t margin) (fun tw =>
    let d := u16 (tw + margin) in
    if d =? 0 then Panic DivideByZero
    else
      let groupCount := u16 (maxWidth + margin) / d in
      Ok (if groupCount <? 1 then 1 else groupCount)).

(** vertical.go:26-28, horizontal.go:26-28: the default [getWidth]. *)
Definition getWidth_default (t : Table Item Val E) (colI groupI : Z) : outcome E Z :=
  obind (index (Columns (tSpec t)) colI) (fun mc =>
    match mc with
    | None => Panic NilDereference
    | Some col => Ok (wread (columnWidth t) (colName col))
    end).

(** vertical.go:33-35, horizontal.go:33-35: [getWidth] in compact mode. *)
Definition getWidth_compact (colN : Z) (cellWidth : list Z) (colI groupI : Z)
  : outcome E Z :=
  index cellWidth (groupI * colN + colI).

(** vertical.go:48-60, horizontal.go:48-60: one item rendered as a block. *)
Fixpoint cells_loop (c : Condition) (getWidth : Z -> Z -> outcome E Z)
    (cols : list (option (Column Item Val E))) (item : list str) (colI groupI : Z)
  : outcome E (list str) :=
  match cols with
  | [] => Ok []
  | None :: _ => Panic NilDereference
  | Some col :: rest =>
    let al := match colAlignment col with Some f => f | None => AlignmentLeft c end in
    obind (index item colI) (fun txt =>
    obind (getWidth colI groupI) (fun w =>
    obind (cells_loop c getWidth rest item (colI + 1) groupI) (fun cells =>
    Ok (al txt w :: cells))))
  end.
Definition renderItem (c : Condition) (t : Table Item Val E) (items : FormattedItemList)
    (getWidth : Z -> Z -> outcome E Z) (itemIdx groupI : Z) : outcome E str :=
  obind (fiGet items itemIdx) (fun item =>
  obind (cells_loop c getWidth (Columns (tSpec t)) item 0 groupI) (fun cells =>
  Ok (join innerSep cells))).

(** vertical.go:42-61, horizontal.go:42-61: the group loop of one line, with
    the [break] at the first missing item. *)
Fixpoint groups_loop (itemN : Z) (itemIdx : Z -> Z) (render : Z -> Z -> outcome E str)
    (groups : list Z) : outcome E (list str) :=
  match groups with
  | [] => Ok []
  | groupI :: rest =>
    if itemIdx groupI >=? itemN then Ok [[]]
    else
      obind (render (itemIdx groupI) groupI) (fun block =>
      obind (groups_loop itemN itemIdx render rest) (fun blocks =>
      Ok (block :: blocks)))
  end.

(** What a call has written when it stops (or, for [Running], when the model's
    step budget is used up). *)
Inductive status := Finished | Panicked (p : panic_reason) | Failed (e : E) | Running.
Record run := { written : list str; stop : status }.

(** vertical.go:40-66, horizontal.go:40-66: the line loop.  [writeOK k] says
    whether the k-th [Write] on [out] succeeds; [fmt.Fprintln] makes one
    [Write] per line.  A failed write panics; what the failing [Write] itself
    put out is not part of [written]. *)
Fixpoint lines_loop (writeOK : nat -> bool) (line : Z -> outcome E str) (ls : list Z)
    (k : nat) (acc : list str) : run :=
  match ls with
  | [] => {| written := acc; stop := Finished |}
  | lineI :: rest =>
    match line lineI with
    | Panic p => {| written := acc; stop := Panicked p |}
    | Err e => {| written := acc; stop := Failed e |}
    | Ok txt =>
      if writeOK k
      then lines_loop writeOK line rest (S k) (acc ++ [txt ++ [x0a]])
      else {| written := acc; stop := Panicked WriteFailed |}
    end
  end.

(** vertical.go:39 and :100, horizontal.go:39: Go division truncates. *)
Definition lineCountOf (itemN groupCount : Z) : Z := Z.quot (itemN - 1) groupCount + 1.

(** The common tail of both functions: lines, given the group count, the cell
    widths and the position of group [groupI] of line [lineI]. *)
Definition emitLines (c : Condition) (t : Table Item Val E) (items : FormattedItemList)
    (sep : str) (writeOK : nat -> bool) (groupCount : Z)
    (getWidth : Z -> Z -> outcome E Z) (pos : Z -> Z -> Z -> Z) : run :=
  let itemN := fiLen items in
  let lineCount := lineCountOf itemN groupCount in
  let line (lineI : Z) :=
    obind (groups_loop itemN (pos lineCount lineI) (renderItem c t items getWidth)
             (zrange groupCount)) (fun blocks => Ok (join sep blocks)) in
  lines_loop writeOK line (zrange lineCount) 0 [].

(** The largest [visualWidth] of column [colI] over a list of items
    (vertical.go:116-122, horizontal.go:100-106). *)
Fixpoint maxCell (c : Condition) (items : FormattedItemList) (colI : Z)
    (idxs : list Z) (mw : Z) : outcome E Z :=
  match idxs with
  | [] => Ok mw
  | i :: rest =>
    obind (fiGet items i) (fun item =>
    obind (index item colI) (fun txt =>
      let w := vwidth c txt in
      maxCell c items colI rest (if w >? mw then w else mw)))
  end.

(** [for i := from; i < to; i += step]. *)
Definition steps (from to_ step : Z) : list Z :=
  map (fun k => from + step * k) (zrange ((to_ - from + step - 1) / step)).

(** Nested loops building [width] row by row: groups outside, columns
    inside. *)
Definition widthsOf (c : Condition) (items : FormattedItemList) (colN : Z)
    (idxs : Z -> list Z) (groupCount : Z) : outcome E (list Z) :=
  obind (omap (fun groupI =>
           omap (fun colI => maxCell c items colI (idxs groupI) 0) (zrange colN))
         (zrange groupCount))
        (fun rows => Ok (concat rows)).

(** vertical.go:82 and horizontal.go:79, uint16 arithmetic throughout. *)
Definition totalWidthOf (margin groupCount colN : Z) (cellWidth : list Z) : Z :=
  fold_left (fun acc w => u16 (acc + w)) cellWidth
    (u16 (u16 (margin * u16 (u16 groupCount - 1))
          + u16 (u16 (innerMargin * u16 (colN - 1)) * u16 groupCount))).

(** ** horizontal.go *)

(** horizontal.go:91-111, [mergedRowsWidthH]. *)
Definition mergedRowsWidthH (c : Condition) (t : Table Item Val E)
    (items : FormattedItemList) (groupCount : Z) : outcome E (list Z) :=
  widthsOf c items (ColumnCount (tSpec t))
    (fun groupI => steps groupI (fiLen items) groupCount) groupCount.

(** horizontal.go:69-89, [compactCalcH]: [None] when the loop has not
    returned after [fuel] iterations. *)
Fixpoint compactCalcH_loop (fuel : nat) (c : Condition) (t : Table Item Val E)
    (items : FormattedItemList) (maxWidth margin groupCountInit : Z)
    (extra : Z) (cellWidth : list Z) : option (outcome E (Z * list Z)) :=
  match fuel with
  | O => None
  | S f =>
    let colN := u16 (ColumnCount (tSpec t)) in
    let groupCount := groupCountInit + extra + 1 in
    match mergedRowsWidthH c t items groupCount with
    | Panic p => Some (Panic p)
    | Err e => Some (Err e)
    | Ok cellWidthNew =>
      if totalWidthOf margin groupCount colN cellWidthNew >? maxWidth
      then Some (Ok (extra, cellWidth))
      else compactCalcH_loop f c t items maxWidth margin groupCountInit
             (extra + 1) cellWidthNew
    end
  end.

(** horizontal.go:9-67, [MergeRowsHorizontal].  [fuel] bounds the compact
    search; [Running] means it was still searching.  Item position:
    horizontal.go:43. *)
Definition MergeRowsHorizontal (fuel : nat) (c : Condition) (t : Table Item Val E)
    (writeOK : nat -> bool) (items : FormattedItemList) (maxWidthArg : Z)
    (sep : str) (compact : bool) : run :=
  let margin := u16 (slen sep) in
  let colN := ColumnCount (tSpec t) in
  let maxWidth := clampWidth maxWidthArg in
  match initialGroupCount t maxWidthArg sep with
  | Panic p => {| written := []; stop := Panicked p |}
  | Err e => {| written := []; stop := Failed e |}
  | Ok groupCount =>
    let finish gc getWidth :=
      emitLines c t items sep writeOK gc getWidth
        (fun lineCount lineI groupI => lineI * gc + groupI) in
    if compact then
      match compactCalcH_loop fuel c t items maxWidth margin groupCount 0 [] with
      | None => {| written := []; stop := Running |}
      | Some (Panic p) => {| written := []; stop := Panicked p |}
      | Some (Err e) => {| written := []; stop := Failed e |}
      | Some (Ok (extra, cellWidth)) =>
        if extra >? 0
        then finish (groupCount + extra) (getWidth_compact colN cellWidth)
        else finish groupCount (getWidth_default t)
      end
    else finish groupCount (getWidth_default t)
  end.

(** ** vertical.go *)

(** vertical.go:94-128, [mergedRowsWidthV]; [Ok None] is the nil result. *)
Definition mergedRowsWidthV (c : Condition) (t : Table Item Val E)
    (items : FormattedItemList) (groupCount : Z) : outcome E (option (list Z)) :=
  let itemN := fiLen items in
  let lineCount := lineCountOf itemN groupCount in
  if lineCount =? 0 then Panic DivideByZero
  else if groupCount >? Z.quot (itemN - 1) lineCount + 1 then Ok None
  else
    let idxs groupI :=
      let endItemIdx := (groupI + 1) * lineCount in
      let endItemIdx := if endItemIdx >? itemN then itemN else endItemIdx in
      steps (groupI * lineCount) endItemIdx 1 in
    obind (widthsOf c items (ColumnCount (tSpec t)) idxs groupCount)
          (fun l => Ok (Some l)).

(** vertical.go:69-92, [compactCalcV]. *)
Fixpoint compactCalcV_loop (fuel : nat) (c : Condition) (t : Table Item Val E)
    (items : FormattedItemList) (maxWidth margin groupCountInit : Z)
    (extra : Z) (cellWidth : list Z) : option (outcome E (Z * list Z)) :=
  match fuel with
  | O => None
  | S f =>
    let colN := u16 (ColumnCount (tSpec t)) in
    let groupCount := groupCountInit + extra + 1 in
    match mergedRowsWidthV c t items groupCount with
    | Panic p => Some (Panic p)
    | Err e => Some (Err e)
    | Ok None => Some (Ok (extra, cellWidth))
    | Ok (Some cellWidthNew) =>
      if totalWidthOf margin groupCount colN cellWidthNew >? maxWidth
      then Some (Ok (extra, cellWidth))
      else compactCalcV_loop f c t items maxWidth margin groupCountInit
             (extra + 1) cellWidthNew
    end
  end.

(** vertical.go:9-67, [MergeRowsVertical].  Item position: vertical.go:43. *)
Definition MergeRowsVertical (fuel : nat) (c : Condition) (t : Table Item Val E)
    (writeOK : nat -> bool) (items : FormattedItemList) (maxWidthArg : Z)
    (sep : str) (compact : bool) : run :=
  let margin := u16 (slen sep) in
  let colN := ColumnCount (tSpec t) in
  let maxWidth := clampWidth maxWidthArg in
  match initialGroupCount t maxWidthArg sep with
  | Panic p => {| written := []; stop := Panicked p |}
  | Err e => {| written := []; stop := Failed e |}
  | Ok groupCount =>
    let finish gc getWidth :=
      emitLines c t items sep writeOK gc getWidth
        (fun lineCount lineI groupI => groupI * lineCount + lineI) in
    if compact then
      match compactCalcV_loop fuel c t items maxWidth margin groupCount 0 [] with
      | None => {| written := []; stop := Running |}
      | Some (Panic p) => {| written := []; stop := Panicked p |}
      | Some (Err e) => {| written := []; stop := Failed e |}
      | Some (Ok (extra, cellWidth)) =>
        if extra >? 0
        then finish (groupCount + extra) (getWidth_compact colN cellWidth)
        else finish groupCount (getWidth_default t)
      end
    else finish groupCount (getWidth_default t)
  end.

End WithTypes.
Arguments FormattedItemList : clear implicits.
Arguments run : clear implicits.
Arguments status : clear implicits.
