(** * MergeWord: model of vertical.go and horizontal.go with machine integers:
    every [int] operation wraps around, and [make] panics on a capacity that is
    negative or too large. *)
From Verif Require Import GoBase Runewidth Width Table Merge.
Local Open Scope Z_scope.

Section Word.
(** An [int] is in [-half, half); [maxCap] is the largest capacity [make]
    accepts. *)
Context (half maxCap : Z).
Definition wrap (x : Z) : Z := (x + half) mod (2 * half) - half.

Section WithTypes.
Context {Item Val E : Type}.

(** [make([]T, 0, n)]. *)
Definition make (n : Z) : outcome E unit := if (n <? 0) || (maxCap <? n) then Panic BadCapacity else Ok tt.

(** vertical.go:39 and :100, horizontal.go:39. *)
Definition lineCountW (itemN groupCount : Z) : Z := wrap (Z.quot (wrap (itemN - 1)) groupCount + 1).

(** vertical.go:33-35, horizontal.go:33-35. *)
Definition getWidth_compactW (colN : Z) (cellWidth : list Z) (colI groupI : Z) : outcome E Z :=
  index cellWidth (wrap (wrap (groupI * colN) + colI)).

(** vertical.go:38-66, horizontal.go:38-66. *)
Definition emitLinesW (c : Condition) (t : Table Item Val E) (items : FormattedItemList E)
    (sep : str) (writeOK : nat -> bool) (groupCount : Z)
    (getWidth : Z -> Z -> outcome E Z) (pos : Z -> Z -> Z -> Z) : run E :=
  let itemN := fiLen items in
  let lineCount := lineCountW itemN groupCount in
  let line (lineI : Z) :=
    obind (make groupCount) (fun _ =>
    obind (groups_loop itemN (pos lineCount lineI) (renderItem c t items getWidth)
             (zrange groupCount)) (fun blocks => Ok (join sep blocks))) in
  lines_loop writeOK line (zrange lineCount) 0 [].

(** [for i := from; i < to; i += step]. *)
Fixpoint stepsW (fuel : nat) (i to_ step : Z) : list Z :=
  match fuel with
  | O => []
  | S f => if i <? to_ then i :: stepsW f (wrap (i + step)) to_ step else []
  end.

(** horizontal.go:91-111.  The inner loop makes at most [itemN] rounds. *)
Definition mergedRowsWidthHW (c : Condition) (t : Table Item Val E)
    (items : FormattedItemList E) (groupCount : Z) : outcome E (list Z) :=
  obind (make (wrap (groupCount * ColumnCount (tSpec t)))) (fun _ =>
  widthsOf c items (ColumnCount (tSpec t))
    (fun groupI => stepsW (Z.to_nat (fiLen items)) groupI (fiLen items) groupCount) groupCount).

(** horizontal.go:69-89. *)
Fixpoint compactCalcHW_loop (fuel : nat) (c : Condition) (t : Table Item Val E)
    (items : FormattedItemList E) (maxWidth margin groupCountInit : Z)
    (extra : Z) (cellWidth : list Z) : option (outcome E (Z * list Z)) :=
  match fuel with
  | O => None
  | S f =>
    let colN := u16 (ColumnCount (tSpec t)) in
    let groupCount := wrap (wrap (groupCountInit + extra) + 1) in
    match mergedRowsWidthHW c t items groupCount with
    | Panic p => Some (Panic p)
    | Err e => Some (Err e)
    | Ok cellWidthNew =>
      if totalWidthOf margin groupCount colN cellWidthNew >? maxWidth
      then Some (Ok (extra, cellWidth))
      else compactCalcHW_loop f c t items maxWidth margin groupCountInit (wrap (extra + 1)) cellWidthNew
    end
  end.

(** vertical.go:94-128. *)
Definition mergedRowsWidthVW (c : Condition) (t : Table Item Val E)
    (items : FormattedItemList E) (groupCount : Z) : outcome E (option (list Z)) :=
  let itemN := fiLen items in
  let lineCount := lineCountW itemN groupCount in
  if lineCount =? 0 then Panic DivideByZero
  else if groupCount >? wrap (Z.quot (wrap (itemN - 1)) lineCount + 1) then Ok None
  else
    obind (make (wrap (groupCount * ColumnCount (tSpec t)))) (fun _ =>
    let idxs groupI :=
      let endItemIdx := wrap (wrap (groupI + 1) * lineCount) in
      let endItemIdx := if endItemIdx >? itemN then itemN else endItemIdx in
      stepsW (Z.to_nat itemN) (wrap (groupI * lineCount)) endItemIdx 1 in
    obind (widthsOf c items (ColumnCount (tSpec t)) idxs groupCount)
          (fun l => Ok (Some l))).

(** vertical.go:69-92. *)
Fixpoint compactCalcVW_loop (fuel : nat) (c : Condition) (t : Table Item Val E)
    (items : FormattedItemList E) (maxWidth margin groupCountInit : Z)
    (extra : Z) (cellWidth : list Z) : option (outcome E (Z * list Z)) :=
  match fuel with
  | O => None
  | S f =>
    let colN := u16 (ColumnCount (tSpec t)) in
    let groupCount := wrap (wrap (groupCountInit + extra) + 1) in
    match mergedRowsWidthVW c t items groupCount with
    | Panic p => Some (Panic p)
    | Err e => Some (Err e)
    | Ok None => Some (Ok (extra, cellWidth))
    | Ok (Some cellWidthNew) =>
      if totalWidthOf margin groupCount colN cellWidthNew >? maxWidth
      then Some (Ok (extra, cellWidth))
      else compactCalcVW_loop f c t items maxWidth margin groupCountInit (wrap (extra + 1)) cellWidthNew
    end
  end.

(** horizontal.go:9-67. *)
Definition MergeRowsHorizontalW (fuel : nat) (c : Condition) (t : Table Item Val E)
    (writeOK : nat -> bool) (items : FormattedItemList E) (maxWidthArg : Z)
    (sep : str) (compact : bool) : run E :=
  let margin := u16 (slen sep) in
  let colN := ColumnCount (tSpec t) in
  let maxWidth := clampWidth maxWidthArg in
  match initialGroupCount t maxWidthArg sep with
  | Panic p => {| written := []; stop := Panicked p |}
  | Err e => {| written := []; stop := Failed e |}
  | Ok groupCount =>
    let finish gc getWidth :=
      emitLinesW c t items sep writeOK gc getWidth
        (fun lineCount lineI groupI => wrap (wrap (lineI * gc) + groupI)) in
    if compact then
      match compactCalcHW_loop fuel c t items maxWidth margin groupCount 0 [] with
      | None => {| written := []; stop := Running |}
      | Some (Panic p) => {| written := []; stop := Panicked p |}
      | Some (Err e) => {| written := []; stop := Failed e |}
      | Some (Ok (extra, cellWidth)) =>
        if extra >? 0
        then finish (wrap (groupCount + extra)) (getWidth_compactW colN cellWidth)
        else finish groupCount (getWidth_default t)
      end
    else finish groupCount (getWidth_default t)
  end.

(** vertical.go:9-67. *)
Definition MergeRowsVerticalW (fuel : nat) (c : Condition) (t : Table Item Val E)
    (writeOK : nat -> bool) (items : FormattedItemList E) (maxWidthArg : Z)
    (sep : str) (compact : bool) : run E :=
  let margin := u16 (slen sep) in
  let colN := ColumnCount (tSpec t) in
  let maxWidth := clampWidth maxWidthArg in
  match initialGroupCount t maxWidthArg sep with
  | Panic p => {| written := []; stop := Panicked p |}
  | Err e => {| written := []; stop := Failed e |}
  | Ok groupCount =>
    let finish gc getWidth :=
      emitLinesW c t items sep writeOK gc getWidth
        (fun lineCount lineI groupI => wrap (wrap (groupI * lineCount) + lineI)) in
    if compact then
      match compactCalcVW_loop fuel c t items maxWidth margin groupCount 0 [] with
      | None => {| written := []; stop := Running |}
      | Some (Panic p) => {| written := []; stop := Panicked p |}
      | Some (Err e) => {| written := []; stop := Failed e |}
      | Some (Ok (extra, cellWidth)) =>
        if extra >? 0
        then finish (wrap (groupCount + extra)) (getWidth_compactW colN cellWidth)
        else finish groupCount (getWidth_default t)
      end
    else finish groupCount (getWidth_default t)
  end.
End WithTypes.
End Word.
