(** * MergeRace: merging rows while the widths of the table change
    (horizontal.go, vertical.go).

    As in TableRace.v each read of t.columnWidth is a step; others may change
    the widths in between, and so may the list of items itself: [Get] may call
    the methods of the table.  The conversion of a column's text by its
    alignment, and writing, do not touch the table. *)
From Verif Require Import GoBase Runewidth Width Table Merge TableRace.
Local Open Scope Z_scope.

(** One program after another, the same for calls that may fail, and for lists of calls. *)
Fixpoint sbind {A B} (p : sprog A) (f : A -> sprog B) : sprog B :=
  match p with
  | SRet a => f a
  | SGet name k => SGet name (fun w => sbind (k w) f)
  | SCheck name w q => SCheck name w (sbind q f)
  | SPut name w q => SPut name w (sbind q f)
  end.
Definition sobind {E A B} (p : sprog (outcome E A)) (f : A -> sprog (outcome E B)) : sprog (outcome E B) :=
  sbind p (fun o => match o with Ok a => f a | Err e => SRet (Err e) | Panic r => SRet (Panic r) end).
Fixpoint smap {E A B} (f : A -> sprog (outcome E B)) (l : list A) : sprog (outcome E (list B)) :=
  match l with
  | [] => SRet (Ok [])
  | a :: rest => sobind (f a) (fun b => sobind (smap f rest) (fun bs => SRet (Ok (b :: bs))))
  end.

Section WithTypes.
Context {Item Val E : Type}.
Notation Column := (Column Item Val E).
Notation FormattedItemList := (FormattedItemList E).

(** table_iface.go:3-6, with a [Get] that may use the table. *)
Record SItemList := { siLen : Z; siGet : Z -> sprog (outcome E (list str)) }.
(** A list that does not. *)
Definition still (items : FormattedItemList) : SItemList :=
  {| siLen := fiLen items; siGet := fun i => SRet (fiGet items i) |}.
(** One that formats its items when they are asked for. *)
Definition lazy (c : Condition) (cols : list (option Column)) (items : list Item) : SItemList :=
  {| siLen := slen items;
     siGet := fun i => match at_index items i with
                       | Some item => formatS c cols item [] SRet
                       | None => SRet (Panic IndexOutOfRange)
                       end |}.

(** vertical.go:16-25, horizontal.go:16-25. *)
Definition groupCountS (cols : list (option Column)) (maxWidthArg : Z) (sep : str) : sprog (outcome E Z) :=
  let margin := u16 (slen sep) in
  let maxWidth := clampWidth maxWidthArg in
  tableWidthS cols margin (fun tw => SRet (obind tw (fun tw =>
    let d := u16 (tw + margin) in
    if d =? 0 then Panic DivideByZero
    else
      let groupCount := u16 (maxWidth + margin) / d in
      Ok (if groupCount <? 1 then 1 else groupCount)))).

(** vertical.go:26-37, horizontal.go:26-37: [getWidth]: the recorded widths, or
    those of the compact search. *)
Inductive source := Recorded | Found (colN : Z) (cellWidth : list Z).
Definition getWidthS (src : source) (cols : list (option Column)) (colI groupI : Z) : sprog (outcome E Z) :=
  match src with
  | Recorded =>
    sobind (SRet (index cols colI)) (fun mc =>
      match mc with
      | None => SRet (Panic NilDereference)
      | Some col => SGet (colName col) (fun w => SRet (Ok w))
      end)
  | Found colN cellWidth => SRet (getWidth_compact colN cellWidth colI groupI)
  end.

(** vertical.go:48-60, horizontal.go:48-60. *)
Fixpoint cellsS (c : Condition) (src : source) (all cols : list (option Column)) (item : list str) (colI groupI : Z)
  : sprog (outcome E (list str)) :=
  match cols with
  | [] => SRet (Ok [])
  | None :: _ => SRet (Panic NilDereference)
  | Some col :: rest =>
    let al := match colAlignment col with Some f => f | None => AlignmentLeft c end in
    sobind (SRet (index item colI)) (fun txt =>
    sobind (getWidthS src all colI groupI) (fun w =>
    sobind (cellsS c src all rest item (colI + 1) groupI) (fun cells =>
    SRet (Ok (al txt w :: cells)))))
  end.
Definition renderS (c : Condition) (cols : list (option Column)) (items : SItemList) (src : source) (itemIdx groupI : Z)
  : sprog (outcome E str) :=
  sobind (siGet items itemIdx) (fun item =>
  sobind (cellsS c src cols cols item 0 groupI) (fun cells =>
  SRet (Ok (join innerSep cells)))).

(** vertical.go:42-61, horizontal.go:42-61. *)
Fixpoint groupsS (itemN : Z) (itemIdx : Z -> Z) (render : Z -> Z -> sprog (outcome E str)) (groups : list Z)
  : sprog (outcome E (list str)) :=
  match groups with
  | [] => SRet (Ok [])
  | groupI :: rest =>
    if itemIdx groupI >=? itemN then SRet (Ok [[]])
    else
      sobind (render (itemIdx groupI) groupI) (fun block =>
      sobind (groupsS itemN itemIdx render rest) (fun blocks =>
      SRet (Ok (block :: blocks))))
  end.

(** vertical.go:40-66, horizontal.go:40-66. *)
Fixpoint linesS (writeOK : nat -> bool) (line : Z -> sprog (outcome E str)) (ls : list Z) (k : nat) (acc : list str)
  : sprog (run E) :=
  match ls with
  | [] => SRet {| written := acc; stop := Finished |}
  | lineI :: rest =>
    sbind (line lineI) (fun o =>
    match o with
    | Panic p => SRet {| written := acc; stop := Panicked p |}
    | Err e => SRet {| written := acc; stop := Failed e |}
    | Ok txt =>
      if writeOK k then linesS writeOK line rest (S k) (acc ++ [txt ++ [x0a]])
      else SRet {| written := acc; stop := Panicked WriteFailed |}
    end)
  end.
Definition emitS (c : Condition) (cols : list (option Column)) (items : SItemList) (sep : str) (writeOK : nat -> bool)
    (groupCount : Z) (src : source) (pos : Z -> Z -> Z -> Z) : sprog (run E) :=
  let itemN := siLen items in
  let lineCount := lineCountOf itemN groupCount in
  linesS writeOK (fun lineI =>
    sobind (groupsS itemN (pos lineCount lineI) (renderS c cols items src) (zrange groupCount))
           (fun blocks => SRet (Ok (join sep blocks)))) (zrange lineCount) 0 [].

(** vertical.go:116-122, horizontal.go:100-106. *)
Fixpoint maxCellS (c : Condition) (items : SItemList) (colI : Z) (idxs : list Z) (mw : Z) : sprog (outcome E Z) :=
  match idxs with
  | [] => SRet (Ok mw)
  | i :: rest =>
    sobind (siGet items i) (fun item =>
    sobind (SRet (index item colI)) (fun txt =>
      let w := vwidth c txt in
      maxCellS c items colI rest (if w >? mw then w else mw)))
  end.
Definition widthsS (c : Condition) (items : SItemList) (colN : Z) (idxs : Z -> list Z) (groupCount : Z)
  : sprog (outcome E (list Z)) :=
  sobind (smap (fun groupI => smap (fun colI => maxCellS c items colI (idxs groupI) 0) (zrange colN)) (zrange groupCount))
         (fun rows => SRet (Ok (concat rows))).

(** horizontal.go:91-111 and vertical.go:94-128. *)
Definition mergedHS (c : Condition) (cols : list (option Column)) (items : SItemList) (groupCount : Z)
  : sprog (outcome E (option (list Z))) :=
  sobind (widthsS c items (slen cols) (fun groupI => Merge.steps groupI (siLen items) groupCount) groupCount)
         (fun l => SRet (Ok (Some l))).
Definition mergedVS (c : Condition) (cols : list (option Column)) (items : SItemList) (groupCount : Z)
  : sprog (outcome E (option (list Z))) :=
  let itemN := siLen items in
  let lineCount := lineCountOf itemN groupCount in
  if lineCount =? 0 then SRet (Panic DivideByZero)
  else if groupCount >? Z.quot (itemN - 1) lineCount + 1 then SRet (Ok None)
  else
    let idxs groupI :=
      let endItemIdx := (groupI + 1) * lineCount in
      let endItemIdx := if endItemIdx >? itemN then itemN else endItemIdx in
      Merge.steps (groupI * lineCount) endItemIdx 1 in
    sobind (widthsS c items (slen cols) idxs groupCount) (fun l => SRet (Ok (Some l))).

(** horizontal.go:69-89, vertical.go:69-92; [merged] is the one or the other
    (horizontally it is never nil). *)
Fixpoint calcS (fuel : nat) (merged : Z -> sprog (outcome E (option (list Z)))) (colN maxWidth margin groupCountInit extra : Z)
    (cellWidth : list Z) : sprog (option (outcome E (Z * list Z))) :=
  match fuel with
  | O => SRet None
  | S f =>
    let groupCount := groupCountInit + extra + 1 in
    sbind (merged groupCount) (fun o =>
    match o with
    | Panic p => SRet (Some (Panic p))
    | Err e => SRet (Some (Err e))
    | Ok None => SRet (Some (Ok (extra, cellWidth)))
    | Ok (Some cellWidthNew) =>
      if totalWidthOf margin groupCount colN cellWidthNew >? maxWidth
      then SRet (Some (Ok (extra, cellWidth)))
      else calcS f merged colN maxWidth margin groupCountInit (extra + 1) cellWidthNew
    end)
  end.

(** horizontal.go:9-67 and vertical.go:9-67, given the search and the place of
    an item. *)
Definition mergeRowsS (fuel : nat) (c : Condition) (cols : list (option Column)) (writeOK : nat -> bool) (items : SItemList)
    (maxWidthArg : Z) (sep : str) (compact : bool)
    (merged : Z -> sprog (outcome E (option (list Z)))) (pos : Z -> Z -> Z -> Z -> Z) : sprog (run E) :=
  let margin := u16 (slen sep) in
  let colN := slen cols in
  let maxWidth := clampWidth maxWidthArg in
  sbind (groupCountS cols maxWidthArg sep) (fun o =>
  match o with
  | Panic p => SRet {| written := []; stop := Panicked p |}
  | Err e => SRet {| written := []; stop := Failed e |}
  | Ok groupCount =>
    let finish gc src := emitS c cols items sep writeOK gc src (pos gc) in
    if compact then
      sbind (calcS fuel merged (u16 colN) maxWidth margin groupCount 0 []) (fun r =>
      match r with
      | None => SRet {| written := []; stop := Running |}
      | Some (Panic p) => SRet {| written := []; stop := Panicked p |}
      | Some (Err e) => SRet {| written := []; stop := Failed e |}
      | Some (Ok (extra, cellWidth)) =>
        if extra >? 0
        then finish (groupCount + extra) (Found colN cellWidth)
        else finish groupCount Recorded
      end)
    else finish groupCount Recorded
  end).

(** horizontal.go:9-67 and vertical.go:9-67. *)
Definition MergeRowsHorizontalS (fuel : nat) (c : Condition) (cols : list (option Column)) (writeOK : nat -> bool)
    (items : SItemList) (maxWidthArg : Z) (sep : str) (compact : bool) : sprog (run E) :=
  mergeRowsS fuel c cols writeOK items maxWidthArg sep compact (mergedHS c cols items)
    (fun gc lineCount lineI groupI => lineI * gc + groupI).
Definition MergeRowsVerticalS (fuel : nat) (c : Condition) (cols : list (option Column)) (writeOK : nat -> bool)
    (items : SItemList) (maxWidthArg : Z) (sep : str) (compact : bool) : sprog (run E) :=
  mergeRowsS fuel c cols writeOK items maxWidthArg sep compact (mergedVS c cols items)
    (fun gc lineCount lineI groupI => groupI * lineCount + lineI).
End WithTypes.
Arguments SItemList : clear implicits.
