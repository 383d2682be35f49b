(** * Cached: the functions of table.go, alignment.go, horizontal.go and
    vertical.go as programs that call visualWidth and write output, and
    goroutines running such programs on the shared width cache.

    Table.v and Merge.v use the uncached width; here each call of visualWidth
    is an effect, in the order /repo makes them.  Getters, alignments and item
    lists of the client may call visualWidth too (through AlignmentLeft etc.). *)
From Verif Require Import GoBase Runewidth Width Table Merge.
Local Open Scope Z_scope.

(** A program that may call visualWidth. *)
Inductive prog (A : Type) : Type :=
| Ret (a : A)
| Call (s : str) (k : Z -> prog A).
Arguments Ret {A} _.
Arguments Call {A} _ _.

(** One program after another. *)
Fixpoint bind {A B} (p : prog A) (f : A -> prog B) : prog B :=
  match p with
  | Ret a => f a
  | Call s k => Call s (fun w => bind (k w) f)
  end.

(** One that may also write to the caller's io.Writer; the continuation of a
    Write learns whether it succeeded. *)
Inductive wprog (A : Type) : Type :=
| WRet (a : A)
| WCall (s : str) (k : Z -> wprog A)
| Write (txt : str) (k : bool -> wprog A).
Arguments WRet {A} _.
Arguments WCall {A} _ _.
Arguments Write {A} _ _.

(** A program that writes nothing, followed by one that may. *)
Fixpoint first {A B} (p : prog A) (f : A -> wprog B) : wprog B :=
  match p with
  | Ret a => f a
  | Call s k => WCall s (fun w => first (k w) f)
  end.

(** The same for calls that may fail or panic. *)
Definition pbind {E A B} (p : prog (outcome E A)) (f : A -> prog (outcome E B)) : prog (outcome E B) :=
  bind p (fun o => match o with Ok a => f a | Err e => Ret (Err e) | Panic r => Ret (Panic r) end).
Fixpoint pmap {E A B} (f : A -> prog (outcome E B)) (l : list A) : prog (outcome E (list B)) :=
  match l with
  | [] => Ret (Ok [])
  | a :: rest => pbind (f a) (fun b => pbind (pmap f rest) (fun bs => Ret (Ok (b :: bs))))
  end.

(** ** alignment.go *)

(** alignment.go:9-15. *)
Definition alignLeftP (s : str) (width : Z) : prog str :=
  Call s (fun strWidth => Ret (if strWidth >=? width then s else s ++ spaces (u16 (width - strWidth)))).
(** alignment.go:17-23. *)
Definition alignRightP (s : str) (width : Z) : prog str :=
  Call s (fun strWidth => Ret (if strWidth >=? width then s else spaces (u16 (width - strWidth)) ++ s)).
(** alignment.go:25-34. *)
Definition alignCenterP (s : str) (width : Z) : prog str :=
  Call s (fun strWidth => Ret (
    if strWidth >=? width then s
    else
      let n := u16 (width - strWidth) in
      let left := Z.quot (n - 1) 2 + 1 in
      let right := n - left in
      spaces left ++ s ++ spaces right)).

Section WithTypes.
Context {Item Val E : Type}.

(** ** table.go: types (as in Table.v, with programs for the client's functions) *)

(** table_iface.go:8-12. *)
Record PGetter := {
  pgValue : Item -> prog (outcome E Val);
  pgValueString : str -> Item -> prog (outcome E str);
  pgFormat : Item -> Val -> prog (outcome E str)
}.
(** table.go:14-22. *)
Record PColumn := {
  pcGetter : option PGetter;
  pcAlignment : option (str -> Z -> prog str);
  pcName : str;
  pcTitle : str;
  pcShortTitle : str
}.
(** The parts of a Table these functions use: table.go:27, :45. *)
Record PTable := { ptColumns : list (option PColumn); ptWidth : option wmap }.

(** table.go:74-76. *)
Definition widthP (t : PTable) (name : str) : Z := wread (ptWidth t) name.

(** table.go:112-115. *)
Definition raiseP (t : PTable) (k : str) (width : Z) : PTable * outcome E unit :=
  if width >? widthP t k then
    match ptWidth t with
    | Some m => ({| ptColumns := ptColumns t; ptWidth := Some (wset m k width) |}, Ok tt)
    | None => (t, Panic NilMapWrite)
    end
  else (t, Ok tt).

(** table.go:80-93. *)
Fixpoint formatBasicP_loop (cols : list (option PColumn)) (item : Item) (sep : str) (index : Z) (acc : str)
  : prog (outcome E str) :=
  match cols with
  | [] => Ret (Ok acc)
  | None :: _ => Ret (Panic NilDereference)
  | Some col :: rest =>
    match pcGetter col with
    | None => Ret (Panic NilDereference)
    | Some g =>
      pbind (pgValueString g (pcName col) item) (fun colStr =>
        let acc1 := if index >? 0 then acc ++ sep else acc in
        formatBasicP_loop rest item sep (index + 1) (acc1 ++ colStr))
    end
  end.
Definition formatBasicP (t : PTable) (item : Item) (sep : str) : prog (outcome E str) :=
  formatBasicP_loop (ptColumns t) item sep 0 [].

(** table.go:95-118. *)
Fixpoint formatItemP_loop (t : PTable) (cols : list (option PColumn)) (item : Item) (done : list str)
  : prog (PTable * outcome E (list str)) :=
  match cols with
  | [] => Ret (t, Ok done)
  | None :: _ => Ret (t, Panic NilDereference)
  | Some col :: rest =>
    match pcGetter col with
    | None => Ret (t, Panic NilDereference)
    | Some g =>
      bind (pgValue g item) (fun v =>
      match v with
      | Err e => Ret (t, Err e)
      | Panic p => Ret (t, Panic p)
      | Ok value =>
        bind (pgFormat g item value) (fun f =>
        match f with
        | Err e => Ret (t, Err e)
        | Panic p => Ret (t, Panic p)
        | Ok valueFormatted =>
          Call valueFormatted (fun width =>
          match raiseP t (pcName col) width with
          | (t', Ok _) => formatItemP_loop t' rest item (done ++ [valueFormatted])
          | (t', Err e) => Ret (t', Err e)
          | (t', Panic p) => Ret (t', Panic p)
          end)
        end)
      end)
    end
  end.
Definition formatItemP (t : PTable) (item : Item) : prog (PTable * outcome E (list str)) :=
  formatItemP_loop t (ptColumns t) item [].

(** table.go:120-134. *)
Fixpoint alignItemP_loop (t : PTable) (cols : list (option PColumn)) (done todo : list str)
  : prog (list str * outcome (Z * Z) (list str)) :=
  match cols, todo with
  | [], _ => Ret (done ++ todo, Ok (done ++ todo))
  | None :: _, _ => Ret (done ++ todo, Panic NilDereference)
  | Some col :: rest, s :: todo' =>
    match pcAlignment col with
    | None => alignItemP_loop t rest (done ++ [s]) todo'
    | Some al => bind (al s (widthP t (pcName col))) (fun a => alignItemP_loop t rest (done ++ [a]) todo')
    end
  | Some _ :: _, [] => Ret (done ++ todo, Panic IndexOutOfRange)
  end.
Definition alignItemP (t : PTable) (formatted : list str) : prog (list str * outcome (Z * Z) (list str)) :=
  if negb (slen formatted =? slen (ptColumns t))
  then Ret (formatted, Err (slen formatted, slen (ptColumns t)))
  else alignItemP_loop t (ptColumns t) [] formatted.

(** table.go:136-150. *)
Definition padHeaderP (t : PTable) (col : PColumn) : prog str :=
  let width := widthP t (pcName col) in
  let value := pcTitle col in
  if width =? 0 then Ret value
  else
    let value :=
      if slen value >? width then
        if slen (pcShortTitle col) >? width then [] else pcShortTitle col
      else value in
    alignCenterP value width.

(** table.go:152-159. *)
Fixpoint headerP_loop (t : PTable) (cols : list (option PColumn)) (sep acc : str) : prog (outcome E str) :=
  match cols with
  | [] => Ret (Ok (acc ++ [x0a]))
  | None :: _ => Ret (Panic NilDereference)
  | Some col :: rest => bind (padHeaderP t col) (fun h => headerP_loop t rest sep (acc ++ h ++ sep))
  end.
Definition headerP (t : PTable) (sep : str) : prog (outcome E str) := headerP_loop t (ptColumns t) sep [].

(** table.go:161-167 measures nothing. *)
Fixpoint tableWidthP_loop (t : PTable) (cols : list (option PColumn)) (width : Z) : outcome E Z :=
  match cols with
  | [] => Ok width
  | None :: _ => Panic NilDereference
  | Some col :: rest => tableWidthP_loop t rest (u16 (width + widthP t (pcName col)))
  end.
Definition tableWidthP (t : PTable) (margin : Z) : outcome E Z :=
  tableWidthP_loop t (ptColumns t) (u16 (u16 (u16 (slen (ptColumns t)) - 1) * margin)).

(** ** horizontal.go, vertical.go *)

(** table_iface.go:3-6. *)
Record PItems := { piLen : Z; piGet : Z -> prog (outcome E (list str)) }.

(** horizontal.go:16-25, vertical.go:16-25. *)
Definition groupCountP (t : PTable) (maxWidthArg : Z) (sep : str) : outcome E Z :=
  let margin := u16 (slen sep) in
  obind (tableWidthP t margin) (fun tw =>
    let d := u16 (tw + margin) in
    if d =? 0 then Panic DivideByZero
    else
      let groupCount := u16 (clampWidth maxWidthArg + margin) / d in
      Ok (if groupCount <? 1 then 1 else groupCount)).

(** horizontal.go:26-28, vertical.go:26-28. *)
Definition getWidthP_default (t : PTable) (colI groupI : Z) : outcome E Z :=
  obind (index (ptColumns t) colI) (fun mc =>
    match mc with
    | None => Panic NilDereference
    | Some col => Ok (wread (ptWidth t) (pcName col))
    end).

(** horizontal.go:48-60, vertical.go:48-60: the item's cells are aligned one
    after the other. *)
Fixpoint cellsP (getWidth : Z -> Z -> outcome E Z) (cols : list (option PColumn)) (item : list str)
    (colI groupI : Z) : prog (outcome E (list str)) :=
  match cols with
  | [] => Ret (Ok [])
  | None :: _ => Ret (Panic NilDereference)
  | Some col :: rest =>
    let al := match pcAlignment col with Some f => f | None => alignLeftP end in
    match index item colI with
    | Err e => Ret (Err e)
    | Panic p => Ret (Panic p)
    | Ok txt =>
      match getWidth colI groupI with
      | Err e => Ret (Err e)
      | Panic p => Ret (Panic p)
      | Ok w => bind (al txt w) (fun a =>
                pbind (cellsP getWidth rest item (colI + 1) groupI) (fun cells => Ret (Ok (a :: cells))))
      end
    end
  end.
Definition renderP (t : PTable) (items : PItems) (getWidth : Z -> Z -> outcome E Z) (itemIdx groupI : Z)
  : prog (outcome E str) :=
  pbind (piGet items itemIdx) (fun item =>
  pbind (cellsP getWidth (ptColumns t) item 0 groupI) (fun cells => Ret (Ok (join innerSep cells)))).

(** horizontal.go:42-61, vertical.go:42-61. *)
Fixpoint groupsP (itemN : Z) (itemIdx : Z -> Z) (render : Z -> Z -> prog (outcome E str)) (groups : list Z)
  : prog (outcome E (list str)) :=
  match groups with
  | [] => Ret (Ok [])
  | groupI :: rest =>
    if itemIdx groupI >=? itemN then Ret (Ok [[]])
    else
      pbind (render (itemIdx groupI) groupI) (fun block =>
      pbind (groupsP itemN itemIdx render rest) (fun blocks => Ret (Ok (block :: blocks))))
  end.

(** horizontal.go:40-66, vertical.go:40-66: a line is written as soon as it is
    made; a failed write panics. *)
Fixpoint linesP (line : Z -> prog (outcome E str)) (ls : list Z) : wprog (status E) :=
  match ls with
  | [] => WRet Finished
  | lineI :: rest =>
    first (line lineI) (fun o =>
    match o with
    | Panic p => WRet (Panicked p)
    | Err e => WRet (Failed e)
    | Ok txt => Write (txt ++ [x0a]) (fun ok => if ok then linesP line rest else WRet (Panicked WriteFailed))
    end)
  end.
Definition emitP (t : PTable) (items : PItems) (sep : str) (groupCount : Z)
    (getWidth : Z -> Z -> outcome E Z) (pos : Z -> Z -> Z -> Z) : wprog (status E) :=
  let itemN := piLen items in
  let lineCount := lineCountOf itemN groupCount in
  linesP (fun lineI => pbind (groupsP itemN (pos lineCount lineI) (renderP t items getWidth) (zrange groupCount))
                         (fun blocks => Ret (Ok (join sep blocks))))
    (zrange lineCount).

(** horizontal.go:100-106, vertical.go:116-122. *)
Fixpoint maxCellP (items : PItems) (colI : Z) (idxs : list Z) (mw : Z) : prog (outcome E Z) :=
  match idxs with
  | [] => Ret (Ok mw)
  | i :: rest =>
    pbind (piGet items i) (fun item =>
    match index item colI with
    | Err e => Ret (Err e)
    | Panic p => Ret (Panic p)
    | Ok txt => Call txt (fun w => maxCellP items colI rest (if w >? mw then w else mw))
    end)
  end.
Definition widthsP (items : PItems) (colN : Z) (idxs : Z -> list Z) (groupCount : Z) : prog (outcome E (list Z)) :=
  pbind (pmap (fun groupI => pmap (fun colI => maxCellP items colI (idxs groupI) 0) (zrange colN)) (zrange groupCount))
        (fun rows => Ret (Ok (concat rows))).

(** horizontal.go:91-111. *)
Definition mergedWidthsHP (t : PTable) (items : PItems) (groupCount : Z) : prog (outcome E (list Z)) :=
  widthsP items (slen (ptColumns t)) (fun groupI => steps groupI (piLen items) groupCount) groupCount.

(** horizontal.go:69-89; [None] when still searching after [fuel] rounds. *)
Fixpoint compactHP (fuel : nat) (t : PTable) (items : PItems) (maxWidth margin groupCountInit extra : Z)
    (cellWidth : list Z) : prog (option (outcome E (Z * list Z))) :=
  match fuel with
  | O => Ret None
  | S f =>
    let groupCount := groupCountInit + extra + 1 in
    bind (mergedWidthsHP t items groupCount) (fun o =>
    match o with
    | Panic p => Ret (Some (Panic p))
    | Err e => Ret (Some (Err e))
    | Ok cellWidthNew =>
      if totalWidthOf margin groupCount (u16 (slen (ptColumns t))) cellWidthNew >? maxWidth
      then Ret (Some (Ok (extra, cellWidth)))
      else compactHP f t items maxWidth margin groupCountInit (extra + 1) cellWidthNew
    end)
  end.

(** vertical.go:94-128. *)
Definition mergedWidthsVP (t : PTable) (items : PItems) (groupCount : Z) : prog (outcome E (option (list Z))) :=
  let itemN := piLen items in
  let lineCount := lineCountOf itemN groupCount in
  if lineCount =? 0 then Ret (Panic DivideByZero)
  else if groupCount >? Z.quot (itemN - 1) lineCount + 1 then Ret (Ok None)
  else
    let idxs groupI :=
      let endItemIdx := (groupI + 1) * lineCount in
      let endItemIdx := if endItemIdx >? itemN then itemN else endItemIdx in
      steps (groupI * lineCount) endItemIdx 1 in
    pbind (widthsP items (slen (ptColumns t)) idxs groupCount) (fun l => Ret (Ok (Some l))).

(** vertical.go:69-92. *)
Fixpoint compactVP (fuel : nat) (t : PTable) (items : PItems) (maxWidth margin groupCountInit extra : Z)
    (cellWidth : list Z) : prog (option (outcome E (Z * list Z))) :=
  match fuel with
  | O => Ret None
  | S f =>
    let groupCount := groupCountInit + extra + 1 in
    bind (mergedWidthsVP t items groupCount) (fun o =>
    match o with
    | Panic p => Ret (Some (Panic p))
    | Err e => Ret (Some (Err e))
    | Ok None => Ret (Some (Ok (extra, cellWidth)))
    | Ok (Some cellWidthNew) =>
      if totalWidthOf margin groupCount (u16 (slen (ptColumns t))) cellWidthNew >? maxWidth
      then Ret (Some (Ok (extra, cellWidth)))
      else compactVP f t items maxWidth margin groupCountInit (extra + 1) cellWidthNew
    end)
  end.

(** horizontal.go:9-67. *)
Definition mergeHP (fuel : nat) (t : PTable) (items : PItems) (maxWidthArg : Z) (sep : str) (compact : bool)
  : wprog (status E) :=
  let margin := u16 (slen sep) in
  let colN := slen (ptColumns t) in
  match groupCountP t maxWidthArg sep with
  | Panic p => WRet (Panicked p)
  | Err e => WRet (Failed e)
  | Ok groupCount =>
    let finish gc getWidth :=
      emitP t items sep gc getWidth (fun lineCount lineI groupI => lineI * gc + groupI) in
    if compact then
      first (compactHP fuel t items (clampWidth maxWidthArg) margin groupCount 0 []) (fun r =>
      match r with
      | None => WRet Running
      | Some (Panic p) => WRet (Panicked p)
      | Some (Err e) => WRet (Failed e)
      | Some (Ok (extra, cellWidth)) =>
        if extra >? 0
        then finish (groupCount + extra) (getWidth_compact colN cellWidth)
        else finish groupCount (getWidthP_default t)
      end)
    else finish groupCount (getWidthP_default t)
  end.

(** vertical.go:9-67. *)
Definition mergeVP (fuel : nat) (t : PTable) (items : PItems) (maxWidthArg : Z) (sep : str) (compact : bool)
  : wprog (status E) :=
  let margin := u16 (slen sep) in
  let colN := slen (ptColumns t) in
  match groupCountP t maxWidthArg sep with
  | Panic p => WRet (Panicked p)
  | Err e => WRet (Failed e)
  | Ok groupCount =>
    let finish gc getWidth :=
      emitP t items sep gc getWidth (fun lineCount lineI groupI => groupI * lineCount + lineI) in
    if compact then
      first (compactVP fuel t items (clampWidth maxWidthArg) margin groupCount 0 []) (fun r =>
      match r with
      | None => WRet Running
      | Some (Panic p) => WRet (Panicked p)
      | Some (Err e) => WRet (Failed e)
      | Some (Ok (extra, cellWidth)) =>
        if extra >? 0
        then finish (groupCount + extra) (getWidth_compact colN cellWidth)
        else finish groupCount (getWidthP_default t)
      end)
    else finish groupCount (getWidthP_default t)
  end.
End WithTypes.
Arguments PGetter : clear implicits.
Arguments PColumn : clear implicits.
Arguments PTable : clear implicits.
Arguments PItems : clear implicits.

(** ** Goroutines *)

(** Where a goroutine is: about to run a program, or inside visualWidth. *)
Inductive gstate (A : Type) : Type :=
| GRun (p : wprog A)
| GGot (s : str) (w : Z) (k : Z -> wprog A)   (* after width.go:30 *)
| GStored (w : Z) (k : Z -> wprog A).         (* after width.go:35 *)
Arguments GRun {A} _.
Arguments GGot {A} _ _ _.
Arguments GStored {A} _ _.

(** A goroutine with its own writer: [gWriteOK n] says whether the n-th Write
    succeeds, [gOut] is what successful writes put out, [gWrites] counts them all. *)
Record goroutine (A : Type) := { gAt : gstate A; gOut : list str; gWrites : nat; gWriteOK : nat -> bool }.
Arguments gAt {A} _.
Arguments gOut {A} _.
Arguments gWrites {A} _.
Arguments gWriteOK {A} _.

Section Machine.
Context {A : Type}.
(** The goroutine at another place of its program. *)
Definition at_state (g : goroutine A) (x : gstate A) : goroutine A :=
  {| gAt := x; gOut := gOut g; gWrites := gWrites g; gWriteOK := gWriteOK g |}.

(** One step of a goroutine (width.go:30-36, and the client's writer). *)
Inductive gstep (c : Condition) : cache * goroutine A -> cache * goroutine A -> Prop :=
| g_get m g s k : gAt g = GRun (WCall s k) ->
    gstep c (m, g) (m, at_state g (GGot s (match cache_get m s with Some v => v | None => 0 end) k))
| g_hit m g s w k : gAt g = GGot s w k -> w > 0 ->
    gstep c (m, g) (m, at_state g (GRun (k w)))
| g_set m g s w k : gAt g = GGot s w k -> ~ w > 0 ->
    gstep c (m, g) (cache_set m s (vwidth c s), at_state g (GStored (vwidth c s) k))
| g_ret m g w k : gAt g = GStored w k ->
    gstep c (m, g) (m, at_state g (GRun (k w)))
| g_write m g txt k : gAt g = GRun (Write txt k) ->
    gstep c (m, g) (m, {| gAt := GRun (k (gWriteOK g (gWrites g)));
                          gOut := if gWriteOK g (gWrites g) then gOut g ++ [txt] else gOut g;
                          gWrites := S (gWrites g); gWriteOK := gWriteOK g |}).

(** Executions with the number of steps; some goroutine moves, or the cache
    loses entries. *)
Inductive gexec (c : Condition) : cache * list (goroutine A) -> nat -> cache * list (goroutine A) -> Prop :=
| ge_refl x : gexec c x 0 x
| ge_step x n m m' before g g' after : gexec c x n (m, before ++ g :: after) ->
    gstep c (m, g) (m', g') -> gexec c x (S n) (m', before ++ g' :: after)
| ge_evict x n m gs keep : gexec c x n (m, gs) -> gexec c x n (cache_evict keep m, gs).

(** Goroutines about to start. *)
Definition gstart (p : wprog A) (writeOK : nat -> bool) : goroutine A :=
  {| gAt := GRun p; gOut := []; gWrites := 0; gWriteOK := writeOK |}.
End Machine.
