(** * Live: the table's functions when what they call may change the columns and
    the rows too.

    As Calls.v, but nothing is read earlier than in the code: a TableSpec holds
    the header of a slice of *Column, rows are slices, and every call may change
    the header ([AddColumn], assigning [t.Columns] or [t.TableSpec]), the
    elements of arrays, the fields of columns, the contents of rows and the
    recorded widths.  A [t.TableSpec] set to nil, and assigning the whole Table
    struct, are in Swap.v.  A header is never longer than its array in Go; reading
    beyond the array gives nil here. *)
From Verif Require Import GoBase Runewidth Width Table Merge MergeSpec Calls.
Local Open Scope Z_scope.

Section Live.
Context {Item Val E G L : Type}.

(** A slice that starts at the beginning of its array. *)
Record header := { hArr : nat; hLen : nat }.
(** table.go:14-28 and :43-47: *Column, arrays of *Column, [t.Columns],
    [t.columnWidth]; arrays of strings. *)
Record lmem := {
  lCols : list (kcol G L);
  lArrs : list (list (option nat));
  lSlice : header;
  lRows : list (list str);
  lWidths : wmap
}.
Definition set_widths (m : lmem) (f : wmap) : lmem :=
  {| lCols := lCols m; lArrs := lArrs m; lSlice := lSlice m; lRows := lRows m; lWidths := f |}.
Fixpoint replace {A} (l : list A) (i : nat) (x : A) : list A :=
  match l, i with
  | [], _ => []
  | _ :: t, O => x :: t
  | h :: t, S j => h :: replace t j x
  end.
Definition set_row (m : lmem) (a i : nat) (s : str) : lmem :=
  {| lCols := lCols m; lArrs := lArrs m; lSlice := lSlice m;
     lRows := replace (lRows m) a (replace (nth a (lRows m) []) i s); lWidths := lWidths m |}.
(** The pointer in a slice of columns, and what it points to. *)
Definition ptr (m : lmem) (h : header) (j : nat) : option nat := nth j (nth (hArr h) (lArrs m) []) None.
Definition deref (m : lmem) (p : option nat) : option (kcol G L) := match p with None => None | Some a => nth_error (lCols m) a end.
(** The columns as they are. *)
Definition cols_in (m : lmem) (h : header) : list (option (kcol G L)) := map (fun j => deref m (ptr m h j)) (seq 0 (hLen h)).
Definition cols_now (m : lmem) : list (option (kcol G L)) := cols_in m (lSlice m).
Definition row_in (m : lmem) (r : header) : list str := map (fun j => nth j (nth (hArr r) (lRows m) []) []) (seq 0 (hLen r)).

(** Calls as in Calls.v; a row is handed out as a slice. *)
Definition lanswer (q : call Item Val G L) : Type :=
  match q with CGet _ => outcome Empty_set header | q => answer (E := E) q end.

(** Programs that call the client back, read and write the shared memory. *)
Inductive lprog (R : Type) : Type :=
| LRet (r : R)
| LAsk (q : call Item Val G L) (k : lanswer q -> lprog R)
| LSee (k : lmem -> lprog R)                      (* reads *)
| LLook (name : str) (k : Z -> lprog R)           (* m[name] *)
| LRaise (name : str) (w : Z) (p : lprog R)       (* if w > m[name] { m[name] = w } *)
| LStore (a i : nat) (s : str) (p : lprog R).     (* formatted[i] = s *)
Arguments LRet {R} _.
Arguments LAsk {R} _ _.
Arguments LSee {R} _.
Arguments LLook {R} _ _.
Arguments LRaise {R} _ _ _.
Arguments LStore {R} _ _ _ _.
Fixpoint lbind {A B} (p : lprog A) (f : A -> lprog B) : lprog B :=
  match p with
  | LRet a => f a
  | LAsk q k => LAsk q (fun a => lbind (k a) f)
  | LSee k => LSee (fun m => lbind (k m) f)
  | LLook name k => LLook name (fun v => lbind (k v) f)
  | LRaise name w p => LRaise name w (lbind p f)
  | LStore a i s p => LStore a i s (lbind p f)
  end.
Definition lobind {X A B} (p : lprog (outcome X A)) (f : A -> lprog (outcome X B)) : lprog (outcome X B) :=
  lbind p (fun o => match o with Ok a => f a | Err e => LRet (Err e) | Panic r => LRet (Panic r) end).
Definition lask (q : call Item Val G L) : lprog (lanswer q) := LAsk q LRet.
Fixpoint lmap {X A B} (f : A -> lprog (outcome X B)) (l : list A) : lprog (outcome X (list B)) :=
  match l with
  | [] => LRet (Ok [])
  | a :: rest => lobind (f a) (fun b => lobind (lmap f rest) (fun bs => LRet (Ok (b :: bs))))
  end.
(** A field of the column a pointer leads to, as it is now. *)
Definition lfield {X B} (p : option nat) (f : kcol G L -> lprog (outcome X B)) : lprog (outcome X B) :=
  LSee (fun m => match deref m p with None => LRet (Panic NilDereference) | Some col => f col end).
Definition lgetter {X B} (p : option nat) (f : G -> kcol G L -> lprog (outcome X B)) : lprog (outcome X B) :=
  lfield p (fun col => match kGetter col with None => LRet (Panic NilDereference) | Some g => f g col end).

(** ** table.go *)

(** table.go:80-93; [range t.Columns] takes the header once, but reads each
    element when it comes to it. *)
Fixpoint basicL (h : header) (js : list nat) (item : Item) (sep acc : str) : lprog (outcome E str) :=
  match js with
  | [] => LRet (Ok acc)
  | j :: rest =>
    LSee (fun m => lgetter (ptr m h j) (fun g col =>
      lobind (lask (CString g (kName col) item)) (fun colStr =>
        basicL h rest item sep ((if Z.of_nat j >? 0 then acc ++ sep else acc) ++ colStr))))
  end.
Definition FormatItemBasicL (item : Item) (sep : str) : lprog (outcome E str) :=
  LSee (fun m => basicL (lSlice m) (seq 0 (hLen (lSlice m))) item sep []).

(** table.go:95-118: [col.Getter] is read twice, [col.Name] afterwards. *)
Fixpoint formatL (c : Condition) (h : header) (js : list nat) (item : Item) (done : list str) : lprog (outcome E (list str)) :=
  match js with
  | [] => LRet (Ok done)
  | j :: rest =>
    LSee (fun m =>
      let p := ptr m h j in
      lgetter p (fun g _ =>
      lobind (lask (CValue g item)) (fun value =>
      lgetter p (fun g' _ =>
      lobind (lask (CFormat g' item value)) (fun valueFormatted =>
      lfield p (fun col =>
      LRaise (kName col) (vwidth c valueFormatted) (formatL c h rest item (done ++ [valueFormatted]))))))))
  end.
Definition FormatItemL (c : Condition) (item : Item) : lprog (outcome E (list str)) :=
  LSee (fun m => formatL c (lSlice m) (seq 0 (hLen (lSlice m))) item []).

(** table.go:120-134, on a slice of the caller's. *)
Fixpoint alignL (h : header) (js : list nat) (formatted : header) : lprog (outcome (Z * Z) header) :=
  match js with
  | [] => LRet (Ok formatted)
  | j :: rest =>
    LSee (fun m => lfield (ptr m h j) (fun col =>
    match kAlign col with
    | None => alignL h rest formatted
    | Some al =>
      if negb (j <? hLen formatted)%nat then LRet (Panic IndexOutOfRange)
      else LLook (kName col) (fun w =>
      LAsk (CAlign al (nth j (nth (hArr formatted) (lRows m) []) []) w) (fun o =>
      match o with
      | Ok s => LStore (hArr formatted) j s (alignL h rest formatted)
      | Err e => match e with end
      | Panic r => LRet (Panic r)
      end))
    end))
  end.
Definition AlignFormattedItemL (formatted : header) : lprog (outcome (Z * Z) header) :=
  LSee (fun m =>
    let n := hLen (lSlice m) in
    if negb (hLen formatted =? n)%nat then LRet (Err (Z.of_nat (hLen formatted), Z.of_nat n))
    else alignL (lSlice m) (seq 0 n) formatted).

(** table.go:161-167. *)
Fixpoint tableWidthL {X} (cols : list (option (kcol G L))) (width : Z) : lprog (outcome X Z) :=
  match cols with
  | [] => LRet (Ok width)
  | None :: _ => LRet (Panic NilDereference)
  | Some col :: rest => LLook (kName col) (fun w => tableWidthL rest (u16 (width + w)))
  end.

(** ** horizontal.go, vertical.go *)
Notation res := (outcome Empty_set).

(** vertical.go:16-25, horizontal.go:16-25. *)
Definition groupCountL (cols : list (option (kcol G L))) (maxWidthArg : Z) (sep : str) : lprog (res Z) :=
  let margin := u16 (slen sep) in
  let maxWidth := clampWidth maxWidthArg in
  lobind (tableWidthL cols (u16 (u16 (u16 (slen cols) - 1) * margin))) (fun tw =>
    let d := u16 (tw + margin) in
    if d =? 0 then LRet (Panic DivideByZero)
    else
      let groupCount := u16 (maxWidth + margin) / d in
      LRet (Ok (if groupCount <? 1 then 1 else groupCount))).

(** vertical.go:26-37, horizontal.go:26-37: [t.Columns] as it is then, [colN] as
    it was at the start. *)
Definition getWidthL (colN : nat) (found : option (list Z)) (colI : nat) (groupI : Z) : lprog (res Z) :=
  match found with
  | None =>
    LSee (fun m =>
      if negb (colI <? hLen (lSlice m))%nat then LRet (Panic IndexOutOfRange)
      else lfield (ptr m (lSlice m) colI) (fun col => LLook (kName col) (fun w => LRet (Ok w))))
  | Some cellWidth => LRet (getWidth_compact (Z.of_nat colN) cellWidth (Z.of_nat colI) groupI)
  end.
(** vertical.go:48-59, horizontal.go:48-59: the range takes the header for each
    item; [cell] has room for the columns there were at the start, and is
    stored to after the call. *)
Fixpoint cellsL (c : Condition) (colN : nat) (found : option (list Z)) (h : header) (js : list nat) (item : header) (groupI : Z)
  (done : list str) : lprog (res (list str)) :=
  match js with
  | [] => LRet (Ok (done ++ repeat [] (colN - length done)))
  | j :: rest =>
    LSee (fun m => lfield (ptr m h j) (fun col =>
    if negb (j <? hLen item)%nat then LRet (Panic IndexOutOfRange)
    else
      let txt := nth j (nth (hArr item) (lRows m) []) [] in
      lobind (getWidthL colN found j groupI) (fun w =>
      lobind (match kAlign col with Some al => lask (CAlign al txt w) | None => LRet (Ok (AlignmentLeft c txt w)) end) (fun cell =>
      if negb (j <? colN)%nat then LRet (Panic IndexOutOfRange)
      else cellsL c colN found h rest item groupI (done ++ [cell])))))
  end.
Definition renderL (c : Condition) (colN : nat) (found : option (list Z)) (itemIdx groupI : Z) : lprog (res str) :=
  lobind (lask (CGet itemIdx)) (fun item =>
  LSee (fun m =>
  lobind (cellsL c colN found (lSlice m) (seq 0 (hLen (lSlice m))) item groupI []) (fun cells =>
  LRet (Ok (join innerSep cells))))).
(** vertical.go:42-61, horizontal.go:42-61. *)
Fixpoint groupsL (itemN : Z) (itemIdx : Z -> Z) (render : Z -> Z -> lprog (res str)) (groups : list Z) : lprog (res (list str)) :=
  match groups with
  | [] => LRet (Ok [])
  | groupI :: rest =>
    if itemIdx groupI >=? itemN then LRet (Ok [[]])
    else
      lobind (render (itemIdx groupI) groupI) (fun block =>
      lobind (groupsL itemN itemIdx render rest) (fun blocks =>
      LRet (Ok (block :: blocks))))
  end.
(** vertical.go:40-66, horizontal.go:40-66. *)
Fixpoint linesL (line : Z -> lprog (res str)) (ls : list Z) : lprog (res unit) :=
  match ls with
  | [] => LRet (Ok tt)
  | lineI :: rest =>
    lobind (line lineI) (fun txt =>
    LAsk (CWrite (txt ++ [x0a])) (fun o =>
    match o with
    | Ok _ => linesL line rest
    | Err _ => LRet (Panic WriteFailed)
    | Panic p => LRet (Panic p)
    end))
  end.
Definition emitL (m : mode) (c : Condition) (colN : nat) (sep : str) (gc : Z) (found : option (list Z)) : lprog (res unit) :=
  lobind (lask CLen) (fun itemN =>
    let lineCount := lineCountOf itemN gc in
    linesL (fun lineI =>
      lobind (groupsL itemN (place m gc lineCount lineI) (renderL c colN found) (zrange gc))
             (fun blocks => LRet (Ok (join sep blocks)))) (zrange lineCount)).

(** vertical.go:116-122, horizontal.go:100-106. *)
Fixpoint maxCellL (c : Condition) (colI : Z) (idxs : list Z) (mw : Z) : lprog (res Z) :=
  match idxs with
  | [] => LRet (Ok mw)
  | i :: rest =>
    lobind (lask (CGet i)) (fun item =>
    LSee (fun m => lobind (LRet (index (row_in m item) colI)) (fun txt =>
      let w := vwidth c txt in
      maxCellL c colI rest (if w >? mw then w else mw))))
  end.
Definition widthsL (c : Condition) (colN : Z) (idxs : Z -> list Z) (gc : Z) : lprog (res (list Z)) :=
  lobind (lmap (fun groupI => lmap (fun colI => maxCellL c colI (idxs groupI) 0) (zrange colN)) (zrange gc))
         (fun rows => LRet (Ok (concat rows))).
(** horizontal.go:91-111 and vertical.go:94-128; [None] is nil.  The columns are
    counted after the items. *)
Definition mergedL (m : mode) (c : Condition) (gc : Z) : lprog (res (option (list Z))) :=
  lobind (lask CLen) (fun itemN =>
  LSee (fun mem => let colN := Z.of_nat (hLen (lSlice mem)) in
  match m with
  | H => lobind (widthsL c colN (fun groupI => Merge.steps groupI itemN gc) gc) (fun l => LRet (Ok (Some l)))
  | V =>
    let lineCount := lineCountOf itemN gc in
    if lineCount =? 0 then LRet (Panic DivideByZero)
    else if gc >? Z.quot (itemN - 1) lineCount + 1 then LRet (Ok None)
    else
      let idxs groupI :=
        let endItemIdx := (groupI + 1) * lineCount in
        let endItemIdx := if endItemIdx >? itemN then itemN else endItemIdx in
        Merge.steps (groupI * lineCount) endItemIdx 1 in
      lobind (widthsL c colN idxs gc) (fun l => LRet (Ok (Some l)))
  end)).
(** horizontal.go:69-89, vertical.go:69-92; [colN] counted before the loop. *)
Fixpoint calcL (fuel : nat) (m : mode) (c : Condition) (colN maxWidth margin groupCountInit extra : Z) (cellWidth : list Z)
  : lprog (option (res (Z * list Z))) :=
  match fuel with
  | O => LRet None
  | S f =>
    let gc := groupCountInit + extra + 1 in
    lbind (mergedL m c gc) (fun o =>
    match o with
    | Panic p => LRet (Some (Panic p))
    | Err e => LRet (Some (Err e))
    | Ok None => LRet (Some (Ok (extra, cellWidth)))
    | Ok (Some cellWidthNew) =>
      if totalWidthOf margin gc (u16 colN) cellWidthNew >? maxWidth
      then LRet (Some (Ok (extra, cellWidth)))
      else calcL f m c colN maxWidth margin groupCountInit (extra + 1) cellWidthNew
    end)
  end.
(** horizontal.go:9-67, vertical.go:9-67; [None]: the search has not ended. *)
Definition mergeL (m : mode) (fuel : nat) (c : Condition) (maxWidthArg : Z) (sep : str) (compact : bool)
  : lprog (option (res unit)) :=
  LSee (fun mem =>
  let colN := hLen (lSlice mem) in
  lbind (groupCountL (cols_now mem) maxWidthArg sep) (fun o =>
  match o with
  | Panic p => LRet (Some (Panic p))
  | Err e => LRet (Some (Err e))
  | Ok gc =>
    if compact then
      LSee (fun mem2 =>
      lbind (calcL fuel m c (Z.of_nat (hLen (lSlice mem2))) (clampWidth maxWidthArg) (u16 (slen sep)) gc 0 []) (fun r =>
      match r with
      | None => LRet None
      | Some (Panic p) => LRet (Some (Panic p))
      | Some (Err e) => LRet (Some (Err e))
      | Some (Ok (extra, cellWidth)) =>
        lbind (if extra >? 0 then emitL m c colN sep (gc + extra) (Some cellWidth) else emitL m c colN sep gc None)
              (fun o => LRet (Some o))
      end))
    else lbind (emitL m c colN sep gc None) (fun o => LRet (Some o))
  end)).

(** ** Running *)
Inductive lact : Type :=
| LCalled (q : call Item Val G L) (a : lanswer q)
| LLooked (name : str) (v : Z)
| LRaised (name : str) (w : Z)
| LStored (a i : nat) (s : str).
(** What was done, and the memory before and after. *)
Record event := { eBefore : lmem; eAct : lact; eAfter : lmem }.

(** The objects called: each call may leave any memory. *)
Definition surroundings (W : Type) : Type := forall q : call Item Val G L, W -> lmem -> W * lmem * lanswer q.
Definition raise (m : lmem) (name : str) (v : Z) : lmem := if v >? lWidths m name then set_widths m (wset (lWidths m) name v) else m.
Fixpoint lrun {W R} (env : surroundings W) (p : lprog R) (w : W) (m : lmem) : W * lmem * R * list event :=
  match p with
  | LRet r => (w, m, r, [])
  | LAsk q k =>
    let '(w1, m1, a) := env q w m in
    let '(w2, m2, r, tr) := lrun env (k a) w1 m1 in (w2, m2, r, {| eBefore := m; eAct := LCalled q a; eAfter := m1 |} :: tr)
  | LSee k => lrun env (k m) w m
  | LLook name k =>
    let '(w2, m2, r, tr) := lrun env (k (lWidths m name)) w m in
    (w2, m2, r, {| eBefore := m; eAct := LLooked name (lWidths m name); eAfter := m |} :: tr)
  | LRaise name v p =>
    let m1 := raise m name v in
    let '(w2, m2, r, tr) := lrun env p w m1 in (w2, m2, r, {| eBefore := m; eAct := LRaised name v; eAfter := m1 |} :: tr)
  | LStore a i s p =>
    let m1 := set_row m a i s in
    let '(w2, m2, r, tr) := lrun env p w m1 in (w2, m2, r, {| eBefore := m; eAct := LStored a i s; eAfter := m1 |} :: tr)
  end.

(** table.go:34-37 on the table's spec, from within a call; the array grows by
    [spare] more when it has to move (ColumnByName is not kept here). *)
Definition add_column (m : lmem) (p : option nat) (spare : nat) : lmem :=
  let h := lSlice m in
  let old := nth (hArr h) (lArrs m) [] in
  if (hLen h <? length old)%nat
  then {| lCols := lCols m; lArrs := replace (lArrs m) (hArr h) (replace old (hLen h) p);
          lSlice := {| hArr := hArr h; hLen := S (hLen h) |}; lRows := lRows m; lWidths := lWidths m |}
  else {| lCols := lCols m; lArrs := lArrs m ++ [firstn (hLen h) old ++ p :: repeat None spare];
          lSlice := {| hArr := length (lArrs m); hLen := S (hLen h) |}; lRows := lRows m; lWidths := lWidths m |}.
End Live.
Arguments header : clear implicits.
Arguments lmem : clear implicits.
Arguments lprog : clear implicits.
Arguments lact : clear implicits.
Arguments event : clear implicits.
Arguments surroundings : clear implicits.
Arguments LRet {Item Val E G L R} _.
Arguments LAsk {Item Val E G L R} _ _.
Arguments LSee {Item Val E G L R} _.
Arguments LLook {Item Val E G L R} _ _.
Arguments LRaise {Item Val E G L R} _ _ _.
Arguments LStore {Item Val E G L R} _ _ _ _.
