(** * Swap: the table's functions when what they call may replace the table's parts.

    As Live.v, but a Table is the two pointers it consists of (table.go:43-47:
    the embedded *TableSpec, which may be nil, and the width map, which may be
    nil), and every call may change them: assign [t.TableSpec], also nil, or the
    whole struct ([*t = *NewTable(spec)]).  So each function is written with the
    places where it reads [t.TableSpec] and [t.columnWidth]. *)
From Verif Require Import GoBase Runewidth Width Table Merge MergeSpec Calls Live.
Local Open Scope Z_scope.

Section Swap.
Context {Item Val E G L : Type}.

(** table.go:14-28 and :43-47: the table; specs (the header of [Columns]), width
    maps, columns, arrays of *Column, arrays of strings. *)
Record smem := {
  sSpec : option nat;
  sMap : option nat;
  sSpecs : list header;
  sMaps : list wmap;
  sCols : list (kcol G L);
  sArrs : list (list (option nat));
  sRows : list (list str)
}.
Definition sset_maps (m : smem) (l : list wmap) : smem :=
  {| sSpec := sSpec m; sMap := sMap m; sSpecs := sSpecs m; sMaps := l; sCols := sCols m; sArrs := sArrs m; sRows := sRows m |}.
Definition sset_rows (m : smem) (l : list (list str)) : smem :=
  {| sSpec := sSpec m; sMap := sMap m; sSpecs := sSpecs m; sMaps := sMaps m; sCols := sCols m; sArrs := sArrs m; sRows := l |}.
Definition sset_row (m : smem) (a i : nat) (s : str) : smem :=
  sset_rows m (replace (sRows m) a (replace (nth a (sRows m) []) i s)).
(** [t.Columns]: panics if [t.TableSpec] is nil. *)
Definition slice (m : smem) : option header :=
  match sSpec m with None => None | Some a => Some (nth a (sSpecs m) {| hArr := 0; hLen := 0 |}) end.
(** A read of a map, which may be nil. *)
Definition width_in (m : smem) (at_ : option nat) (name : str) : Z :=
  match at_ with None => 0 | Some a => nth a (sMaps m) wempty name end.
Definition sptr (m : smem) (h : header) (j : nat) : option nat := nth j (nth (hArr h) (sArrs m) []) None.
Definition sderef (m : smem) (p : option nat) : option (kcol G L) := match p with None => None | Some a => nth_error (sCols m) a end.
Definition scols_in (m : smem) (h : header) : list (option (kcol G L)) := map (fun j => sderef m (sptr m h j)) (seq 0 (hLen h)).
Definition srow_in (m : smem) (r : header) : list str := map (fun j => nth j (nth (hArr r) (sRows m) []) []) (seq 0 (hLen r)).

(** Programs that call the client back, read and write the shared memory. *)
Inductive sprog (R : Type) : Type :=
| SRet (r : R)
| SAsk (q : call Item Val G L) (k : lanswer (E := E) q -> sprog R)
| SSee (k : smem -> sprog R)                                        (* reads *)
| SLook (name : str) (k : Z -> sprog R)                             (* t.columnWidth[name] *)
| SRaise (cw : option nat) (name : str) (w : Z) (p bad : sprog R)  (* if w > cw[name] { cw[name] = w }; [bad] if cw is nil *)
| SStore (a i : nat) (s : str) (p : sprog R).                       (* formatted[i] = s *)
Arguments SRet {R} _.
Arguments SAsk {R} _ _.
Arguments SSee {R} _.
Arguments SLook {R} _ _.
Arguments SRaise {R} _ _ _ _ _.
Arguments SStore {R} _ _ _ _.
Fixpoint sbind {A B} (p : sprog A) (f : A -> sprog B) : sprog B :=
  match p with
  | SRet a => f a
  | SAsk q k => SAsk q (fun a => sbind (k a) f)
  | SSee k => SSee (fun m => sbind (k m) f)
  | SLook name k => SLook name (fun v => sbind (k v) f)
  | SRaise cw name w p q => SRaise cw name w (sbind p f) (sbind q f)
  | SStore a i s p => SStore a i s (sbind p f)
  end.
Definition sobind {X A B} (p : sprog (outcome X A)) (f : A -> sprog (outcome X B)) : sprog (outcome X B) :=
  sbind p (fun o => match o with Ok a => f a | Err e => SRet (Err e) | Panic r => SRet (Panic r) end).
Definition sask (q : call Item Val G L) : sprog (lanswer q) := SAsk q SRet.
Fixpoint slmap {X A B} (f : A -> sprog (outcome X B)) (l : list A) : sprog (outcome X (list B)) :=
  match l with
  | [] => SRet (Ok [])
  | a :: rest => sobind (f a) (fun b => sobind (slmap f rest) (fun bs => SRet (Ok (b :: bs))))
  end.
(** [t.Columns] as it is now. *)
Definition scolumns {X B} (f : header -> sprog (outcome X B)) : sprog (outcome X B) :=
  SSee (fun m => match slice m with None => SRet (Panic NilDereference) | Some h => f h end).
(** A field of the column a pointer leads to, as it is now. *)
Definition sfield {X B} (p : option nat) (f : kcol G L -> sprog (outcome X B)) : sprog (outcome X B) :=
  SSee (fun m => match sderef m p with None => SRet (Panic NilDereference) | Some col => f col end).
Definition sgetter {X B} (p : option nat) (f : G -> kcol G L -> sprog (outcome X B)) : sprog (outcome X B) :=
  sfield p (fun col => match kGetter col with None => SRet (Panic NilDereference) | Some g => f g col end).

(** ** table.go *)

(** table.go:80-93; [range t.Columns] takes the header once. *)
Fixpoint basicS (h : header) (js : list nat) (item : Item) (sep acc : str) : sprog (outcome E str) :=
  match js with
  | [] => SRet (Ok acc)
  | j :: rest =>
    SSee (fun m => sgetter (sptr m h j) (fun g col =>
      sobind (sask (CString g (kName col) item)) (fun colStr =>
        basicS h rest item sep ((if Z.of_nat j >? 0 then acc ++ sep else acc) ++ colStr))))
  end.
Definition FormatItemBasicS (item : Item) (sep : str) : sprog (outcome E str) :=
  scolumns (fun h => basicS h (seq 0 (hLen h)) item sep []).

(** table.go:95-118: [cw] is [t.columnWidth] as it was at the start. *)
Fixpoint formatS (c : Condition) (cw : option nat) (h : header) (js : list nat) (item : Item) (done : list str)
  : sprog (outcome E (list str)) :=
  match js with
  | [] => SRet (Ok done)
  | j :: rest =>
    SSee (fun m =>
      let p := sptr m h j in
      sgetter p (fun g _ =>
      sobind (sask (CValue g item)) (fun value =>
      sgetter p (fun g' _ =>
      sobind (sask (CFormat g' item value)) (fun valueFormatted =>
      sfield p (fun col =>
      SRaise cw (kName col) (vwidth c valueFormatted) (formatS c cw h rest item (done ++ [valueFormatted]))
        (SRet (Panic NilMapWrite))))))))
  end.
Definition FormatItemS (c : Condition) (item : Item) : sprog (outcome E (list str)) :=
  SSee (fun m => scolumns (fun h => formatS c (sMap m) h (seq 0 (hLen h)) item [])).

(** table.go:120-134, on a slice of the caller's; [t.Width] reads the map the
    table has then. *)
Fixpoint alignS (h : header) (js : list nat) (formatted : header) : sprog (outcome (Z * Z) header) :=
  match js with
  | [] => SRet (Ok formatted)
  | j :: rest =>
    SSee (fun m => sfield (sptr m h j) (fun col =>
    match kAlign col with
    | None => alignS h rest formatted
    | Some al =>
      if negb (j <? hLen formatted)%nat then SRet (Panic IndexOutOfRange)
      else SLook (kName col) (fun w =>
      SAsk (CAlign al (nth j (nth (hArr formatted) (sRows m) []) []) w) (fun o =>
      match o with
      | Ok s => SStore (hArr formatted) j s (alignS h rest formatted)
      | Err e => match e with end
      | Panic r => SRet (Panic r)
      end))
    end))
  end.
Definition AlignFormattedItemS (formatted : header) : sprog (outcome (Z * Z) header) :=
  scolumns (fun h =>
    if negb (hLen formatted =? hLen h)%nat then SRet (Err (Z.of_nat (hLen formatted), Z.of_nat (hLen h)))
    else alignS h (seq 0 (hLen h)) formatted).

(** table.go:161-167. *)
Fixpoint tableWidthS {X} (cols : list (option (kcol G L))) (width : Z) : sprog (outcome X Z) :=
  match cols with
  | [] => SRet (Ok width)
  | None :: _ => SRet (Panic NilDereference)
  | Some col :: rest => SLook (kName col) (fun w => tableWidthS rest (u16 (width + w)))
  end.

(** ** horizontal.go, vertical.go *)
Notation res := (outcome Empty_set).

(** vertical.go:16-25, horizontal.go:16-25. *)
Definition groupCountS (cols : list (option (kcol G L))) (maxWidthArg : Z) (sep : str) : sprog (res Z) :=
  let margin := u16 (slen sep) in
  let maxWidth := clampWidth maxWidthArg in
  sobind (tableWidthS cols (u16 (u16 (u16 (slen cols) - 1) * margin))) (fun tw =>
    let d := u16 (tw + margin) in
    if d =? 0 then SRet (Panic DivideByZero)
    else
      let groupCount := u16 (maxWidth + margin) / d in
      SRet (Ok (if groupCount <? 1 then 1 else groupCount))).

(** vertical.go:26-37, horizontal.go:26-37: [t.Columns] and [t.columnWidth] as
    they are then, [colN] as it was at the start. *)
Definition getWidthS (colN : nat) (found : option (list Z)) (colI : nat) (groupI : Z) : sprog (res Z) :=
  match found with
  | None =>
    SSee (fun m => scolumns (fun h =>
      if negb (colI <? hLen h)%nat then SRet (Panic IndexOutOfRange)
      else sfield (sptr m h colI) (fun col => SLook (kName col) (fun w => SRet (Ok w)))))
  | Some cellWidth => SRet (getWidth_compact (Z.of_nat colN) cellWidth (Z.of_nat colI) groupI)
  end.
(** vertical.go:48-59, horizontal.go:48-59. *)
Fixpoint cellsS (c : Condition) (colN : nat) (found : option (list Z)) (h : header) (js : list nat) (item : header) (groupI : Z)
  (done : list str) : sprog (res (list str)) :=
  match js with
  | [] => SRet (Ok (done ++ repeat [] (colN - length done)))
  | j :: rest =>
    SSee (fun m => sfield (sptr m h j) (fun col =>
    if negb (j <? hLen item)%nat then SRet (Panic IndexOutOfRange)
    else
      let txt := nth j (nth (hArr item) (sRows m) []) [] in
      sobind (getWidthS colN found j groupI) (fun w =>
      sobind (match kAlign col with Some al => sask (CAlign al txt w) | None => SRet (Ok (AlignmentLeft c txt w)) end) (fun cell =>
      if negb (j <? colN)%nat then SRet (Panic IndexOutOfRange)
      else cellsS c colN found h rest item groupI (done ++ [cell])))))
  end.
(** [range t.Columns] for each item: panics if [t.TableSpec] is nil then. *)
Definition renderS (c : Condition) (colN : nat) (found : option (list Z)) (itemIdx groupI : Z) : sprog (res str) :=
  sobind (sask (CGet itemIdx)) (fun item =>
  scolumns (fun h =>
  sobind (cellsS c colN found h (seq 0 (hLen h)) item groupI []) (fun cells =>
  SRet (Ok (join innerSep cells))))).
(** vertical.go:42-61, horizontal.go:42-61. *)
Fixpoint groupsS (itemN : Z) (itemIdx : Z -> Z) (render : Z -> Z -> sprog (res str)) (groups : list Z) : sprog (res (list str)) :=
  match groups with
  | [] => SRet (Ok [])
  | groupI :: rest =>
    if itemIdx groupI >=? itemN then SRet (Ok [[]])
    else
      sobind (render (itemIdx groupI) groupI) (fun block =>
      sobind (groupsS itemN itemIdx render rest) (fun blocks =>
      SRet (Ok (block :: blocks))))
  end.
(** vertical.go:40-66, horizontal.go:40-66. *)
Fixpoint linesS (line : Z -> sprog (res str)) (ls : list Z) : sprog (res unit) :=
  match ls with
  | [] => SRet (Ok tt)
  | lineI :: rest =>
    sobind (line lineI) (fun txt =>
    SAsk (CWrite (txt ++ [x0a])) (fun o =>
    match o with
    | Ok _ => linesS line rest
    | Err _ => SRet (Panic WriteFailed)
    | Panic p => SRet (Panic p)
    end))
  end.
Definition emitS (m : mode) (c : Condition) (colN : nat) (sep : str) (gc : Z) (found : option (list Z)) : sprog (res unit) :=
  sobind (sask CLen) (fun itemN =>
    let lineCount := lineCountOf itemN gc in
    linesS (fun lineI =>
      sobind (groupsS itemN (place m gc lineCount lineI) (renderS c colN found) (zrange gc))
             (fun blocks => SRet (Ok (join sep blocks)))) (zrange lineCount)).

(** vertical.go:116-122, horizontal.go:100-106. *)
Fixpoint maxCellS (c : Condition) (colI : Z) (idxs : list Z) (mw : Z) : sprog (res Z) :=
  match idxs with
  | [] => SRet (Ok mw)
  | i :: rest =>
    sobind (sask (CGet i)) (fun item =>
    SSee (fun m => sobind (SRet (index (srow_in m item) colI)) (fun txt =>
      let w := vwidth c txt in
      maxCellS c colI rest (if w >? mw then w else mw))))
  end.
Definition widthsS (c : Condition) (colN : Z) (idxs : Z -> list Z) (gc : Z) : sprog (res (list Z)) :=
  sobind (slmap (fun groupI => slmap (fun colI => maxCellS c colI (idxs groupI) 0) (zrange colN)) (zrange gc))
         (fun rows => SRet (Ok (concat rows))).
(** horizontal.go:91-111 and vertical.go:94-128; [t.ColumnCount()] panics if
    [t.TableSpec] is nil. *)
Definition mergedS (m : mode) (c : Condition) (gc : Z) : sprog (res (option (list Z))) :=
  sobind (sask CLen) (fun itemN =>
  scolumns (fun h => let colN := Z.of_nat (hLen h) in
  match m with
  | H => sobind (widthsS c colN (fun groupI => Merge.steps groupI itemN gc) gc) (fun l => SRet (Ok (Some l)))
  | V =>
    let lineCount := lineCountOf itemN gc in
    if lineCount =? 0 then SRet (Panic DivideByZero)
    else if gc >? Z.quot (itemN - 1) lineCount + 1 then SRet (Ok None)
    else
      let idxs groupI :=
        let endItemIdx := (groupI + 1) * lineCount in
        let endItemIdx := if endItemIdx >? itemN then itemN else endItemIdx in
        Merge.steps (groupI * lineCount) endItemIdx 1 in
      sobind (widthsS c colN idxs gc) (fun l => SRet (Ok (Some l)))
  end)).
(** horizontal.go:69-89, vertical.go:69-92; [colN] counted before the loop. *)
Fixpoint calcS (fuel : nat) (m : mode) (c : Condition) (colN maxWidth margin groupCountInit extra : Z) (cellWidth : list Z)
  : sprog (option (res (Z * list Z))) :=
  match fuel with
  | O => SRet None
  | S f =>
    let gc := groupCountInit + extra + 1 in
    sbind (mergedS m c gc) (fun o =>
    match o with
    | Panic p => SRet (Some (Panic p))
    | Err e => SRet (Some (Err e))
    | Ok None => SRet (Some (Ok (extra, cellWidth)))
    | Ok (Some cellWidthNew) =>
      if totalWidthOf margin gc (u16 colN) cellWidthNew >? maxWidth
      then SRet (Some (Ok (extra, cellWidth)))
      else calcS f m c colN maxWidth margin groupCountInit (extra + 1) cellWidthNew
    end)
  end.
(** horizontal.go:9-67, vertical.go:9-67; [None]: the search has not ended.
    [t.ColumnCount()] in the first lines panics if [t.TableSpec] is nil. *)
Definition mergeS (m : mode) (fuel : nat) (c : Condition) (maxWidthArg : Z) (sep : str) (compact : bool)
  : sprog (option (res unit)) :=
  SSee (fun mem =>
  match slice mem with
  | None => SRet (Some (Panic NilDereference))
  | Some h =>
  let colN := hLen h in
  sbind (groupCountS (scols_in mem h) maxWidthArg sep) (fun o =>
  match o with
  | Panic p => SRet (Some (Panic p))
  | Err e => SRet (Some (Err e))
  | Ok gc =>
    if compact then
      SSee (fun mem2 =>
      match slice mem2 with
      | None => SRet (Some (Panic NilDereference))
      | Some h2 =>
      sbind (calcS fuel m c (Z.of_nat (hLen h2)) (clampWidth maxWidthArg) (u16 (slen sep)) gc 0 []) (fun r =>
      match r with
      | None => SRet None
      | Some (Panic p) => SRet (Some (Panic p))
      | Some (Err e) => SRet (Some (Err e))
      | Some (Ok (extra, cellWidth)) =>
        sbind (if extra >? 0 then emitS m c colN sep (gc + extra) (Some cellWidth) else emitS m c colN sep gc None)
              (fun o => SRet (Some o))
      end)
      end)
    else sbind (emitS m c colN sep gc None) (fun o => SRet (Some o))
  end)
  end).

(** ** Running *)
Inductive sact : Type :=
| SCalled (q : call Item Val G L) (a : lanswer (E := E) q)
| SLooked (name : str) (v : Z)
| SRaised (cw : option nat) (name : str) (w : Z)
| SStored (a i : nat) (s : str).
(** What was done, and the memory before and after. *)
Record sevent := { sBefore : smem; sAct : sact; sAfter : smem }.

(** The objects called: each call may leave any memory, any table. *)
Definition objects (W : Type) : Type := forall q : call Item Val G L, W -> smem -> W * smem * lanswer (E := E) q.
Definition sraise (m : smem) (a : nat) (name : str) (v : Z) : smem :=
  sset_maps m (replace (sMaps m) a (wset (nth a (sMaps m) wempty) name v)).
Fixpoint srun {W R} (env : objects W) (p : sprog R) (w : W) (m : smem) : W * smem * R * list sevent :=
  match p with
  | SRet r => (w, m, r, [])
  | SAsk q k =>
    let '(w1, m1, a) := env q w m in
    let '(w2, m2, r, tr) := srun env (k a) w1 m1 in (w2, m2, r, {| sBefore := m; sAct := SCalled q a; sAfter := m1 |} :: tr)
  | SSee k => srun env (k m) w m
  | SLook name k =>
    let v := width_in m (sMap m) name in
    let '(w2, m2, r, tr) := srun env (k v) w m in
    (w2, m2, r, {| sBefore := m; sAct := SLooked name v; sAfter := m |} :: tr)
  | SRaise cw name v p bad =>
    if v >? width_in m cw name then
      match cw with
      | None => srun env bad w m
      | Some a =>
        let m1 := sraise m a name v in
        let '(w2, m2, r, tr) := srun env p w m1 in (w2, m2, r, {| sBefore := m; sAct := SRaised cw name v; sAfter := m1 |} :: tr)
      end
    else
      let '(w2, m2, r, tr) := srun env p w m in (w2, m2, r, {| sBefore := m; sAct := SRaised cw name v; sAfter := m |} :: tr)
  | SStore a i s p =>
    let m1 := sset_row m a i s in
    let '(w2, m2, r, tr) := srun env p w m1 in (w2, m2, r, {| sBefore := m; sAct := SStored a i s; sAfter := m1 |} :: tr)
  end.
End Swap.
Arguments smem : clear implicits.
Arguments sprog : clear implicits.
Arguments sact : clear implicits.
Arguments sevent : clear implicits.
Arguments objects : clear implicits.
Arguments SRet {Item Val E G L R} _.
Arguments SAsk {Item Val E G L R} _ _.
Arguments SSee {Item Val E G L R} _.
Arguments SLook {Item Val E G L R} _ _.
Arguments SRaise {Item Val E G L R} _ _ _ _ _.
Arguments SStore {Item Val E G L R} _ _ _ _.
