(** * Calls: the table's functions as programs that call getters, alignments,
    the list of items and the writer.

    Table.v and Merge.v take these to be deterministic functions.  Here they
    are arbitrary objects: each call may change any state, may call methods of
    the same table (changing recorded widths), and may answer differently next
    time.  Not modelled: a called object that changes the columns of the table or
    the content of a slice in use (the row just handed out, [formatted]) while
    the function runs.  The width map is not nil (table.go:61). *)
From Verif Require Import GoBase Runewidth Width Table Merge MergeSpec.
Local Open Scope Z_scope.

Section Calls.
(** [G] are the getter objects, [L] the alignment functions. *)
Context {Item Val E G L : Type}.

(** A call of a method: table_iface.go:3-12, alignment.go:7, io.Writer. *)
Inductive call : Type :=
| CValue (g : G) (item : Item)                  (* g.Value(item) *)
| CFormat (g : G) (item : Item) (value : Val)   (* g.Format(item, value) *)
| CString (g : G) (name : str) (item : Item)    (* g.ValueString(name, item) *)
| CAlign (al : L) (s : str) (width : Z)         (* al(s, width) *)
| CLen                                          (* items.Len() *)
| CGet (i : Z)                                  (* items.Get(i) *)
| CWrite (text : str).                          (* out.Write(text), by Fprintln *)
(** How it can end; [Empty_set]: no error result. *)
Definition answer (q : call) : Type :=
  match q with
  | CValue _ _ => outcome E Val
  | CFormat _ _ _ => outcome E str
  | CString _ _ _ => outcome E str
  | CAlign _ _ _ => outcome Empty_set str
  | CLen => outcome Empty_set Z
  | CGet _ => outcome Empty_set (list str)
  | CWrite _ => outcome E unit
  end.

(** table.go:14-22; [None] for nil. *)
Record kcol := { kName : str; kGetter : option G; kAlign : option L }.

(** What is left to do. *)
Inductive kprog (R : Type) : Type :=
| KRet (r : R)
| KAsk (q : call) (k : answer q -> kprog R)
| KLook (name : str) (k : Z -> kprog R)         (* m[name] *)
| KRaise (name : str) (w : Z) (p : kprog R).    (* if w > m[name] { m[name] = w } *)
Arguments KRet {R} _.
Arguments KAsk {R} _ _.
Arguments KLook {R} _ _.
Arguments KRaise {R} _ _ _.
Fixpoint kbind {A B} (p : kprog A) (f : A -> kprog B) : kprog B :=
  match p with
  | KRet a => f a
  | KAsk q k => KAsk q (fun a => kbind (k a) f)
  | KLook name k => KLook name (fun v => kbind (k v) f)
  | KRaise name w p => KRaise name w (kbind p f)
  end.
Definition kobind {X A B} (p : kprog (outcome X A)) (f : A -> kprog (outcome X B)) : kprog (outcome X B) :=
  kbind p (fun o => match o with Ok a => f a | Err e => KRet (Err e) | Panic r => KRet (Panic r) end).
Definition kask (q : call) : kprog (answer q) := KAsk q KRet.
Fixpoint kmap {X A B} (f : A -> kprog (outcome X B)) (l : list A) : kprog (outcome X (list B)) :=
  match l with
  | [] => KRet (Ok [])
  | a :: rest => kobind (f a) (fun b => kobind (kmap f rest) (fun bs => KRet (Ok (b :: bs))))
  end.

(** ** table.go *)

(** table.go:80-93. *)
Fixpoint basicK (cols : list (option kcol)) (item : Item) (sep : str) (index : Z) (acc : str) : kprog (outcome E str) :=
  match cols with
  | [] => KRet (Ok acc)
  | None :: _ => KRet (Panic NilDereference)
  | Some col :: rest =>
    match kGetter col with
    | None => KRet (Panic NilDereference)
    | Some g =>
      kobind (kask (CString g (kName col) item)) (fun colStr =>
        let acc1 := if index >? 0 then acc ++ sep else acc in
        basicK rest item sep (index + 1) (acc1 ++ colStr))
    end
  end.
Definition FormatItemBasicK (cols : list (option kcol)) (item : Item) (sep : str) := basicK cols item sep 0 [].

(** table.go:95-118. *)
Fixpoint formatK (c : Condition) (cols : list (option kcol)) (item : Item) (done : list str) : kprog (outcome E (list str)) :=
  match cols with
  | [] => KRet (Ok done)
  | None :: _ => KRet (Panic NilDereference)
  | Some col :: rest =>
    match kGetter col with
    | None => KRet (Panic NilDereference)
    | Some g =>
      kobind (kask (CValue g item)) (fun value =>
      kobind (kask (CFormat g item value)) (fun valueFormatted =>
      KRaise (kName col) (vwidth c valueFormatted) (formatK c rest item (done ++ [valueFormatted]))))
    end
  end.
Definition FormatItemK (c : Condition) (cols : list (option kcol)) (item : Item) := formatK c cols item [].

(** table.go:120-134: what is in the slice at the end, and how the call ended;
    as in Table.v. *)
Fixpoint alignK (cols : list (option kcol)) (done todo : list str)
  : kprog (list str * outcome (Z * Z) (list str)) :=
  match cols, todo with
  | [], _ => KRet (done ++ todo, Ok (done ++ todo))
  | None :: _, _ => KRet (done ++ todo, Panic NilDereference)
  | Some col :: rest, s :: todo' =>
    match kAlign col with
    | None => alignK rest (done ++ [s]) todo'
    | Some al =>
      KLook (kName col) (fun w =>
      KAsk (CAlign al s w) (fun o =>
      match o with
      | Ok s' => alignK rest (done ++ [s']) todo'
      | Err e => match e with end
      | Panic p => KRet (done ++ todo, Panic p)
      end))
    end
  | Some _ :: _, [] => KRet (done ++ todo, Panic IndexOutOfRange)
  end.
Definition AlignFormattedItemK (cols : list (option kcol)) (formatted : list str)
  : kprog (list str * outcome (Z * Z) (list str)) :=
  if negb (slen formatted =? slen cols) then KRet (formatted, Err (slen formatted, slen cols))
  else alignK cols [] formatted.

(** table.go:161-167. *)
Fixpoint tableWidthK {X} (cols : list (option kcol)) (width : Z) : kprog (outcome X Z) :=
  match cols with
  | [] => KRet (Ok width)
  | None :: _ => KRet (Panic NilDereference)
  | Some col :: rest => KLook (kName col) (fun w => tableWidthK rest (u16 (width + w)))
  end.

(** ** horizontal.go, vertical.go *)
Notation res := (outcome Empty_set).

(** vertical.go:16-25, horizontal.go:16-25. *)
Definition groupCountK (cols : list (option kcol)) (maxWidthArg : Z) (sep : str) : kprog (res Z) :=
  let margin := u16 (slen sep) in
  let maxWidth := clampWidth maxWidthArg in
  kobind (tableWidthK cols (u16 (u16 (u16 (slen cols) - 1) * margin))) (fun tw =>
    let d := u16 (tw + margin) in
    if d =? 0 then KRet (Panic DivideByZero)
    else
      let groupCount := u16 (maxWidth + margin) / d in
      KRet (Ok (if groupCount <? 1 then 1 else groupCount))).

(** vertical.go:26-37, horizontal.go:26-37: [getWidth]; [Some] the widths found
    by the search. *)
Definition getWidthK (found : option (list Z)) (cols : list (option kcol)) (colI groupI : Z) : kprog (res Z) :=
  match found with
  | None =>
    kobind (KRet (index cols colI)) (fun mc =>
      match mc with
      | None => KRet (Panic NilDereference)
      | Some col => KLook (kName col) (fun w => KRet (Ok w))
      end)
  | Some cellWidth => KRet (getWidth_compact (slen cols) cellWidth colI groupI)
  end.
(** vertical.go:48-60, horizontal.go:48-60. *)
Fixpoint cellsK (c : Condition) (found : option (list Z)) (all cols : list (option kcol)) (item : list str) (colI groupI : Z)
  : kprog (res (list str)) :=
  match cols with
  | [] => KRet (Ok [])
  | None :: _ => KRet (Panic NilDereference)
  | Some col :: rest =>
    kobind (KRet (index item colI)) (fun txt =>
    kobind (getWidthK found all colI groupI) (fun w =>
    kobind (match kAlign col with Some al => kask (CAlign al txt w) | None => KRet (Ok (AlignmentLeft c txt w)) end) (fun cell =>
    kobind (cellsK c found all rest item (colI + 1) groupI) (fun cells =>
    KRet (Ok (cell :: cells))))))
  end.
Definition renderK (c : Condition) (cols : list (option kcol)) (found : option (list Z)) (itemIdx groupI : Z) : kprog (res str) :=
  kobind (kask (CGet itemIdx)) (fun item =>
  kobind (cellsK c found cols cols item 0 groupI) (fun cells =>
  KRet (Ok (join innerSep cells)))).
(** vertical.go:42-61, horizontal.go:42-61. *)
Fixpoint groupsK (itemN : Z) (itemIdx : Z -> Z) (render : Z -> Z -> kprog (res str)) (groups : list Z) : kprog (res (list str)) :=
  match groups with
  | [] => KRet (Ok [])
  | groupI :: rest =>
    if itemIdx groupI >=? itemN then KRet (Ok [[]])
    else
      kobind (render (itemIdx groupI) groupI) (fun block =>
      kobind (groupsK itemN itemIdx render rest) (fun blocks =>
      KRet (Ok (block :: blocks))))
  end.
(** vertical.go:40-66, horizontal.go:40-66. *)
Fixpoint linesK (line : Z -> kprog (res str)) (ls : list Z) : kprog (res unit) :=
  match ls with
  | [] => KRet (Ok tt)
  | lineI :: rest =>
    kobind (line lineI) (fun txt =>
    KAsk (CWrite (txt ++ [x0a])) (fun o =>
    match o with
    | Ok _ => linesK line rest
    | Err _ => KRet (Panic WriteFailed)
    | Panic p => KRet (Panic p)
    end))
  end.
Definition place (m : mode) (gc lineCount lineI groupI : Z) : Z :=
  match m with H => lineI * gc + groupI | V => groupI * lineCount + lineI end.
Definition emitK (m : mode) (c : Condition) (cols : list (option kcol)) (sep : str) (gc : Z) (found : option (list Z)) : kprog (res unit) :=
  kobind (kask CLen) (fun itemN =>
    let lineCount := lineCountOf itemN gc in
    linesK (fun lineI =>
      kobind (groupsK itemN (place m gc lineCount lineI) (renderK c cols found) (zrange gc))
             (fun blocks => KRet (Ok (join sep blocks)))) (zrange lineCount)).

(** vertical.go:116-122, horizontal.go:100-106. *)
Fixpoint maxCellK (c : Condition) (colI : Z) (idxs : list Z) (mw : Z) : kprog (res Z) :=
  match idxs with
  | [] => KRet (Ok mw)
  | i :: rest =>
    kobind (kask (CGet i)) (fun item =>
    kobind (KRet (index item colI)) (fun txt =>
      let w := vwidth c txt in
      maxCellK c colI rest (if w >? mw then w else mw)))
  end.
Definition widthsK (c : Condition) (colN : Z) (idxs : Z -> list Z) (gc : Z) : kprog (res (list Z)) :=
  kobind (kmap (fun groupI => kmap (fun colI => maxCellK c colI (idxs groupI) 0) (zrange colN)) (zrange gc))
         (fun rows => KRet (Ok (concat rows))).
(** horizontal.go:91-111 and vertical.go:94-128; [None] is nil. *)
Definition mergedK (m : mode) (c : Condition) (colN : Z) (gc : Z) : kprog (res (option (list Z))) :=
  kobind (kask CLen) (fun itemN =>
  match m with
  | H => kobind (widthsK c colN (fun groupI => Merge.steps groupI itemN gc) gc) (fun l => KRet (Ok (Some l)))
  | V =>
    let lineCount := lineCountOf itemN gc in
    if lineCount =? 0 then KRet (Panic DivideByZero)
    else if gc >? Z.quot (itemN - 1) lineCount + 1 then KRet (Ok None)
    else
      let idxs groupI :=
        let endItemIdx := (groupI + 1) * lineCount in
        let endItemIdx := if endItemIdx >? itemN then itemN else endItemIdx in
        Merge.steps (groupI * lineCount) endItemIdx 1 in
      kobind (widthsK c colN idxs gc) (fun l => KRet (Ok (Some l)))
  end).
(** horizontal.go:69-89, vertical.go:69-92. *)
Fixpoint calcK (fuel : nat) (m : mode) (c : Condition) (colN maxWidth margin groupCountInit extra : Z) (cellWidth : list Z)
  : kprog (option (res (Z * list Z))) :=
  match fuel with
  | O => KRet None
  | S f =>
    let gc := groupCountInit + extra + 1 in
    kbind (mergedK m c colN gc) (fun o =>
    match o with
    | Panic p => KRet (Some (Panic p))
    | Err e => KRet (Some (Err e))
    | Ok None => KRet (Some (Ok (extra, cellWidth)))
    | Ok (Some cellWidthNew) =>
      if totalWidthOf margin gc (u16 colN) cellWidthNew >? maxWidth
      then KRet (Some (Ok (extra, cellWidth)))
      else calcK f m c colN maxWidth margin groupCountInit (extra + 1) cellWidthNew
    end)
  end.
(** horizontal.go:9-67, vertical.go:9-67; [None]: the search has not ended. *)
Definition mergeK (m : mode) (fuel : nat) (c : Condition) (cols : list (option kcol)) (maxWidthArg : Z) (sep : str) (compact : bool)
  : kprog (option (res unit)) :=
  kbind (groupCountK cols maxWidthArg sep) (fun o =>
  match o with
  | Panic p => KRet (Some (Panic p))
  | Err e => KRet (Some (Err e))
  | Ok gc =>
    if compact then
      kbind (calcK fuel m c (slen cols) (clampWidth maxWidthArg) (u16 (slen sep)) gc 0 []) (fun r =>
      match r with
      | None => KRet None
      | Some (Panic p) => KRet (Some (Panic p))
      | Some (Err e) => KRet (Some (Err e))
      | Some (Ok (extra, cellWidth)) =>
        kbind (if extra >? 0 then emitK m c cols sep (gc + extra) (Some cellWidth) else emitK m c cols sep gc None)
              (fun o => KRet (Some o))
      end)
    else kbind (emitK m c cols sep gc None) (fun o => KRet (Some o))
  end).

(** ** Running *)
(** What happened. *)
Inductive act : Type :=
| Called (q : call) (a : answer q)
| Looked (name : str) (v : Z)
| Raised (name : str) (w : Z).

(** The objects called: from any state they reach any state, and they may
    change the widths. *)
Definition environment (W : Type) : Type := forall q : call, W -> wmap -> W * wmap * answer q.
Fixpoint krun {W R} (env : environment W) (p : kprog R) (w : W) (m : wmap) : W * wmap * R * list act :=
  match p with
  | KRet r => (w, m, r, [])
  | KAsk q k =>
    let '(w1, m1, a) := env q w m in
    let '(w2, m2, r, tr) := krun env (k a) w1 m1 in (w2, m2, r, Called q a :: tr)
  | KLook name k =>
    let '(w2, m2, r, tr) := krun env (k (m name)) w m in (w2, m2, r, Looked name (m name) :: tr)
  | KRaise name v p =>
    let '(w2, m2, r, tr) := krun env p w (if v >? m name then wset m name v else m) in (w2, m2, r, Raised name v :: tr)
  end.
End Calls.
Arguments call : clear implicits.
Arguments kcol : clear implicits.
Arguments kprog : clear implicits.
Arguments act : clear implicits.
Arguments environment : clear implicits.
Arguments KRet {Item Val E G L R} _.
Arguments KAsk {Item Val E G L R} _ _.
Arguments KLook {Item Val E G L R} _ _.
Arguments KRaise {Item Val E G L R} _ _ _.
