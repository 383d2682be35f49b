(** * TableRace: goroutines using one Table (table.go).

    Each read and each write of an entry of t.columnWidth is a step; the
    columns do not change.  The runtime's own check for concurrent map writes
    (which may end the program) is left out: entries are taken to be read and
    written atomically. *)
From Verif Require Import GoBase Runewidth Width AlignSpec Table.
Local Open Scope Z_scope.

(** What is left to do, in terms of the map. *)
Inductive sprog (A : Type) : Type :=
| SRet (a : A)
| SGet (name : str) (k : Z -> sprog A)               (* read for Width *)
| SCheck (name : str) (w : Z) (p : sprog A)          (* if w > m[name] *)
| SPut (name : str) (w : Z) (p : sprog A).           (*    m[name] = w *)
Arguments SRet {A} _.
Arguments SGet {A} _ _.
Arguments SCheck {A} _ _ _.
Arguments SPut {A} _ _ _.

Section WithTypes.
Context {Item Val E A : Type}.
Notation Column := (Column Item Val E).

(** table.go:66-72. *)
Fixpoint updateS (l : list (str * Z)) (p : sprog A) : sprog A :=
  match l with
  | [] => p
  | (name, w) :: rest => SCheck name w (updateS rest p)
  end.

(** table.go:95-118. *)
Fixpoint formatS (c : Condition) (cols : list (option Column)) (item : Item) (done : list str)
    (k : outcome E (list str) -> sprog A) : sprog A :=
  match cols with
  | [] => k (Ok done)
  | None :: _ => k (Panic NilDereference)
  | Some col :: rest =>
    match colGetter col with
    | None => k (Panic NilDereference)
    | Some g =>
      match getValue g item with
      | Err e => k (Err e)
      | Panic r => k (Panic r)
      | Ok value =>
        match getFormat g item value with
        | Err e => k (Err e)
        | Panic r => k (Panic r)
        | Ok valueFormatted =>
          SCheck (colName col) (vwidth c valueFormatted)
            (formatS c rest item (done ++ [valueFormatted]) k)
        end
      end
    end
  end.

(** table.go:120-134; the result as in Table.v. *)
Fixpoint alignS_loop (cols : list (option Column)) (done todo : list str)
    (k : list str * outcome (Z * Z) (list str) -> sprog A) : sprog A :=
  match cols, todo with
  | [], _ => k (done ++ todo, Ok (done ++ todo))
  | None :: _, _ => k (done ++ todo, Panic NilDereference)
  | Some col :: rest, s :: todo' =>
    match colAlignment col with
    | None => alignS_loop rest (done ++ [s]) todo' k
    | Some al => SGet (colName col) (fun w => alignS_loop rest (done ++ [al s w]) todo' k)
    end
  | Some _ :: _, [] => k (done ++ todo, Panic IndexOutOfRange)
  end.
Definition alignS (cols : list (option Column)) (formatted : list str)
    (k : list str * outcome (Z * Z) (list str) -> sprog A) : sprog A :=
  if negb (slen formatted =? slen cols) then k (formatted, Err (slen formatted, slen cols))
  else alignS_loop cols [] formatted k.

(** table.go:136-150 and :152-159. *)
Definition headerCell (c : Condition) (col : Column) (width : Z) : str :=
  if width =? 0 then colTitle col
  else AlignmentCenter c
    (if slen (colTitle col) >? width then
       if slen (colShortTitle col) >? width then [] else colShortTitle col
     else colTitle col) width.
Fixpoint headerS (c : Condition) (cols : list (option Column)) (sep acc : str)
    (k : outcome E str -> sprog A) : sprog A :=
  match cols with
  | [] => k (Ok (acc ++ [x0a]))
  | None :: _ => k (Panic NilDereference)
  | Some col :: rest =>
    SGet (colName col) (fun w => headerS c rest sep (acc ++ headerCell c col w ++ sep) k)
  end.

(** table.go:161-167. *)
Fixpoint tableWidthS_loop (cols : list (option Column)) (width : Z) (k : outcome E Z -> sprog A) : sprog A :=
  match cols with
  | [] => k (Ok width)
  | None :: _ => k (Panic NilDereference)
  | Some col :: rest => SGet (colName col) (fun w => tableWidthS_loop rest (u16 (width + w)) k)
  end.
Definition tableWidthS (cols : list (option Column)) (margin : Z) (k : outcome E Z -> sprog A) : sprog A :=
  tableWidthS_loop cols (u16 (u16 (u16 (slen cols) - 1) * margin)) k.

(** ** Programs of clients: calls of the methods of one table. *)
Inductive cprog : Type :=
| CRet (a : A)
| CUpdate (l : list (str * Z)) (k : cprog)
| CWidth (name : str) (k : Z -> cprog)
| CFormat (c : Condition) (item : Item) (k : outcome E (list str) -> cprog)
| CAlign (formatted : list str) (k : list str * outcome (Z * Z) (list str) -> cprog)
| CHeader (c : Condition) (sep : str) (k : outcome E str -> cprog)
| CTableWidth (margin : Z) (k : outcome E Z -> cprog).

(** The accesses to the width map that a program of calls makes (table.go:66-167). *)
Fixpoint steps (cols : list (option Column)) (p : cprog) : sprog A :=
  match p with
  | CRet a => SRet a
  | CUpdate l k => updateS l (steps cols k)
  | CWidth name k => SGet name (fun w => steps cols (k w))
  | CFormat c item k => formatS c cols item [] (fun r => steps cols (k r))
  | CAlign formatted k => alignS cols formatted (fun r => steps cols (k r))
  | CHeader c sep k => headerS c cols sep [] (fun r => steps cols (k r))
  | CTableWidth margin k => tableWidthS cols margin (fun r => steps cols (k r))
  end.

(** ** Executions *)

(** One step of a goroutine; the last component lists the widths compared. *)
Definition sstep (m : wmap) (t : sprog A) : option (wmap * sprog A * list (str * Z)) :=
  match t with
  | SRet _ => None
  | SGet name k => Some (m, k (m name), [])
  | SCheck name w p => Some (m, if w >? m name then SPut name w p else p, [(name, w)])
  | SPut name w p => Some (wset m name w, p, [])
  end.

(** [P] holds in every state passed before the last; the list collects the widths compared. *)
Inductive sexec (P : wmap -> list (sprog A) -> Prop) (m0 : wmap) (ts0 : list (sprog A)) :
  wmap -> list (sprog A) -> list (str * Z) -> Prop :=
| se_refl : sexec P m0 ts0 m0 ts0 []
| se_step m before t after seen m' t' more : sexec P m0 ts0 m (before ++ t :: after) seen ->
    P m (before ++ t :: after) -> sstep m t = Some (m', t', more) ->
    sexec P m0 ts0 m' (before ++ t' :: after) (seen ++ more).
End WithTypes.
Arguments cprog : clear implicits.
