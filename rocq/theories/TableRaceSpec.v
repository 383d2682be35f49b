(** * TableRaceSpec: what goroutines sharing one Table may rely on. *)
From Verif Require Import GoBase Runewidth Width Table TableContract TableRace.
Local Open Scope Z_scope.

(** No condition on the states passed. *)
Definition anyhow {A} (m : wmap) (ts : list (sprog A)) : Prop := True.
(** At most one goroutine stands between comparing a width for [name] and
    storing it. *)
Definition one_at_a_time {A} (name : str) (m : wmap) (ts : list (sprog A)) : Prop :=
  forall i j w w' p p', nth_error ts i = Some (SPut name w p) -> nth_error ts j = Some (SPut name w' p') -> i = j.

(** The same for every name. *)
Definition each_apart {A} (m : wmap) (ts : list (sprog A)) : Prop := forall name, one_at_a_time name m ts.

Section WithTypes.
Context {Item Val E A : Type}.

(** The calls made one after the other. *)
Fixpoint in_turn (t : Table Item Val E) (p : cprog Item E A) : Table Item Val E * A :=
  match p with
  | CRet a => (t, a)
  | CUpdate l k => in_turn (fst (UpdateWidth (E := E) t l)) k
  | CWidth name k => in_turn t (k (Width t name))
  | CFormat c item k => in_turn (fst (FormatItem c t item)) (k (snd (FormatItem c t item)))
  | CAlign formatted k => in_turn t (k (AlignFormattedItem t formatted))
  | CHeader c sep k => in_turn t (k (FormatHeader c t sep))
  | CTableWidth margin k => in_turn t (k (TableWidth t margin))
  end.

(** The program never calls UpdateWidth or FormatItem. *)
Inductive ReadsOnly : cprog Item E A -> Prop :=
| ro_ret a : ReadsOnly (CRet a)
| ro_width name k : (forall w, ReadsOnly (k w)) -> ReadsOnly (CWidth name k)
| ro_align formatted k : (forall r, ReadsOnly (k r)) -> ReadsOnly (CAlign formatted k)
| ro_header c sep k : (forall r, ReadsOnly (k r)) -> ReadsOnly (CHeader c sep k)
| ro_table margin k : (forall r, ReadsOnly (k r)) -> ReadsOnly (CTableWidth margin k).
End WithTypes.

(** Formatting a list of items, collecting the outcomes. *)
Fixpoint format_all {Item E} (c : Condition) (items : list Item) (acc : list (outcome E (list str))) :
    cprog Item E (list (outcome E (list str))) :=
  match items with
  | [] => CRet acc
  | item :: rest => CFormat c item (fun r => format_all c rest (acc ++ [r]))
  end.

(** One goroutine makes one step. *)
Definition moves_on {A} (x y : wmap * list (sprog A)) : Prop := exists m before t after m' t' more,
  x = (m, before ++ t :: after) /\ sstep m t = Some (m', t', more) /\ y = (m', before ++ t' :: after).
