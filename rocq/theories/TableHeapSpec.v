(** * TableHeapSpec: what a client sees of tables in memory. *)
From Verif Require Import GoBase Runewidth Table TableContract TableHeap.
Local Open Scope Z_scope.

Section WithTypes.
Context {Item Val E : Type}.

(** Spec [s] and table [t] as values. *)
Definition seen_spec (w : world Item Val E) (s : nat) : option (TableSpec Item Val E) :=
  option_map (spec_of w) (nth_error (wSpecs w) s).
Definition seen_table (w : world Item Val E) (t : nat) : option (Table Item Val E) :=
  match nth_error (wTables w) t with Some h => table_of w h | None => None end.

(** The pointers in a spec's Columns. *)
Definition pointers (w : world Item Val E) (s : nat) : list (option nat) :=
  match nth_error (wSpecs w) s with
  | Some h => firstn (aLen (hsCols h)) (nth (aArr (hsCols h)) (wArrs w) [])
  | None => []
  end.

(** Operations that copy a struct, or change a column in place. *)
Definition plain_op (o : wop Item Val E) : bool :=
  match o with WCopySpec _ | WCopyTable _ | WSetColumn _ _ => false | _ => true end.

(** What the operations of a history mean for table [t], whose spec is [s]. *)
Definition op_for (w : world Item Val E) (t s : nat) (o : wop Item Val E) : list (table_op Item Val E) :=
  match o with
  | WAdd s' p _ => if Nat.eqb s s' && valid_ptr w p then [OpAdd (resolve w p)] else []
  | WUpdate t' l => if Nat.eqb t t' then [OpUpdate l] else []
  | WFormat t' c item => if Nat.eqb t t' then [OpFormat c item] else []
  | _ => []
  end.
Fixpoint ops_for (w : world Item Val E) (t s : nat) (ops : list (wop Item Val E)) : list (table_op Item Val E) :=
  match ops with
  | [] => []
  | o :: rest => op_for w t s o ++ ops_for (wstep w o) t s rest
  end.
End WithTypes.
