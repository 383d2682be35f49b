(** * LiveSpec: columns and rows that change while the table's functions run. *)
From Verif Require Import GoBase Runewidth Width Table Merge TableContract MergeSpec Calls CallsSpec Live.
Local Open Scope Z_scope.

Section Spec.
Context {Item Val E G L : Type}.
Notation lmem := (lmem G L).
Notation event := (event Item Val E G L).
Notation act := (act Item Val E G L).
Notation surroundings := (surroundings Item Val E G L).

(** ** What was called, as in CallsSpec.v: a row as it was handed out *)
Definition as_answer (q : call Item Val G L) (after : lmem) : lanswer (E := E) q -> answer (E := E) q :=
  match q with
  | CGet i => fun a => match a with Ok r => Ok (row_in after r) | Err e => match e with end | Panic p => Panic p end
  | CValue _ _ => fun a => a
  | CFormat _ _ _ => fun a => a
  | CString _ _ _ => fun a => a
  | CAlign _ _ _ => fun a => a
  | CLen => fun a => a
  | CWrite _ => fun a => a
  end.
Definition as_acts (x : event) : list act :=
  match eAct x with
  | LCalled q a => [Called q (as_answer q (eAfter x) a)]
  | LLooked name v => [Looked name v]
  | LRaised name w => [Raised name w]
  | LStored _ _ _ => []
  end.
Definition acts (tr : list event) : list act := flat_map as_acts tr.

(** ** Adding columns *)
(** The slice of columns is within one of the arrays there are. *)
Definition Valid (m : lmem) : Prop :=
  (hArr (lSlice m) < length (lArrs m))%nat /\ (hLen (lSlice m) <= length (nth (hArr (lSlice m)) (lArrs m) []))%nat.
(** Columns may be added behind those there are; no array's elements below the
    number of columns change, nor what the columns point to. *)
Record Adds (m m' : lmem) : Prop := {
  ad_valid : Valid m';
  ad_arrs : (length (lArrs m) <= length (lArrs m'))%nat;
  ad_more : (hLen (lSlice m) <= hLen (lSlice m'))%nat;
  ad_kept : forall a j, (a < length (lArrs m))%nat -> (j < hLen (lSlice m))%nat ->
    nth j (nth a (lArrs m') []) None = nth j (nth a (lArrs m) []) None;
  ad_same : forall j, (j < hLen (lSlice m))%nat -> ptr m' (lSlice m') j = ptr m (lSlice m) j;
  ad_cols : forall j, (j < hLen (lSlice m))%nat -> deref m' (ptr m (lSlice m) j) = deref m (ptr m (lSlice m) j)
}.
(** Nothing called does more to the columns than add some. *)
Definition OnlyAdds {W} (env : surroundings W) : Prop :=
  forall q w m, Valid m -> Adds m (snd (fst (env q w m))).
(** Alignments do not change rows that are there; the list hands out rows that
    are there (it may use one slice again and again). *)
Definition RowsKept {W} (env : surroundings W) : Prop :=
  (forall al s v w m a, (a < length (lRows m))%nat -> nth_error (lRows (snd (fst (env (CAlign al s v) w m)))) a = nth_error (lRows m) a) /\
  (forall i w m, match env (CGet i) w m with (_, m', Ok r) => (hArr r < length (lRows m'))%nat | _ => True end).

(** ** Objects as Calls.v sees them: the columns and rows are part of their state *)
Definition as_environment {W} (env : surroundings W) : environment Item Val E G L (W * lmem) :=
  fun q st m =>
    let '(w', mem', a) := env q (fst st) (set_widths (snd st) m) in ((w', mem'), lWidths mem', as_answer q mem' a).

(** ** FormatItem with columns that change *)
(** A column formatted: the getter that was there when the value was asked for,
    the getter that was there afterwards, and the name that was there in the
    end; the column is the one in place when its turn came. *)
Record live_cell := { lcValue : event; lcFormat : event; lcRaise : event; lcText : str }.
Definition LiveCell (c : Condition) (item : Item) (h : header) (j : nat) (x : live_cell) : Prop :=
  exists p k1 k2 k3 g1 g2 v,
    ptr (eBefore (lcValue x)) h j = p /\
    deref (eBefore (lcValue x)) p = Some k1 /\ kGetter k1 = Some g1 /\ eAct (lcValue x) = LCalled (CValue g1 item) (Ok v) /\
    deref (eBefore (lcFormat x)) p = Some k2 /\ kGetter k2 = Some g2 /\ eAct (lcFormat x) = LCalled (CFormat g2 item v) (Ok (lcText x)) /\
    deref (eBefore (lcRaise x)) p = Some k3 /\ eAct (lcRaise x) = LRaised (kName k3) (vwidth c (lcText x)).
Definition live_events (x : live_cell) : list event := [lcValue x; lcFormat x; lcRaise x].

(** ** Merging with columns that change *)
(** What is written: items, each with [n] cells, and at most one empty place. *)
Definition LineOf (n : nat) (sep text : str) : Prop :=
  exists (items : list (list str)) (last : bool), Forall (fun cells => length cells = n) items /\
    text = TableContract.join sep (map (TableContract.join [space]) items ++ if last then [[]] else []) ++ [x0a].
End Spec.
