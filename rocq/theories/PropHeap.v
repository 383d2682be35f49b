(** * PropHeap: values in memory: Conditions (C51), columns, specs and tables (C52). *)
From Verif Require Import GoBase Runewidth Width ConditionSpec CondHeap CondHeapSpec CondHeapProofs.
From Verif Require Import Table TableContract TableHeap TableHeapSpec TableHeapProofs.
Local Open Scope Z_scope.

(** ** C51: lookup tables in memory *)

Theorem C51_reachable : forall ops i c, seen (hrun ops) i = Some c -> Reachable c.
Proof. exact heap_reachable. Qed.
Print Assumptions C51_reachable.

Theorem C51_independent : forall pre ea st post,
  Forall (fun o => copies o = false) (pre ++ HNew ea st :: post) ->
  let i := length (conds (hrun pre)) in
  seen (hrun (pre ++ HNew ea st :: post)) i
  = Some (fold_left value_step (filter (aimed_at i) post) (plainCondition ea st)).
Proof. exact independent. Qed.
Print Assumptions C51_independent.

Theorem C51_frame : forall ops o j c, seen (hrun ops) j = Some c -> target o <> Some j ->
  (forall i, o = HLUT i -> ~ Shares (hrun ops) i j) -> seen (hrun (ops ++ [o])) j = Some c.
Proof. exact frame. Qed.
Print Assumptions C51_frame.

Theorem C51_shared_table : forall ops i j ci, Shares (hrun ops) i j -> seen (hrun ops) i = Some ci ->
  exists cj, seen (hrun (ops ++ [HLUT i])) j = Some cj
    /\ forall r, RuneWidth cj r = RuneWidth (plainCondition (EastAsianWidth ci) (StrictEmojiNeutral ci)) r.
Proof. exact shared_table. Qed.
Print Assumptions C51_shared_table.

(** c := &Condition{...}; c.CreateLUT(); d := *c; d.EastAsianWidth = true;
    d.CreateLUT() changes what c measures. *)
Theorem C51_copy_refuted : exists ops i c c', seen (hrun ops) i = Some c
  /\ exists j, j <> i /\ seen (hrun (ops ++ [HLUT j])) i = Some c' /\ RuneWidth c 0xA1 = 1 /\ RuneWidth c' 0xA1 = 2.
Proof. exact copy_refuted. Qed.
Print Assumptions C51_copy_refuted.

Example C51_example : Forall (fun o => copies o = false) ([HNew true true] ++ HNew false true :: [HLUT 1; HLUT 0; HFlags 1 true false; HEnv 0 [x31] false])
  /\ filter (aimed_at 1) [HLUT 1; HLUT 0; HFlags 1 true false; HEnv 0 [x31] false] = [HLUT 1; HFlags 1 true false].
Proof. split; [repeat constructor|reflexivity]. Qed.

(** ** C52: columns, specs and tables in memory *)

(** Without copied structs and columns changed in place, a table is the one
    Table.v describes after the operations on it and the columns added to its
    spec, whoever adds them. *)
Theorem C52_history : forall (Item Val E : Type) (pre post : list (wop Item Val E)) s,
  Forall (fun o => plain_op o = true) (pre ++ WTable s :: post) ->
  (forall i, s = Some i -> seen_spec (wrun pre) i <> None) ->
  let w := wrun pre in
  let i := match s with Some i => i | None => length (wSpecs w) end in
  seen_table (wrun (pre ++ WTable s :: post)) (length (wTables w))
  = Some (table_run (NewTable (match s with Some i => seen_spec w i | None => None end))
            (ops_for (wrun (pre ++ [WTable s])) (length (wTables w)) i post)).
Proof. exact @table_history. Qed.
Print Assumptions C52_history.

(** A table made as &Table{TableSpec: s} follows the same operations, without a
    map of widths. *)
Theorem C52_literal : forall (Item Val E : Type) (pre post : list (wop Item Val E)) i sp,
  Forall (fun o => plain_op o = true) (pre ++ WLiteral i :: post) -> seen_spec (wrun pre) i = Some sp ->
  let t := length (wTables (wrun pre)) in
  exists T, seen_table (wrun (pre ++ WLiteral i :: post)) t = Some T /\ columnWidth T = None
    /\ T = table_run {| tSpec := sp; columnWidth := None |} (ops_for (wrun (pre ++ [WLiteral i])) t i post).
Proof. exact @literal. Qed.
Print Assumptions C52_literal.

(** There FormatItem panics on the first cell that is not of width 0, unless an
    earlier one fails. *)
Theorem C52_nil_format : forall (Item Val E : Type) c item (T : Table Item Val E), columnWidth T = None ->
  let shown col := match cell item col with Ok s => if vwidth c s >? 0 then Panic NilMapWrite else Ok s | r => r end in
  fst (FormatItem c T item) = T
  /\ ((exists vs, AllOk shown (Columns (tSpec T)) vs /\ snd (FormatItem c T item) = Ok vs)
      \/ exists pre vs, FirstFailure shown (Columns (tSpec T)) pre vs (snd (FormatItem c T item))).
Proof. exact @nil_format. Qed.
Print Assumptions C52_nil_format.

(** After any history, AddColumn does to its spec what it does to a value. *)
Theorem C52_add_column : forall (Item Val E : Type) (ops : list (wop Item Val E)) s p spare sp,
  seen_spec (wrun ops) s = Some sp -> valid_ptr (wrun ops) p = true ->
  seen_spec (wrun (ops ++ [WAdd s p spare])) s = Some (fst (AddColumn (E := E) sp (resolve (wrun ops) p))).
Proof. exact @add_column. Qed.
Print Assumptions C52_add_column.

(** A copied Table stays the same table. *)
Theorem C52_table_copy : forall (Item Val E : Type) (pre post : list (wop Item Val E)) t, (t < length (wTables (wrun pre)))%nat ->
  seen_table (wrun (pre ++ WCopyTable t :: post)) (length (wTables (wrun pre))) = seen_table (wrun (pre ++ WCopyTable t :: post)) t.
Proof. exact @table_copy. Qed.
Print Assumptions C52_table_copy.

(** A copied TableSpec goes on sharing the names. *)
Theorem C52_spec_copy : forall (Item Val E : Type) (pre post : list (wop Item Val E)) s a b,
  let w := wrun (pre ++ WCopySpec s :: post) in
  (s < length (wSpecs (wrun pre)))%nat -> seen_spec w s = Some a -> seen_spec w (length (wSpecs (wrun pre))) = Some b ->
  forall name, HasColumn a name = HasColumn b name.
Proof. exact @spec_copy. Qed.
Print Assumptions C52_spec_copy.

(** Adding a column to a copy can replace a column of the original. *)
Theorem C52_spec_copy_refuted : exists (ops : list (wop unit unit unit)) p spare a b A B,
  seen_spec (wrun ops) 0 = Some a /\ seen_spec (wrun (ops ++ [WAdd 1 p spare])) 0 = Some b
  /\ nth_error (Columns a) 3 = Some (Some A) /\ nth_error (Columns b) 3 = Some (Some B) /\ colName A <> colName B.
Proof. exact spec_copy_refuted. Qed.
Print Assumptions C52_spec_copy_refuted.

(** A column changed in place changes wherever its pointer is, HasColumn keeps
    the names columns had when added, and recorded widths stay. *)
Theorem C52_set_column : forall (Item Val E : Type) (ops : list (wop Item Val E)) q col s a,
  (q < length (wCols (wrun ops)))%nat -> seen_spec (wrun ops) s = Some a ->
  let w := wrun ops in
  let w' := wrun (ops ++ [WSetColumn q col]) in
  exists b, seen_spec w' s = Some b
    /\ Columns a = map (resolve w) (pointers w s)
    /\ Columns b = map (fun p => match p with Some i => if Nat.eqb i q then Some col else resolve w p | None => None end) (pointers w s)
    /\ (forall name, HasColumn b name = HasColumn a name)
    /\ forall t T, seen_table w t = Some T -> exists T', seen_table w' t = Some T' /\ columnWidth T' = columnWidth T.
Proof. exact @set_column. Qed.
Print Assumptions C52_set_column.

(** Two tables on one spec: the column added through the second shows in the
    first, the width recorded in the second does not. *)
Example C52_example :
  let ops := [WColumn (named [x61]); WSpec; WTable (Some 0%nat)] ++ WTable (Some 0%nat)
             :: [WAdd 0 (Some 0%nat) 0; WUpdate 0 [([x61], 7)]; WUpdate 1 [([x61], 5)]] in
  Forall (fun o => plain_op o = true) ops
  /\ option_map (fun T => (length (Columns (tSpec T)), Width T [x61])) (seen_table (wrun ops) 0) = Some (1%nat, 7)
  /\ option_map (fun T => (length (Columns (tSpec T)), Width T [x61])) (seen_table (wrun ops) 1) = Some (1%nat, 5).
Proof. split; [repeat constructor|]. split; reflexivity. Qed.

Example C52_literal_example :
  let ops := [WColumn (named [x61]); WSpec; WAdd 0 (Some 0%nat) 0] ++ WLiteral 0 :: [WUpdate 0 [([x61], 7)]] in
  Forall (fun o => plain_op o = true) ops
  /\ option_map (fun T => (length (Columns (tSpec T)), Width T [x61], snd (UpdateWidth (E := unit) T [([x61], 7)]))) (seen_table (wrun ops) 0)
     = Some (1%nat, 0, Panic NilMapWrite).
Proof. split; [repeat constructor|reflexivity]. Qed.
