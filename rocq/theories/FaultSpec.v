(** * FaultSpec: item lists some of whose items cannot be printed. *)
From Verif Require Import GoBase Table Merge TableContract MergeAsked.
Local Open Scope Z_scope.

Section Types.
Context {Item Val E : Type}.

(** Item [i] is [rows[i]] unless [fails i = Some p]: then [Get(i)] panics with
    [p], or returns fewer strings than there are columns, where reading past
    the end panics. *)
Record Faulty (t : Table Item Val E) (cols : list (Column Item Val E)) (items : FormattedItemList E)
    (rows : list (list str)) (fails : nat -> option panic_reason) : Prop := {
  fa_columns : Columns (tSpec t) = map Some cols;
  fa_len : fiLen items = slen rows;
  fa_get : forall i row, nth_error rows i = Some row ->
    match fails i with
    | None => fiGet items (Z.of_nat i) = Ok row /\ (length cols <= length row)%nat
    | Some p => fiGet items (Z.of_nat i) = Panic p
                \/ (p = IndexOutOfRange /\ exists short, fiGet items (Z.of_nat i) = Ok short /\ (length short < length cols)%nat)
    end
}.

(** Rows with their numbers. *)
Definition numbered {A} (rows : list A) : list (nat * A) := combine (seq 0 (length rows)) rows.
Definition faultless {A} (fails : nat -> option panic_reason) (l : list (nat * A)) : Prop := Forall (fun x => fails (fst x) = None) l.

(** Reading cell [i] of item [j] panics with [p]. *)
Definition BadCell (items : FormattedItemList E) (j i : nat) (p : panic_reason) : Prop :=
  fiGet items (Z.of_nat j) = Panic p
  \/ (p = IndexOutOfRange /\ exists row, fiGet items (Z.of_nat j) = Ok row /\ (length row <= i)%nat).
Definition GoodCell (items : FormattedItemList E) (j i : nat) : Prop :=
  exists row, fiGet items (Z.of_nat j) = Ok row /\ (i < length row)%nat.
(** The cells of numbered items in groups: group after group, in each column
    after column, down the lines. *)
Definition cell_order (ncols g : nat) (lines : list (list nat)) : list (nat * nat) :=
  flat_map (fun k => flat_map (fun i => map (fun j => (j, i)) (group lines k)) (seq 0 ncols)) (seq 0 g).
End Types.
