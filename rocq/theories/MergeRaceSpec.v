(** * MergeRaceSpec: merging rows while widths change. *)
From Verif Require Import GoBase Runewidth Width Table Merge TableContract MergeSpec TableRace MergeRace.
Local Open Scope Z_scope.

(** ** Programs *)

(** Whatever widths are read, the end is [a]. *)
Inductive Gives {A} : sprog A -> A -> Prop :=
| gv_ret a : Gives (SRet a) a
| gv_get name k a : (forall w, Gives (k w) a) -> Gives (SGet name k) a
| gv_check name w p a : Gives p a -> Gives (SCheck name w p) a
| gv_put name w p a : Gives p a -> Gives (SPut name w p) a.

(** The end if the widths stay as they are in [m]. *)
Fixpoint at_rest {A} (m : wmap) (p : sprog A) : A :=
  match p with
  | SRet a => a
  | SGet name k => at_rest m (k (m name))
  | SCheck _ _ q | SPut _ _ q => at_rest m q
  end.

(** A width that [name] had at the start or that was compared with it. *)
Definition had (m0 : wmap) (seen : list (str * Z)) (name : str) (w : Z) : Prop := w = m0 name \/ In (name, w) seen.

Section Types.
Context {Item Val E : Type}.
Notation Column := (Column Item Val E).

Definition mergeS (m : mode) : nat -> Condition -> list (option Column) -> (nat -> bool) ->
    SItemList E -> Z -> str -> bool -> sprog (run E) :=
  match m with H => MergeRowsHorizontalS | V => MergeRowsVerticalS end.

(** The rows do not depend on the widths, though [Get] may change these. *)
Definition Steady (items : SItemList E) (plain : FormattedItemList E) : Prop :=
  siLen items = fiLen plain /\ forall i, Gives (siGet items i) (fiGet plain i).

(** ** What may be printed *)
Definition reckoned_with (cols : list Column) (ws : list Z) (sep : str) : Z := zsum ws + slen cols * slen sep.
Definition estimate_with (cols : list Column) (ws : list Z) (sep : str) (maxWidth : Z) : Z :=
  Z.max 1 (((effective maxWidth + slen sep) mod 65536) / (reckoned_with cols ws sep mod 65536)).

(** The lines from the [l]-th on; [Ws l k] are the widths used in group [k] of line [l]. *)
Fixpoint printed_from c (cols : list Column) (sep : str) (g : nat) (Ws : nat -> nat -> list Z) (l : nat)
    (lines : list (list (list str))) : list str :=
  match lines with
  | [] => []
  | line :: rest => (line_text c cols sep (Ws l) g line ++ [x0a]) :: printed_from c cols sep g Ws (S l) rest
  end.

(** Every width in the printed blocks is a possible one ([F]) for its column. *)
Definition Possible (F : str -> Z -> Prop) (cols : list Column) (lines : list (list (list str))) (Ws : nat -> nat -> list Z) : Prop :=
  forall l k row, get2 lines l k = Some row -> Forall2 (fun col w => F (colName col) w) cols (Ws l k).

(** The search starts from [g0] groups and depends on the rows only; unless it
    finds more groups each cell is printed with a possible width. *)
Definition Printed (F : str -> Z -> Prop) (fuel : nat) c (cols : list Column) sep maxWidth m rows (compact : bool) (g0 : nat)
    (r : run E) : Prop :=
  (compact = true /\ r = {| written := []; stop := Running |} /\
   forall g, (g0 < g <= g0 + fuel)%nat -> Acceptable c cols sep maxWidth m rows g)
  \/ exists g lines Ws,
     (if compact then Search c cols sep maxWidth m rows g0 g else g = g0) /\ Layout m g rows lines /\
     r = {| written := printed_from c cols sep g Ws 0 lines; stop := Finished |} /\
     ((g = g0 /\ Possible F cols lines Ws)
      \/ ((g0 < g)%nat /\ exists W, GroupWidths c cols lines g W /\ forall l, Ws l = W)).

(** The estimate is made with possible widths [es]. *)
Definition Outcome (F : str -> Z -> Prop) (fuel : nat) c (cols : list Column) sep maxWidth m rows (compact : bool) (r : run E) : Prop :=
  exists es, Forall2 (fun col w => F (colName col) w) cols es /\
  ((reckoned_with cols es sep mod 65536 = 0 /\ r = {| written := []; stop := Panicked DivideByZero |})
   \/ (reckoned_with cols es sep mod 65536 <> 0 /\
       exists g0, Z.of_nat g0 = estimate_with cols es sep maxWidth /\ Printed F fuel c cols sep maxWidth m rows compact g0 r)).

(** ** Items formatted one by one *)

(** Each item of a line is formatted and then printed with the widths recorded
    at that moment; [t'] is the table afterwards. *)
Inductive OneByOne c (cols : list Column) : Table Item Val E -> list Item -> Table Item Val E -> list str -> Prop :=
| ob_nil t : OneByOne c cols t [] t []
| ob_cons t item line t1 row t' bs : FormatItem c t item = (t1, Ok row) -> OneByOne c cols t1 line t' bs ->
    OneByOne c cols t (item :: line) t' (block c cols (recorded t1 cols) row :: bs).
Inductive LineByLine c (cols : list Column) (sep : str) (g : nat) :
    Table Item Val E -> list (list Item) -> Table Item Val E -> list str -> Prop :=
| lb_nil t : LineByLine c cols sep g t [] t []
| lb_cons t line lines t1 bs t' out : OneByOne c cols t line t1 bs -> LineByLine c cols sep g t1 lines t' out ->
    LineByLine c cols sep g t (line :: lines) t'
      ((TableContract.join sep (bs ++ if (length line <? g)%nat then [[]] else []) ++ [x0a]) :: out).
End Types.
