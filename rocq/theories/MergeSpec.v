(** * MergeSpec: what merging rows should print. *)
From Verif Require Import GoBase Runewidth Width TextSpec AlignSpec Table Merge TableContract.
Local Open Scope Z_scope.

(** ** Layouts *)
Inductive mode := H | V.

(** Rows of length [w], except that the last may be shorter; none empty. *)
Definition Rectangle {A} (w : nat) (rs : list (list A)) : Prop :=
  Forall (fun r => r <> [] /\ (length r <= w)%nat) rs
  /\ forall pre r r' post, rs = pre ++ r :: r' :: post -> length r = w.

Definition get2 {A} (m : list (list A)) (i j : nat) : option A :=
  match nth_error m i with Some r => nth_error r j | None => None end.

(** Line by line, [g] to a line. *)
Definition HorizontalLayout {A} (g : nat) (rows : list A) (lines : list (list A)) : Prop :=
  concat lines = rows /\ Rectangle g lines.

(** Column by column, at most [g] columns, with as few lines as possible. *)
Definition VerticalLayout {A} (g : nat) (rows : list A) (lines : list (list A)) : Prop :=
  exists columns, concat columns = rows /\ Rectangle (length lines) columns
    /\ (length columns <= g)%nat
    /\ (forall l k, get2 lines l k = get2 columns k l) /\ Forall (fun line => line <> []) lines
    /\ ((length lines - 1) * g < length rows)%nat.

(** What the functions lay out; without items a line without items is laid
    out if there is room for two or more. *)
Definition Layout {A} (m : mode) (g : nat) (rows : list A) (lines : list (list A)) : Prop :=
  (rows <> [] /\ match m with H => HorizontalLayout g rows lines | V => VerticalLayout g rows lines end)
  \/ (rows = [] /\ lines = if (2 <=? g)%nat then [[]] else []).

Section Types.
Context {Item Val E : Type}.

(** The function of that mode. *)
Definition merge (m : mode) : nat -> Condition -> Table Item Val E -> (nat -> bool) ->
    FormattedItemList E -> Z -> str -> bool -> run E :=
  match m with H => MergeRowsHorizontal | V => MergeRowsVertical end.

(** [items] gives access to [rows]. *)
Definition Serves (items : FormattedItemList E) (rows : list (list str)) : Prop :=
  fiLen items = slen rows
  /\ forall i row, nth_error rows i = Some row -> fiGet items (Z.of_nat i) = Ok row.

(** What a table and a list of items must satisfy to be printed: no nil
    column, and a string for every column in every item. *)
Record Printable (t : Table Item Val E) (cols : list (Column Item Val E))
    (items : FormattedItemList E) (rows : list (list str)) : Prop := {
  pr_columns : Columns (tSpec t) = map Some cols;
  pr_serves : Serves items rows;
  pr_long : Forall (fun row => (length cols <= length row)%nat) rows
}.

Definition recorded (t : Table Item Val E) (cols : list (Column Item Val E)) : list Z :=
  map (fun col => Width t (colName col)) cols.

(** ** Text *)

(** A column without alignment is left aligned. *)
Definition alignment_of (c : Condition) (col : Column Item Val E) : str -> Z -> str :=
  match colAlignment col with Some f => f | None => AlignmentLeft c end.

Fixpoint cells (c : Condition) (cols : list (Column Item Val E)) (ws : list Z) (row : list str) : list str :=
  match cols, ws, row with
  | col :: cols, w :: ws, s :: row => alignment_of c col s w :: cells c cols ws row
  | _, _, _ => []
  end.
Definition block c cols ws row : str := TableContract.join [space] (cells c cols ws row).

(** The blocks of a line; [W k] are the widths of group [k]. *)
Fixpoint blocks_from c cols (W : nat -> list Z) (k : nat) (line : list (list str)) : list str :=
  match line with
  | [] => []
  | row :: line => block c cols (W k) row :: blocks_from c cols W (S k) line
  end.
Definition blocks c cols W line := blocks_from c cols W 0 line.

(** A line short of [g] blocks gets one separator at its end. *)
Definition line_text c cols (sep : str) W (g : nat) (line : list (list str)) : str :=
  TableContract.join sep (blocks c cols W line ++ if (length line <? g)%nat then [[]] else []).
Definition printed c cols sep W g (lines : list (list (list str))) : list str :=
  map (fun line => line_text c cols sep W g line ++ [x0a]) lines.

(** ** Group counts *)

(** maxWidth as the functions take it. *)
Definition effective (maxWidth : Z) : Z := if maxWidth >? 65535 then 65535 else maxWidth mod 65536.

(** What one item is reckoned to take, with a separator. *)
Definition reckoned (t : Table Item Val E) (cols : list (Column Item Val E)) (sep : str) : Z :=
  zsum (recorded t cols) + slen cols * slen sep.

(** The estimated number of groups. *)
Definition estimate (t : Table Item Val E) cols (sep : str) (maxWidth : Z) : Z :=
  Z.max 1 (((effective maxWidth + slen sep) mod 65536) / (reckoned t cols sep mod 65536)).

(** ** Compact layouts *)

(** [W k] are the greatest widths in the cells of group [k]. *)
Definition GroupWidths (c : Condition) (cols : list (Column Item Val E)) (lines : list (list (list str)))
    (g : nat) (W : nat -> list Z) : Prop :=
  forall k, (k < g)%nat -> length (W k) = length cols /\
  forall i w, nth_error (W k) i = Some w ->
  IsMax (fun x => x = 0 \/ exists line row s, In line lines /\ nth_error line k = Some row
                   /\ nth_error row i = Some s /\ x = vwidth c s) w.

(** Blocks, one space between cells, one separator between blocks. *)
Definition total (sep : str) (cols : list (Column Item Val E)) (W : nat -> list Z) (g : nat) : Z :=
  slen sep * (Z.of_nat g - 1) + (slen cols - 1) * Z.of_nat g
  + zsum (map (fun k => zsum (W k)) (seq 0 g)).

(** The total of the compact layout with [g] groups. *)
Definition CompactTotal c cols sep m rows g (w : Z) : Prop :=
  exists lines W, Layout m g rows lines /\ GroupWidths c cols lines g W /\ w = total sep cols W g.

(** [g] groups are worth considering: vertically, the last must not be empty. *)
Definition Worth (m : mode) (rows : list (list str)) (g : nat) : Prop :=
  match m with
  | H => True
  | V => forall lines, Layout m g rows lines -> exists line, In line lines /\ length line = g
  end.
Definition Acceptable c cols sep maxWidth m rows g : Prop :=
  Worth m rows g /\
  exists w, CompactTotal c cols sep m rows g w /\ w mod 65536 <= effective maxWidth.

(** The compact search: from [g0] on, as many more groups as are acceptable one
    after the other. *)
Definition Search c cols sep maxWidth m rows (g0 g : nat) : Prop :=
  (g0 <= g)%nat
  /\ (forall g', (g0 < g' <= g)%nat -> Acceptable c cols sep maxWidth m rows g')
  /\ ~ Acceptable c cols sep maxWidth m rows (S g).

(** The widths used: those recorded, unless the search found more groups. *)
Definition Chosen c (t : Table Item Val E) cols (g0 g : nat) lines (W : nat -> list Z) : Prop :=
  (g = g0 /\ W = fun _ => recorded t cols) \/ ((g0 < g)%nat /\ GroupWidths c cols lines g W).

(** ** Line widths *)

(** Texts that measure on their own. *)
Definition Isolated (s : str) : Prop := ~ JoinsPrevious s /\ ~ JoinsNext s.
Definition BuiltIn (c : Condition) (col : Column Item Val E) : Prop :=
  colAlignment col = None \/ exists a, colAlignment col = Some (align a c).
(** Every cell is at most as wide as recorded for its column. *)
Definition FitsRecorded c (t : Table Item Val E) (cols : list (Column Item Val E)) (rows : list (list str)) : Prop :=
  forall row i s col, In row rows -> nth_error row i = Some s -> nth_error cols i = Some col ->
  vwidth c s <= Width t (colName col).
Definition IsolatedCells (cols : list (Column Item Val E)) (rows : list (list str)) : Prop :=
  forall row i s, In row rows -> nth_error row i = Some s -> (i < length cols)%nat -> Isolated s.

(** The cells of group [k] and the spaces between them. *)
Definition group_width (cols : list (Column Item Val E)) (W : nat -> list Z) (k : nat) : Z := zsum (W k) + (slen cols - 1).
(** All groups and separators before group [k]. *)
Definition start_of c (cols : list (Column Item Val E)) sep (W : nat -> list Z) (k : nat) : Z :=
  zsum (map (fun j => group_width cols W j + StringWidth c sep) (seq 0 k)).

(** ** The whole output *)

(** What is to be printed: [g] groups of widths [W], in [lines]. *)
Definition Plan c (t : Table Item Val E) cols sep maxWidth m rows (compact : bool)
    (g : nat) (lines : list (list (list str))) (W : nat -> list Z) : Prop :=
  exists g0, Z.of_nat g0 = estimate t cols sep maxWidth
    /\ (if compact then Search c cols sep maxWidth m rows g0 g else g = g0)
    /\ Layout m g rows lines /\ Chosen c t cols g0 g lines W.
End Types.
