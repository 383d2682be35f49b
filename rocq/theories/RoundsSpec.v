(** * RoundsSpec: the texts measured by merging. *)
From Verif Require Import GoBase Runewidth Width Table Merge MergeSpec MergeAsked Cached CachedSpec HeaderSpec.
Local Open Scope Z_scope.

(** The cells shown: of each row, one per column. *)
Definition shown (ncols : nat) (rows : list (list str)) : list str := concat (map (firstn ncols) rows).

(** The cells of column [i]. *)
Definition column_of (i : nat) (rows : list (list str)) : list str :=
  flat_map (fun row => match nth_error row i with Some s => [s] | None => [] end) rows.

(** A round of the compact search: laid out in [g] groups, group after group,
    in each group column after column, in each column from the first line to
    the last. *)
Definition Round (m : mode) (ncols g : nat) (rows : list (list str)) (r : list str) : Prop :=
  exists lines, Layout m g rows lines
    /\ r = flat_map (fun k => flat_map (fun i => column_of i (group lines k)) (seq 0 ncols)) (seq 0 g).

Section Types.
Context {Item Val E : Type}.

Definition mergeP (m : mode) : nat -> PTable Item Val E -> PItems E -> Z -> str -> bool -> wprog (status E) :=
  match m with H => mergeHP | V => mergeVP end.

(** The list has these rows and measures nothing itself. *)
Definition Holds (items : PItems E) (rows : list (list str)) : Prop :=
  piLen items = Z.of_nat (length rows)
  /\ forall i row, nth_error rows i = Some row -> piGet items (Z.of_nat i) = Ret (Ok row).

(** The rounds of a search that began with [g0] groups and ended with [g]:
    one more number of groups after the other; the last, which was rejected,
    is not measured if vertically its last group would be empty. *)
Definition Rounds (m : mode) (ncols : nat) (rows : list (list str)) (g0 g : nat) (rounds : list (list str)) : Prop :=
  exists n, Forall2 (fun g' r => Round m ncols g' rows r) (seq (S g0) n) rounds
    /\ ((Worth m rows (S g) /\ n = S (g - g0)) \/ (~ Worth m rows (S g) /\ n = (g - g0)%nat)).

(** The table and its columns when visualWidth is [vwidth c]. *)
Definition plainTable (c : Condition) (t : PTable Item Val E) : Table Item Val E :=
  {| tSpec := {| ColumnByName := None; TimeFormat := []; Columns := map (option_map (plainColumn (vwidth c))) (ptColumns t) |};
     columnWidth := ptWidth t |}.
Definition plainColumns (c : Condition) (cols : list (PColumn Item Val E)) : list (Column Item Val E) := map (plainColumn (vwidth c)) cols.
End Types.

Section Others.
Context {Item Val E : Type}.

(** A function that only measures, as a program of its own. *)
Definition alone {A} (p : prog A) : wprog A := first p WRet.

(** The cells of columns that have an alignment. *)
Definition aligned (cols : list (PColumn Item Val E)) (row : list str) : list str :=
  flat_map (fun '(col, s) => match pcAlignment col with Some _ => [s] | None => [] end) (combine cols row).
(** The titles, as cut to the widths recorded, of columns that have one. *)
Definition titles (t : PTable Item Val E) (cols : list (PColumn Item Val E)) : list str :=
  flat_map (fun col => let width := wread (ptWidth t) (pcName col) in
    if width =? 0 then [] else [first_fitting slen width (pcTitle col) (pcShortTitle col)]) cols.
End Others.
