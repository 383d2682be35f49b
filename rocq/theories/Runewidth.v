(** * Runewidth: model of package runewidth (runewidth.go). *)
From Verif Require Import GoBase Utf8 Uniseg RuneWidthData.
Local Open Scope Z_scope.

(** runewidth/runewidth.go:46-51. *)
Notation interval := (Z * Z)%type.
Notation table := (list interval).

(** runewidth/runewidth.go:69-80, the [for top >= bot] loop of [inTable].
    [None] = index out of range or out of fuel, proved unreachable. *)
Fixpoint inTable_loop (fuel : nat) (t : table) (r bot top : Z) : option bool :=
  match fuel with
  | O => None
  | S f =>
    if top >=? bot then
      let mid := Z.shiftr (bot + top) 1 in
      match at_index t mid with
      | None => None
      | Some (first, last) =>
        if last <? r then inTable_loop f t r (mid + 1) top
        else if first >? r then inTable_loop f t r bot (mid - 1)
        else Some true
      end
    else Some false
  end.

(** runewidth/runewidth.go:62-83, [inTable]; [None] is a panic ([t[0]] of an
    empty table, or an index out of range). *)
Definition inTable_go (r : Z) (t : table) : option bool :=
  match t with
  | [] => None
  | (first0, _) :: _ =>
    if r <? first0 then Some false
    else inTable_loop (S (length t)) t r 0 (slen t - 1)
  end.

(** [inTable] as a boolean; the panicking case is proved unreachable for
    every table of the package. *)
Definition inTable (r : Z) (t : table) : bool :=
  match inTable_go r t with Some b => b | None => false end.

(** runewidth/runewidth.go:53-60, [inTables]. *)
Fixpoint inTables (r : Z) (ts : list table) : bool :=
  match ts with
  | [] => false
  | t :: rest => if inTable r t then true else inTables r rest
  end.

(** runewidth/runewidth.go:105-109, [Condition]. *)
Record Condition := {
  combinedLut : list Z;          (* []byte *)
  EastAsianWidth : bool;
  StrictEmojiNeutral : bool
}.

(** runewidth/runewidth.go:129-159, the table-driven part of [RuneWidth]
    (no lookup table in force). *)
Definition RuneWidth_tables (eastAsian strictEmoji : bool) (r : Z) : Z :=
  if negb eastAsian then
    if r <? 0x20 then 0
    else if ((r >=? 0x7F) && (r <=? 0x9F)) || (r =? 0xAD) then 0
    else if r <? 0x300 then 1
    else if inTable r tbl_narrow then 1
    else if inTables r [tbl_nonprint; tbl_combining] then 0
    else if inTable r tbl_doublewidth then 2
    else 1
  else
    if inTables r [tbl_nonprint; tbl_combining] then 0
    else if inTable r tbl_narrow then 1
    else if inTables r [tbl_ambiguous; tbl_doublewidth] then 2
    else if negb strictEmoji && inTables r [tbl_ambiguous; tbl_emoji; tbl_narrow] then 2
    else 1.

(** runewidth/runewidth.go:121-160, [(c *Condition) RuneWidth].  The
    out-of-range default of [nth] is proved unreachable: [CreateLUT] always
    installs 0x110000/2 entries. *)
Definition RuneWidth (c : Condition) (r : Z) : Z :=
  if (r <? 0) || (r >? 0x10FFFF) then 0
  else if 0 <? slen (combinedLut c) then
    Z.land (Z.shiftr (nth (Z.to_nat (Z.shiftr r 1)) (combinedLut c) 0)
                     (Z.land r 1 * 4)) 3
  else RuneWidth_tables (EastAsianWidth c) (StrictEmojiNeutral c) r.

(** [uint8(x)] *)
Definition u8 (x : Z) : Z := x mod 256.

(** runewidth/runewidth.go:165-181, [(c *Condition) CreateLUT].  While the
    loop runs, [c.combinedLut] is nil (line 170) or empty, so the widths come
    from the tables; the loop covers [range lut], i.e. the old length when a
    table existed, 0x110000/2 otherwise. *)
Definition CreateLUT (c : Condition) : Condition :=
  let n := if negb (slen (combinedLut c) =? 0)
           then length (combinedLut c)
           else Z.to_nat (0x110000 / 2) in
  let c0 := {| combinedLut := []; EastAsianWidth := EastAsianWidth c;
               StrictEmojiNeutral := StrictEmojiNeutral c |} in
  let entry (i : nat) :=
    let i32 := Z.of_nat i * 2 in
    let x0 := RuneWidth c0 i32 in
    let x1 := RuneWidth c0 (i32 + 1) in
    Z.lor (u8 x0) (u8 (Z.shiftl (u8 x1) 4)) in
  {| combinedLut := map entry (seq 0 n); EastAsianWidth := EastAsianWidth c;
     StrictEmojiNeutral := StrictEmojiNeutral c |}.

(** runewidth/runewidth.go:187-193: the width of one cluster is the width of
    its first rune of non-zero width, or the width (0) of its last rune. *)
Fixpoint cluster_width_from (c : Condition) (chWidth : Z) (rs : list Z) : Z :=
  match rs with
  | [] => chWidth
  | r :: rest =>
    let w := RuneWidth c r in
    if w >? 0 then w else cluster_width_from c w rest
  end.
Definition cluster_width (c : Condition) (rs : list Z) : Z := cluster_width_from c 0 rs.

(** runewidth/runewidth.go:184-197, [(c *Condition) StringWidth].  [None] is
    fuel exhaustion of the iteration, proved unreachable. *)
Definition StringWidth_go (c : Condition) (s : str) : option Z :=
  match iterate (S (length s)) (NewGraphemes s) with
  | Some gs => Some (fold_left (fun width g => width + cluster_width c (Runes g)) gs 0)
  | None => None
  end.
Definition StringWidth (c : Condition) (s : str) : Z :=
  match StringWidth_go c s with Some w => w | None => 0 end.

(** ** Package state: runewidth/runewidth.go:11-23. *)
Record Globals := {
  gEastAsianWidth : bool;
  gStrictEmojiNeutral : bool;
  DefaultCondition : Condition
}.

(** Package state before [init] runs. *)
Definition globals0 : Globals :=
  {| gEastAsianWidth := false; gStrictEmojiNeutral := true;
     DefaultCondition := {| combinedLut := []; EastAsianWidth := false;
                            StrictEmojiNeutral := true |} |}.

(** runewidth/runewidth.go:206-211, package-level [CreateLUT]. *)
Definition CreateLUT_default (g : Globals) : Globals :=
  if 0 <? slen (combinedLut (DefaultCondition g)) then g
  else {| gEastAsianWidth := gEastAsianWidth g;
          gStrictEmojiNeutral := gStrictEmojiNeutral g;
          DefaultCondition := CreateLUT (DefaultCondition g) |}.

(** runewidth/runewidth.go:29-44, [handleEnv] (called by [init], :25-27).
    [env] is the value of RUNEWIDTH_EASTASIAN ("" when unset) and
    [isEastAsian] the value [IsEastAsian()] would return. *)
Definition handleEnv (env : str) (isEastAsian : bool) (g : Globals) : Globals :=
  let ea := match env with
            | [] => isEastAsian
            | _ => str_eqb env [x31]          (* env == "1" *)
            end in
  let d := DefaultCondition g in
  if negb (Bool.eqb (EastAsianWidth d) ea) then
    let d' := {| combinedLut := combinedLut d; EastAsianWidth := ea;
                 StrictEmojiNeutral := StrictEmojiNeutral d |} in
    if 0 <? slen (combinedLut d') then
      CreateLUT_default
        {| gEastAsianWidth := ea; gStrictEmojiNeutral := gStrictEmojiNeutral g;
           DefaultCondition := {| combinedLut := []; EastAsianWidth := ea;
                                  StrictEmojiNeutral := StrictEmojiNeutral d |} |}
    else {| gEastAsianWidth := ea; gStrictEmojiNeutral := gStrictEmojiNeutral g;
            DefaultCondition := d' |}
  else {| gEastAsianWidth := ea; gStrictEmojiNeutral := gStrictEmojiNeutral g;
          DefaultCondition := d |}.

(** runewidth/runewidth.go:112-117, [NewCondition]. *)
Definition NewCondition (g : Globals) : Condition :=
  {| combinedLut := []; EastAsianWidth := gEastAsianWidth g;
     StrictEmojiNeutral := gStrictEmojiNeutral g |}.

(** runewidth/runewidth.go:200-202, package-level [StringWidth]. *)
Definition StringWidth_default (g : Globals) (s : str) : Z :=
  StringWidth (DefaultCondition g) s.
