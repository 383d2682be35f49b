(** * CondHeap: Conditions in memory, with their lookup tables as slices.

    Runewidth.v treats a Condition as a value.  Here a Condition is a cell of
    memory that holds the header of its slice combinedLut
    (runewidth/runewidth.go:105-109), so that copying a Condition shares the
    table. *)
From Verif Require Import GoBase Runewidth.
Local Open Scope Z_scope.

(** A slice header: the array and the length; nil has length 0.  All slices
    start at the beginning of their array. *)
Record slice := { sArr : nat; sLen : nat }.
Record hcond := { hLut : slice; hEA : bool; hStrict : bool }.
Record heap := { arrays : list (list Z); conds : list hcond }.

(** Condition [k] as a value: what its methods read. *)
Definition value_of (h : heap) (k : hcond) : Condition :=
  {| combinedLut := firstn (sLen (hLut k)) (nth (sArr (hLut k)) (arrays h) []);
     EastAsianWidth := hEA k; StrictEmojiNeutral := hStrict k |}.

(** A list with its [i]th element replaced. *)
Fixpoint update {A} (l : list A) (i : nat) (a : A) : list A :=
  match l, i with
  | [], _ => []
  | _ :: l, O => a :: l
  | x :: l, S i => x :: update l i a
  end.
Definition set_cond (h : heap) (i : nat) (k : hcond) : heap :=
  {| arrays := arrays h; conds := update (conds h) i k |}.

(** runewidth/runewidth.go:165-181, [CreateLUT] on condition [i]: an existing
    table is overwritten in place (:168-170), otherwise one is allocated
    (:172).  While the loop runs, c.combinedLut is empty, so the entries come
    from the tables, not from the array being filled. *)
Definition lut_entries (ea st : bool) (n : nat) : list Z :=
  let c0 := {| combinedLut := []; EastAsianWidth := ea; StrictEmojiNeutral := st |} in
  map (fun i => Z.lor (u8 (RuneWidth c0 (Z.of_nat i * 2)))
                      (u8 (Z.shiftl (u8 (RuneWidth c0 (Z.of_nat i * 2 + 1))) 4))) (seq 0 n).
Definition createLUT (h : heap) (i : nat) : heap :=
  match nth_error (conds h) i with
  | None => h
  | Some k =>
    let n := sLen (hLut k) in
    if (n =? 0)%nat then
      {| arrays := arrays h ++ [lut_entries (hEA k) (hStrict k) (Z.to_nat (0x110000 / 2))];
         conds := update (conds h) i
           {| hLut := {| sArr := length (arrays h); sLen := Z.to_nat (0x110000 / 2) |};
              hEA := hEA k; hStrict := hStrict k |} |}
    else
      {| arrays := update (arrays h) (sArr (hLut k))
           (lut_entries (hEA k) (hStrict k) n ++ skipn n (nth (sArr (hLut k)) (arrays h) []));
         conds := conds h |}
  end.

(** What a client can do.  [HNew]: a composite literal or NewCondition
    (runewidth/runewidth.go:112-117); [HCopy], [HAssign]: c2 := *c1 and
    *c1 = *c2; [HFlags]: assigning the exported fields; [HEnv]: handleEnv
    (:29-44) with DefaultCondition pointing to condition [i]. *)
Inductive hop :=
| HNew (ea st : bool)
| HCopy (i : nat)
| HAssign (i j : nat)
| HFlags (i : nat) (ea st : bool)
| HLUT (i : nat)
| HEnv (i : nat) (env : str) (isEastAsian : bool).

(** The operations on conditions in memory: runewidth/runewidth.go:29-50, :112-118, :165-181; copying a struct and setting its fields. *)
Definition hstep (h : heap) (o : hop) : heap :=
  match o with
  | HNew ea st => {| arrays := arrays h;
      conds := conds h ++ [{| hLut := {| sArr := 0; sLen := 0 |}; hEA := ea; hStrict := st |}] |}
  | HCopy i =>
    match nth_error (conds h) i with
    | Some k => {| arrays := arrays h; conds := conds h ++ [k] |}
    | None => h
    end
  | HAssign i j =>
    match nth_error (conds h) j with Some k => set_cond h i k | None => h end
  | HFlags i ea st =>
    match nth_error (conds h) i with
    | Some k => set_cond h i {| hLut := hLut k; hEA := ea; hStrict := st |}
    | None => h
    end
  | HLUT i => createLUT h i
  | HEnv i env isEastAsian =>
    match nth_error (conds h) i with
    | None => h
    | Some k =>
      let ea := match env with [] => isEastAsian | _ => str_eqb env [x31] end in
      if negb (Bool.eqb (hEA k) ea) then
        if (0 <? sLen (hLut k))%nat then
          (* :40 combinedLut[:0], :41 CreateLUT, which finds it empty (:207) *)
          createLUT (set_cond h i {| hLut := {| sArr := sArr (hLut k); sLen := 0 |}; hEA := ea; hStrict := hStrict k |}) i
        else set_cond h i {| hLut := hLut k; hEA := ea; hStrict := hStrict k |}
      else h
    end
  end.
Definition hrun (ops : list hop) : heap := fold_left hstep ops {| arrays := []; conds := [] |}.
