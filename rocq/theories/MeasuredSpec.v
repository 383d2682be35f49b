(** * MeasuredSpec: runs in which every measurement may return anything. *)
From Verif Require Import GoBase Runewidth Width AlignSpec Table TableContract Merge MergeSpec Cached CachedSpec.
Local Open Scope Z_scope.

(** [a] may be the result if each call of visualWidth may return any uint16,
    not always the same for the same string. *)
Inductive may {A} : prog A -> A -> Prop :=
| may_ret a : may (Ret a) a
| may_call s k w a : 0 <= w < 65536 -> may (k w) a -> may (Call s k) a.

(** The same for a program that writes: its output and result. *)
Inductive unsure {A} (ok : nat -> bool) : nat -> wprog A -> list str -> A -> Prop :=
| un_ret n a : unsure ok n (WRet a) [] a
| un_call n s k w out a : 0 <= w < 65536 -> unsure ok n (k w) out a -> unsure ok n (WCall s k) out a
| un_write n txt k out a : unsure ok (S n) (k (ok n)) out a ->
    unsure ok n (Write txt k) (if ok n then txt :: out else out) a.

(** ** The cached visualWidth while the display condition changes *)
Definition Uints (m : cache) : Prop := forall s v, In (s, v) m -> 0 <= v < 65536.

(** Each call finds any condition; between two steps other goroutines may do
    anything to the cache. *)
Inductive drifting {A} (ok : nat -> bool) : cache -> nat -> wprog A -> list str -> A -> Prop :=
| dr_ret m n a : drifting ok m n (WRet a) [] a
| dr_call m n c keep s k out a :
    drifting ok (snd (visualWidth c keep m s)) n (k (fst (visualWidth c keep m s))) out a ->
    drifting ok m n (WCall s k) out a
| dr_write m n txt k out a : drifting ok m (S n) (k (ok n)) out a ->
    drifting ok m n (Write txt k) (if ok n then txt :: out else out) a
| dr_other m m' n p out a : Uints m' -> drifting ok m' n p out a -> drifting ok m n p out a.

(** ** Padding *)

(** [x] is [s] padded with [n] spaces, on the side the alignment leaves. *)
Definition PaddedBy (a : alignment) (n : Z) (s x : str) : Prop :=
  match a with
  | ALeft => x = s ++ repeat space (Z.to_nat n)
  | ARight => x = repeat space (Z.to_nat n) ++ s
  | ACenter => x = repeat space (Z.to_nat ((n + 1) / 2)) ++ s ++ repeat space (Z.to_nat (n / 2))
  end.

Definition alignP (a : alignment) : str -> Z -> prog str :=
  match a with ALeft => alignLeftP | ARight => alignRightP | ACenter => alignCenterP end.

(** Cell by cell, with up to so many spaces. *)
Inductive CellsMay : list alignment -> list Z -> list str -> list str -> Prop :=
| cm_nil row : CellsMay [] [] row []
| cm_cons a als w ws s row n x xs : 0 <= n <= w -> PaddedBy a n s x -> CellsMay als ws row xs ->
    CellsMay (a :: als) (w :: ws) (s :: row) (x :: xs).

(** Blocks, from group [k]. *)
Inductive BlocksMay (als : list alignment) (W : nat -> list Z) : nat -> list (list str) -> list str -> Prop :=
| bm_nil k : BlocksMay als W k [] []
| bm_cons k row line xs bs : CellsMay als (W k) row xs -> BlocksMay als W (S k) line bs ->
    BlocksMay als W k (row :: line) (TableContract.join [space] xs :: bs).

(** A line of up to [g] blocks. *)
Definition LineMay (als : list alignment) (sep : str) (W : nat -> list Z) (g : nat) (line : list (list str)) (txt : str) : Prop :=
  exists bs, BlocksMay als W 0 line bs
  /\ txt = TableContract.join sep (bs ++ if (length line <? g)%nat then [[]] else []) ++ [x0a].

Section Types.
Context {Item Val E : Type}.

Definition mergeP (m : mode) : nat -> PTable Item Val E -> PItems E -> Z -> str -> bool -> wprog (status E) :=
  match m with H => mergeHP | V => mergeVP end.

(** The columns have these built-in alignments; nil is left. *)
Definition Aligns (als : list alignment) (cols : list (PColumn Item Val E)) : Prop :=
  Forall2 (fun a col => pcAlignment col = Some (alignP a) \/ (a = ALeft /\ pcAlignment col = None)) als cols.

(** The list has these rows, and measures nothing in getting them. *)
Record Holds (items : PItems E) (rows : list (list str)) : Prop := {
  ho_len : piLen items = slen rows;
  ho_get : forall i row, nth_error rows i = Some row -> piGet items (Z.of_nat i) = Ret (Ok row)
}.

Record CanPrint (t : PTable Item Val E) (cols : list (PColumn Item Val E)) (als : list alignment)
    (items : PItems E) (rows : list (list str)) : Prop := {
  cp_columns : ptColumns t = map Some cols;
  cp_aligns : Aligns als cols;
  cp_holds : Holds items rows;
  cp_long : Forall (fun row => (length cols <= length row)%nat) rows;
  cp_widths : forall col, In col cols -> 0 <= widthP t (pcName col) < 65536
}.

Definition recordedP (t : PTable Item Val E) (cols : list (PColumn Item Val E)) : list Z := map (fun col => widthP t (pcName col)) cols.
Definition reckonedP (t : PTable Item Val E) (cols : list (PColumn Item Val E)) (sep : str) : Z := zsum (recordedP t cols) + slen cols * slen sep.
Definition estimateP (t : PTable Item Val E) (cols : list (PColumn Item Val E)) (sep : str) (maxWidth : Z) : Z :=
  Z.max 1 (((effective maxWidth + slen sep) mod 65536) / (reckonedP t cols sep mod 65536)).

(** What a merge into [g] groups with widths [W] may write. *)
Definition MayPrint (als : list alignment) (sep : str) (m : mode) (rows : list (list str)) (g : nat) (W : nat -> list Z)
    (out : list str) : Prop :=
  exists lines, Layout m g rows lines /\ Forall2 (LineMay als sep W g) lines out.
(** Widths of [g] groups, each a uint16. *)
Definition InRange (W : nat -> list Z) (g : nat) : Prop := forall k, (k < g)%nat -> Forall (fun w => 0 <= w < 65536) (W k).

(** The columns' getters give these strings for the item, measuring nothing. *)
Definition Quiet (t : PTable Item Val E) (item : Item) (row : list str) : Prop :=
  Forall2 (fun oc s => exists col g v, oc = Some col /\ pcGetter col = Some g
    /\ pgValue g item = Ret (Ok v) /\ pgFormat g item v = Ret (Ok s)) (ptColumns t) row.
(** [t'] is [t] with greater widths; those that changed are uint16. *)
Definition Grows (t t' : PTable Item Val E) : Prop :=
  ptColumns t' = ptColumns t /\ (exists mp, ptWidth t' = Some mp)
  /\ forall n, widthP t n <= widthP t' n /\ (widthP t' n = widthP t n \/ 0 <= widthP t' n < 65536).

End Types.
