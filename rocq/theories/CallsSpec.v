(** * CallsSpec: what the table's functions may ask of the objects given to
    them. *)
From Verif Require Import GoBase Runewidth Width Table Merge TableContract MergeSpec MergeAsked Calls.
Local Open Scope Z_scope.

Section Spec.
Context {Item Val E G L : Type}.
Notation kcol := (kcol G L).
Notation act := (act Item Val E G L).
Notation environment := (environment Item Val E G L).

(** ** Widths *)
(** Nothing called makes a recorded width smaller; nothing called changes one. *)
Definition Grows {W} (env : environment W) : Prop :=
  forall q w m n, m n <= (snd (fst (env q w m))) n.
Definition Quiet {W} (env : environment W) : Prop :=
  forall q w m, snd (fst (env q w m)) = m.

(** ** Formatting *)
(** An outcome other than success is passed on. *)
Definition PassedOn {A B} (o : outcome E A) (r : outcome E B) : Prop :=
  match o, r with
  | Err e, Err e' => e = e'
  | Panic p, Panic p' => p = p'
  | _, _ => False
  end.
Definition lacksGetter (col : option kcol) : Prop := match col with Some k => kGetter k = None | None => True end.

(** A column of an item, formatted. *)
Record fcell := { fcCol : kcol; fcGetter : G; fcValue : Val; fcText : str }.
Definition fcell_acts (c : Condition) (item : Item) (x : fcell) : list act :=
  [Called (CValue (fcGetter x) item) (Ok (fcValue x));
   Called (CFormat (fcGetter x) item (fcValue x)) (Ok (fcText x));
   Raised (kName (fcCol x)) (vwidth c (fcText x))].
(** Column after column, up to the first that fails. *)
Definition FormatActs (c : Condition) (item : Item) (cols : list (option kcol)) (tr : list act) (r : outcome E (list str)) : Prop :=
  exists done rest tail, cols = map (fun x => Some (fcCol x)) done ++ rest /\
    Forall (fun x => kGetter (fcCol x) = Some (fcGetter x)) done /\ tr = flat_map (fcell_acts c item) done ++ tail /\
    ((rest = [] /\ tail = [] /\ r = Ok (map fcText done))
     \/ (exists col more, rest = col :: more /\ lacksGetter col /\ tail = [] /\ r = Panic NilDereference)
     \/ (exists k g more, rest = Some k :: more /\ kGetter k = Some g /\
          ((exists o, tail = [Called (CValue g item) o] /\ PassedOn o r)
           \/ (exists v o, tail = [Called (CValue g item) (Ok v); Called (CFormat g item v) o] /\ PassedOn o r)))).

(** The same for the plain strings. *)
Record scell := { scCol : kcol; scGetter : G; scText : str }.
Definition BasicActs (item : Item) (sep : str) (cols : list (option kcol)) (tr : list act) (r : outcome E str) : Prop :=
  exists done rest tail, cols = map (fun x => Some (scCol x)) done ++ rest /\
    Forall (fun x => kGetter (scCol x) = Some (scGetter x)) done /\
    tr = map (fun x => Called (CString (scGetter x) (kName (scCol x)) item) (Ok (scText x))) done ++ tail /\
    ((rest = [] /\ tail = [] /\ r = Ok (TableContract.join sep (map scText done)))
     \/ (exists col more, rest = col :: more /\ lacksGetter col /\ tail = [] /\ r = Panic NilDereference)
     \/ (exists k g more o, rest = Some k :: more /\ kGetter k = Some g /\ tail = [Called (CString g (kName k) item) o] /\ PassedOn o r)).

(** A cell aligned: the text, the width at that moment, what came back.
    [recorded]: the width is looked up in the table. *)
Record kcell := { kcCol : kcol; kcText : str; kcWidth : Z; kcOut : str }.
Definition align_acts (x : kcell) : list act :=
  match kAlign (kcCol x) with
  | Some al => [Looked (kName (kcCol x)) (kcWidth x); Called (CAlign al (kcText x) (kcWidth x)) (Ok (kcOut x))]
  | None => []
  end.
Definition align_ok (x : kcell) : Prop := kAlign (kcCol x) = None -> kcOut x = kcText x.
Definition AlignActs (cols : list (option kcol)) (formatted : list str) (tr : list act)
    (slice : list str) (r : outcome (Z * Z) (list str)) : Prop :=
  exists done rest todo tail, cols = map (fun x => Some (kcCol x)) done ++ rest /\ formatted = map kcText done ++ todo /\
    Forall align_ok done /\ tr = flat_map align_acts done ++ tail /\ slice = map kcOut done ++ todo /\
    ((rest = [] /\ todo = [] /\ tail = [] /\ r = Ok slice)
     \/ (exists more, rest = None :: more /\ tail = [] /\ r = Panic NilDereference)
     \/ (exists k al s w p more, rest = Some k :: more /\ kAlign k = Some al /\ nth_error todo 0 = Some s /\
          tail = [Looked (kName k) w; Called (CAlign al s w) (Panic p)] /\ r = Panic p)).

(** ** Merging *)
(** What one item is reckoned to take, the estimated number of groups, and what
    the widths [W k] of the groups take; as in MergeSpec.v. *)
Definition kreckoned (m : wmap) (cols : list kcol) (sep : str) : Z :=
  zsum (map (fun col => m (kName col)) cols) + slen cols * slen sep.
Definition kestimate (m : wmap) (cols : list kcol) (sep : str) (maxWidth : Z) : Z :=
  Z.max 1 (((effective maxWidth + slen sep) mod 65536) / (kreckoned m cols sep mod 65536)).
Definition ktotal (sep : str) (cols : list kcol) (W : nat -> list Z) (g : nat) : Z :=
  slen sep * (Z.of_nat g - 1) + (slen cols - 1) * Z.of_nat g + zsum (map (fun k => zsum (W k)) (seq 0 g)).
(** First the recorded widths are added up. *)
Definition looks (m : wmap) (cols : list kcol) : list act := map (fun col => Looked (kName col) (m (kName col))) cols.
(** A cell printed; [recorded]: with the width recorded then. *)
Definition cell_acts (recorded : bool) (x : kcell) : list act :=
  (if recorded then [Looked (kName (kcCol x)) (kcWidth x)] else []) ++
  match kAlign (kcCol x) with Some al => [Called (CAlign al (kcText x) (kcWidth x)) (Ok (kcOut x))] | None => [] end.
Definition cell_ok (c : Condition) (x : kcell) : Prop := kAlign (kcCol x) = None -> kcOut x = AlignmentLeft c (kcText x) (kcWidth x).
(** An item printed, as it was handed out. *)
Record kitem := { kiIndex : nat; kiRow : list str; kiCells : list kcell }.
Definition item_acts (recorded : bool) (x : kitem) : list act :=
  Called (CGet (Z.of_nat (kiIndex x))) (Ok (kiRow x)) :: flat_map (cell_acts recorded) (kiCells x).
Definition item_ok (c : Condition) (cols : list kcol) (x : kitem) : Prop :=
  map kcCol (kiCells x) = cols /\ (exists more, kiRow x = map kcText (kiCells x) ++ more) /\ Forall (cell_ok c) (kiCells x).
Definition kline_text (sep : str) (g : nat) (line : list kitem) : str :=
  TableContract.join sep (map (fun x => TableContract.join [space] (map kcOut (kiCells x))) line ++ if (length line <? g)%nat then [[]] else []) ++ [x0a].
Definition kline_acts (recorded : bool) (sep : str) (g : nat) (line : list kitem) : list act :=
  flat_map (item_acts recorded) line ++ [Called (CWrite (kline_text sep g line)) (Ok tt)].
(** Everything printed, after asking how many items there are. *)
Definition Prints (c : Condition) (cols : list kcol) (sep : str) (m : mode) (g : nat) (recorded : bool) (lines : list (list kitem)) (tr : list act) : Prop :=
  exists n, Layout m g (seq 0 n) (map (map kiIndex) lines) /\ Forall (Forall (item_ok c cols)) lines /\
    tr = Called CLen (Ok (Z.of_nat n)) :: flat_map (kline_acts recorded sep g) lines.

(** The widths used are those of the groups. *)
Definition UsesWidths (W : nat -> list Z) (lines : list (list kitem)) : Prop :=
  forall line k x, In line lines -> nth_error line k = Some x -> map kcWidth (kiCells x) = W k.

(** Vertically, the last group must not be empty; as in MergeSpec.v. *)
Definition KWorth (m : mode) (n g : nat) : Prop :=
  match m with
  | H => True
  | V => forall lines, Layout m g (seq 0 n) lines -> exists line, In line lines /\ length line = g
  end.
(** The items of [g] groups measured: group after group, and in each column
    after column; [reads k i] are the items handed out for column [i] of group
    [k], and [W k] the greatest widths. *)
Definition read_acts (l : list (nat * list str)) : list act :=
  map (fun x => Called (CGet (Z.of_nat (fst x))) (Ok (snd x))) l.
Definition Pass (c : Condition) (m : mode) (ncols g : nat) (tr : list act) (W : nat -> list Z) : Prop :=
  exists n lines reads, Layout m g (seq 0 n) lines /\ KWorth m n g /\
    tr = Called CLen (Ok (Z.of_nat n)) :: flat_map (fun k => flat_map (fun i => read_acts (reads k i)) (seq 0 ncols)) (seq 0 g) /\
    forall k, (k < g)%nat -> length (W k) = ncols /\
    forall i w, nth_error (W k) i = Some w ->
      map fst (reads k i) = group lines k /\ Forall (fun x => (i < length (snd x))%nat) (reads k i) /\
      IsMax (fun x => x = 0 \/ exists j row s, In (j, row) (reads k i) /\ nth_error row i = Some s /\ x = vwidth c s) w.
(** The search: one more group as long as the last measured take no more than
    the width given. *)
Inductive Searches (c : Condition) (m : mode) (cols : list kcol) (sep : str) (maxWidth : Z)
  : nat -> option (nat -> list Z) -> list act -> nat -> option (nat -> list Z) -> Prop :=
| se_empty g W n : ~ KWorth m n (S g) -> Searches c m cols sep maxWidth g W [Called CLen (Ok (Z.of_nat n))] g W
| se_wide g W tr W' : Pass c m (length cols) (S g) tr W' -> effective maxWidth < ktotal sep cols W' (S g) mod 65536 ->
    Searches c m cols sep maxWidth g W tr g W
| se_more g W tr W' tr' g' W'' : Pass c m (length cols) (S g) tr W' -> ktotal sep cols W' (S g) mod 65536 <= effective maxWidth ->
    Searches c m cols sep maxWidth (S g) (Some W') tr' g' W'' -> Searches c m cols sep maxWidth g W (tr ++ tr') g' W''.

(** Every item asked for is one of those there were when the list was last
    asked how many. *)
Fixpoint AsksWithin (n : option Z) (tr : list act) : Prop :=
  match tr with
  | [] => True
  | Called CLen (Ok k) :: tr => AsksWithin (Some k) tr
  | Called (CGet i) _ :: tr => (exists k, n = Some k /\ 0 <= i < k) /\ AsksWithin n tr
  | _ :: tr => AsksWithin n tr
  end.

(** Who is to blame for a panic: the object called last, or the list, for a row
    with too few cells. *)
Definition Blame (ncols : nat) (tr : list act) (p : panic_reason) : Prop :=
  (exists tr' al s w, tr = tr' ++ [Called (CAlign al s w) (Panic p)])
  \/ (exists tr', tr = tr' ++ [Called CLen (Panic p)])
  \/ (exists tr' i, tr = tr' ++ [Called (CGet i) (Panic p)])
  \/ (exists tr' s, tr = tr' ++ [Called (CWrite s) (Panic p)])
  \/ (p = WriteFailed /\ exists tr' s e, tr = tr' ++ [Called (CWrite s) (Err e)])
  \/ (p = IndexOutOfRange /\ exists i row, In (Called (CGet i) (Ok row)) tr /\ (length row < ncols)%nat).
(** The list is never said to have fewer than no items. *)
Definition Counts (tr : list act) : Prop := forall n, In (Called CLen (Ok n)) tr -> 0 <= n.
End Spec.

(** ** Objects without state *)
Section Steady.
Context {Item Val E : Type}.
Notation act := (act Item Val E (Getter Item Val E) (str -> Z -> str)).

Definition kcol_of (col : Column Item Val E) : kcol (Getter Item Val E) (str -> Z -> str) :=
  {| kName := colName col; kGetter := colGetter col; kAlign := colAlignment col |}.
(** [n] items, given by [get]; the [k]-th write succeeds if [ok k].  The state
    is the number of writes. *)
Definition steady (n : Z) (get : Z -> outcome Empty_set (list str)) (ok : nat -> bool) (e : E)
  : environment Item Val E (Getter Item Val E) (str -> Z -> str) nat :=
  fun q k m =>
  match q return nat * wmap * answer q with
  | CValue g item => (k, m, getValue g item)
  | CFormat g item value => (k, m, getFormat g item value)
  | CString g name item => (k, m, getValueString g name item)
  | CAlign al s w => (k, m, Ok (al s w))
  | CLen => (k, m, Ok n)
  | CGet i => (k, m, get i)
  | CWrite _ => (S k, m, if ok k then Ok tt else Err e)
  end.
Definition lift {A} (o : outcome Empty_set A) : outcome E A :=
  match o with Ok a => Ok a | Err e => match e with end | Panic p => Panic p end.
Definition steady_list (n : Z) (get : Z -> outcome Empty_set (list str)) : FormattedItemList E :=
  {| fiLen := n; fiGet := fun i => lift (get i) |}.
(** What was written, and how the call ended. *)
Definition written_by (tr : list act) : list str :=
  flat_map (fun a => match a with
    | Called q a => match q return answer q -> list str with CWrite s => fun a => match a with Ok _ => [s] | _ => [] end | _ => fun _ => [] end a
    | _ => [] end) tr.
Definition stop_of (r : option (outcome Empty_set unit)) : status E :=
  match r with None => Running | Some (Ok _) => Finished | Some (Err e) => match e with end | Some (Panic p) => Panicked p end.
End Steady.
