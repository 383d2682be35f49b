(** * SwapSpec: a table whose parts are replaced while its functions run. *)
From Verif Require Import GoBase Runewidth Width Table Merge TableContract MergeSpec Calls CallsSpec Live LiveSpec Swap.
Local Open Scope Z_scope.

Section Spec.
Context {Item Val E G L : Type}.
Notation smem := (smem G L).
Notation lmem := (lmem G L).
Notation sevent := (sevent Item Val E G L).
Notation event := (event Item Val E G L).
Notation objects := (objects Item Val E G L).
Notation surroundings := (surroundings Item Val E G L).

(** ** FormatItem *)
(** A column formatted: as LiveCell, and the width goes to the map [cw]. *)
Record swap_cell := { scValue : sevent; scFormat : sevent; scRaise : sevent; scText : str }.
Definition SwapCell (c : Condition) (item : Item) (cw : option nat) (h : header) (j : nat) (x : swap_cell) : Prop :=
  exists p k1 k2 k3 g1 g2 v,
    sptr (sBefore (scValue x)) h j = p /\
    sderef (sBefore (scValue x)) p = Some k1 /\ kGetter k1 = Some g1 /\ sAct (scValue x) = SCalled (CValue g1 item) (Ok v) /\
    sderef (sBefore (scFormat x)) p = Some k2 /\ kGetter k2 = Some g2 /\ sAct (scFormat x) = SCalled (CFormat g2 item v) (Ok (scText x)) /\
    sderef (sBefore (scRaise x)) p = Some k3 /\ sAct (scRaise x) = SRaised cw (kName k3) (vwidth c (scText x)) /\
    sBefore (scRaise x) = sAfter (scFormat x) /\
    sSpec (sAfter (scRaise x)) = sSpec (sBefore (scRaise x)) /\ sMap (sAfter (scRaise x)) = sMap (sBefore (scRaise x)).
Definition swap_events (x : swap_cell) : list sevent := [scValue x; scFormat x; scRaise x].

(** Nothing called lowers a width in any map, or does away with a map. *)
Definition Raises (m m' : smem) : Prop :=
  (length (sMaps m) <= length (sMaps m'))%nat /\
  forall a name, (a < length (sMaps m))%nat -> nth a (sMaps m) wempty name <= nth a (sMaps m') wempty name.

(** ** What does not matter *)
(** All but the two pointers of the table; all but [t.TableSpec]. *)
Definition SameButTable (m1 m2 : smem) : Prop :=
  sSpecs m1 = sSpecs m2 /\ sMaps m1 = sMaps m2 /\ sCols m1 = sCols m2 /\ sArrs m1 = sArrs m2 /\ sRows m1 = sRows m2.
Definition SameButSpec (m1 m2 : smem) : Prop := SameButTable m1 m2 /\ sMap m1 = sMap m2.
(** Objects that do the same but to what does not matter. *)
Definition DoSame {W} (R : smem -> smem -> Prop) (env1 env2 : objects W) : Prop :=
  forall q w m1 m2, R m1 m2 ->
  let '(w1, n1, a1) := env1 q w m1 in let '(w2, n2, a2) := env2 q w m2 in w1 = w2 /\ a1 = a2 /\ R n1 n2.
Definition acts_of (tr : list sevent) := map sAct tr.

(** ** Merging *)
(** [t.TableSpec] is nil. *)
Definition gone (m : smem) : bool := match sSpec m with None => true | Some _ => false end.
(** Once nil, it stays nil. *)
Definition StaysGone {W} (env : objects W) : Prop := forall q w m, gone m = true -> gone (snd (fst (env q w m))) = true.
Definition isWrite (x : sevent) : bool := match sAct x with SCalled (CWrite _) _ => true | _ => false end.
Definition isGet (x : sevent) : bool := match sAct x with SCalled (CGet _) _ => true | _ => false end.
Definition written_gone (tr : list sevent) : nat := length (filter (fun x => isWrite x && gone (sBefore x)) tr).

(** The memory as Live.v sees it: the columns and the widths the table has. *)
Definition view (m : smem) : lmem :=
  {| lCols := sCols m; lArrs := sArrs m; lSlice := match slice m with Some h => h | None => {| hArr := 0; hLen := 0 |} end;
     lRows := sRows m; lWidths := width_in m (sMap m) |}.
(** The objects as Live.v sees them: the rest of the memory is their state. *)
Definition as_surroundings {W} (env : objects W) : surroundings (W * smem) :=
  fun q st lm => let '(w1, m1, a) := env q (fst st) (sset_rows (snd st) (lRows lm)) in ((w1, m1), view m1, a).
Definition view_act (a : sact Item Val E G L) : lact Item Val E G L :=
  match a with
  | SCalled q b => LCalled q b
  | SLooked name v => LLooked name v
  | SRaised _ name w => LRaised name w
  | SStored a i s => LStored a i s
  end.
Definition view_event (x : sevent) : event := {| eBefore := view (sBefore x); eAct := view_act (sAct x); eAfter := view (sAfter x) |}.
End Spec.
