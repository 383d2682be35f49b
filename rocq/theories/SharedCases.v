(** * SharedCases: two goroutines, one writer. *)
From Coq Require Import Strings.String.
From Verif Require Import GoBase Runewidth Width AlignSpec Table Merge TableContract TableExamples TableOpsProofs
  MergeSpec MergeExamples MergeScreens MergeAskedCases Calls CallsSpec Shared SharedSpec SharedProofs PickCases CallsFinal.
Local Open Scope Z_scope.

Definition pMap : wmap := match columnWidth pTable with Some m => m | None => wempty end.
Definition getOf (rows : list (list str)) : Z -> outcome Empty_set (list str) :=
  fun i => match at_index rows i with Some row => Ok row | None => Panic IndexOutOfRange end.
(** The first goroutine prints the table of C91's example across, the second the one in the
    other order downwards, compactly. *)
Definition twoLists (i : nat) : Z * (Z -> outcome Empty_set (list str)) :=
  match i with O => (slen aRows, getOf aRows) | _ => (slen aRows, getOf (map (PickSpec.pick pOrder) aRows)) end.
Definition twoCalls (i : nat) : merging (list str) str str :=
  match i with
  | O => {| mgMode := H; mgFuel := 9; mgCond := exC; mgTable := mTable; mgWidth := 9; mgSep := mSep; mgCompact := false |}
  | _ => {| mgMode := V; mgFuel := 9; mgCond := exC; mgTable := pTable; mgWidth := 20; mgSep := mSep; mgCompact := true |}
  end.
Definition twoMaps (i : nat) : wmap := match i with O => mMap | _ => pMap end.
(** The writer takes [limit] lines. *)
Definition limited (limit : nat) (i : nat) (s : str) (w : nat) : nat * bool := (S w, Nat.ltb w limit).
Definition two_env limit := one_writer (Item := list str) (Val := str) (E := str) twoLists (limited limit) (lit "full"%string).
Definition two_run limit sched := drive (two_env limit) sched 0%nat (start (fun i => program (twoCalls i)) twoMaps) [].
(** How goroutine [i] ended. *)
Definition ended {R} (th : thread (list str) str str (Getter (list str) str str) (str -> Z -> str) R) : option R :=
  match thProg th with KRet r => Some r | _ => None end.
Definition turns (n : nat) : list nat := flat_map (fun _ => [0; 1]%nat) (seq 0 n).

Lemma two_maps : forall i, columnWidth (mgTable (twoCalls i)) = Some (twoMaps i).
Proof. intros [|i]; reflexivity. Qed.

Lemma ended_ret {R} (th : thread (list str) str str (Getter (list str) str str) (str -> Z -> str) R) r : ended th = Some r -> thProg th = KRet r.
Proof. unfold ended. destruct (thProg th); intros K; try discriminate. congruence. Qed.

Definition Two limit r0 r1 (out : list (nat * str)) : Prop :=
  exists w' ths' log, texec (two_env limit) 0%nat (start (fun i => program (twoCalls i)) twoMaps) w' ths' log
    /\ thProg (ths' 0%nat) = KRet r0 /\ thProg (ths' 1%nat) = KRet r1 /\ accepted log = out.
Lemma two_drive limit sched r0 r1 out :
  (let '(w, ths, log) := two_run limit sched in (ended (ths 0%nat), ended (ths 1%nat), accepted log)) = (Some r0, Some r1, out) ->
  Two limit r0 r1 out.
Proof.
  intros K. pose proof (drive_ok (two_env limit) 0%nat (start (fun i => program (twoCalls i)) twoMaps) sched _ _ _ (te_refl _ _ _)) as D.
  fold (two_run limit sched) in D. destruct (two_run limit sched) as [[w ths] log]. injection K as K1 K2 K3.
  exists w, ths, log. split; [exact D|]. split; [apply ended_ret, K1|]. split; [apply ended_ret, K2|exact K3].
Qed.

Definition line (i : nat) (s : string) : nat * str := (i, lit s ++ [x0a]).
Lemma two_example :
  (forall i, columnWidth (mgTable (twoCalls i)) = Some (twoMaps i))
  /\ Two 99 (Some (Ok tt)) (Some (Ok tt))
       [line 0 "go.mod 12"; line 0 "x       3"; line 1 "12 go.mod |7 ab"; line 0 "ab      7"; line 0 "c       9"; line 1 " 3 x      |9 c "]
  /\ Two 3 (Some (Panic WriteFailed)) (Some (Panic WriteFailed))
       [line 0 "go.mod 12"; line 0 "x       3"; line 1 "12 go.mod |7 ab"].
Proof.
  split; [exact two_maps|]. split; apply (two_drive _ (turns 60)); vm_compute; reflexivity.
Qed.

(** The lines of one call need not stand together. *)
Lemma together_refuted : exists w' ths' log, texec (two_env 99) 0%nat (start (fun i => program (twoCalls i)) twoMaps) w' ths' log
  /\ thProg (ths' 0%nat) = KRet (Some (Ok tt)) /\ thProg (ths' 1%nat) = KRet (Some (Ok tt))
  /\ map snd (accepted log) <> done_by 0 (accepted log) ++ done_by 1 (accepted log)
  /\ map snd (accepted log) <> done_by 1 (accepted log) ++ done_by 0 (accepted log).
Proof.
  destruct two_example as (_ & (w' & ths' & log & D & H0 & H1 & HA) & _). exists w', ths', log. rewrite HA.
  split; [exact D|]. split; [exact H0|]. split; [exact H1|]. split; vm_compute; discriminate.
Qed.

(** *** A getter that counts *)
(** Two goroutines format through one getter that numbers what it is asked for. *)
Definition counting : nat -> environment str str str nat nat nat := fun _ q w m =>
  match q return nat * wmap * answer q with
  | CValue g item => (S w, m, Ok (List.repeat x2a (S w)))
  | CFormat g item value => (w, m, Ok value)
  | CString g name item => (w, m, Ok name)
  | CAlign al s width => (w, m, Ok s)
  | CLen => (w, m, Ok 0)
  | CGet i => (w, m, Ok [])
  | CWrite _ => (w, m, Ok tt)
  end.
Definition numbered : kcol nat nat := {| kName := lit "n"%string; kGetter := Some 0%nat; kAlign := None |}.
Definition other : kcol nat nat := {| kName := lit "o"%string; kGetter := Some 0%nat; kAlign := None |}.
Definition formatting (i : nat) := FormatItemK (Item := str) (Val := str) (E := str) exC [Some numbered; Some other] (lit "x"%string).
Lemma counting_grows i : Grows (counting i).
Proof. intros q w m n. destruct q; cbn; lia. Qed.
Definition ended' {R} (th : thread str str str nat nat R) : option R := match thProg th with KRet r => Some r | _ => None end.
Lemma counting_example : exists w' ths' log, texec counting 0%nat (start formatting (fun _ => wempty)) w' ths' log
  /\ thProg (ths' 0%nat) = KRet (Ok [lit "*"%string; lit "***"%string]) /\ thProg (ths' 1%nat) = KRet (Ok [lit "**"%string; lit "****"%string])
  /\ thMap (ths' 0%nat) (lit "o"%string) = 3 /\ thMap (ths' 1%nat) (lit "o"%string) = 4.
Proof.
  pose proof (drive_ok counting 0%nat (start formatting (fun _ => wempty)) (turns 6) _ _ _ (te_refl _ _ _)) as D.
  assert (K : (let '(w, ths, log) := drive counting (turns 6) 0%nat (start formatting (fun _ => wempty)) [] in
    (ended' (ths 0%nat), ended' (ths 1%nat), thMap (ths 0%nat) (lit "o"%string), thMap (ths 1%nat) (lit "o"%string)))
    = (Some (Ok [lit "*"%string; lit "***"%string]), Some (Ok [lit "**"%string; lit "****"%string]), 3, 4)) by (vm_compute; reflexivity).
  destruct (drive counting (turns 6) 0%nat (start formatting (fun _ => wempty)) []) as [[w ths] log]. injection K as K1 K2 K3 K4.
  assert (RR : forall R (th : thread str str str nat nat R) r, ended' th = Some r -> thProg th = KRet r).
  { intros R th r. unfold ended'. destruct (thProg th); intros K; try discriminate. congruence. }
  exists w, ths, log. split; [exact D|]. split; [apply RR, K1|]. split; [apply RR, K2|]. split; [exact K3|exact K4].
Qed.
