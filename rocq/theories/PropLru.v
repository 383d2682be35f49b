(** * PropLru: the width cache as an LRU of 10000 texts (C96). *)
From Coq Require Import Strings.String.
From Verif Require Import GoBase Runewidth ConditionSpec RunewidthProofs Width Table TableExamples Merge Cached CachedSpec CachedExamples Lru LruSpec LruProofs LruCases.
Local Open Scope Z_scope.

(** ** C96 *)

(** After any calls, a call gives the text's width, and computes it exactly
    when the text has no width, is new, or at least [cap] other texts were
    asked for since the last time. *)
Theorem C96_exactly : forall cap c pre s post, (1 <= cap)%nat -> exists b : bool,
  nth_error (measureAll cap c [] (pre ++ s :: post)) (List.length pre) = Some (vwidth c s, b)
  /\ (b = true <-> Computed cap c (rev pre) s).
Proof. exact exactly. Qed.
Print Assumptions C96_exactly.

Example C96_exactly_example : map snd (measureAll 2 exC [] [ta; tb; ta; tc; ta; tb]) = [true; true; false; true; false; true]
  /\ map snd (measureAll 2 exC [] [ta; tb; []; ta; []; []]) = [true; true; true; true; true; true]
  /\ map snd (measureAll 3 exC [] [ta; tb; []; ta; []; []]) = [true; true; true; false; true; true].
Proof. exact small_runs. Qed.

(** No capacity saves computing every text without width each time and every
    other text once. *)
Theorem C96_least : forall cap c l, (1 <= cap)%nat -> (zeros c l + visible c l <= count (map snd (measureAll cap c [] l)))%nat.
Proof. exact least. Qed.
Print Assumptions C96_least.

Example C96_least_example : zeros exC [ta; tb; []; ta; []; []] = 3%nat /\ visible exC [ta; tb; []; ta; []; []] = 2%nat
  /\ count (map snd (measureAll 2 exC [] [ta; tb; []; ta; []; []])) = 6%nat.
Proof. repeat split; vm_compute; reflexivity. Qed.

(** With no more different texts than the capacity, that is all. *)
Theorem C96_enough : forall cap c l, (1 <= cap)%nat -> (distinct l <= cap)%nat ->
  count (map snd (measureAll cap c [] l)) = (zeros c l + visible c l)%nat.
Proof. exact enough. Qed.
Print Assumptions C96_enough.

Example C96_enough_example : distinct [ta; tb; []; ta; []; []] = 3%nat
  /\ count (map snd (measureAll 3 exC [] [ta; tb; []; ta; []; []])) = 5%nat.
Proof. repeat split; vm_compute; reflexivity. Qed.

(** A larger cache never computes more. *)
Theorem C96_larger : forall cap cap' c l, (1 <= cap <= cap')%nat ->
  (count (map snd (measureAll cap' c [] l)) <= count (map snd (measureAll cap c [] l)))%nat.
Proof. exact larger. Qed.
Print Assumptions C96_larger.

Example C96_larger_example : count (map snd (measureAll 1 exC [] [ta; tb; ta; tc; ta; tb])) = 6%nat
  /\ count (map snd (measureAll 2 exC [] [ta; tb; ta; tc; ta; tb])) = 4%nat
  /\ count (map snd (measureAll 3 exC [] [ta; tb; ta; tc; ta; tb])) = 3%nat.
Proof. repeat split; vm_compute; reflexivity. Qed.

(** More different texts than the capacity, gone through again and again in
    the same order, are computed at every call. *)
Theorem C96_rounds : forall cap c l n, (1 <= cap)%nat -> NoDup l -> (cap < List.length l)%nat ->
  map snd (measureAll cap c [] (List.concat (repeat l n))) = map (fun _ => true) (List.concat (repeat l n)).
Proof. exact rounds. Qed.
Print Assumptions C96_rounds.

Example C96_rounds_example : NoDup [ta; tb; tc]
  /\ map snd (measureAll 2 exC [] (List.concat (repeat [ta; tb; tc] 2))) = [true; true; true; true; true; true]
  /\ map snd (measureAll 3 exC [] (List.concat (repeat [ta; tb; tc] 2))) = [true; true; true; false; false; false].
Proof. split; [repeat constructor; cbn; intuition congruence|]. split; vm_compute; reflexivity. Qed.

(** Every function of the library (as a program of Cached.v) on this cache:
    it writes and returns what it would without a cache, and of the widths it
    asks for those are computed that C96_exactly says. *)
Theorem C96_programs : forall (A : Type) cap c ok (p : wprog A) out a log, (1 <= cap)%nat -> runL cap c ok 0 [] p = (out, a, log) ->
  (out, a) = effect (vwidth c) ok 0 p /\ map fst log = texts (vwidth c) ok 0 p
  /\ (forall pre s b post, log = pre ++ (s, b) :: post -> (b = true <-> Computed cap c (rev (map fst pre)) s))
  /\ (zeros c (map fst log) + visible c (map fst log) <= count (map snd log))%nat
  /\ ((distinct (map fst log) <= cap)%nat -> count (map snd log) = (zeros c (map fst log) + visible c (map fst log))%nat).
Proof. exact @program_runs. Qed.
Print Assumptions C96_programs.

Example C96_programs_example : let x := lit "x"%string in let y := lit "y"%string in
  runL 1 exC (fun _ => true) 0 [] exP = ([lit "x y|x y"%string ++ [x0a]], Finished,
    [(x, true); (y, true); (x, true); (y, true); (x, true); (y, true); (x, true); (y, true)])
  /\ runL 2 exC (fun _ => true) 0 [] exP = ([lit "x y|x y"%string ++ [x0a]], Finished,
    [(x, true); (y, true); (x, false); (y, false); (x, false); (y, false); (x, false); (y, false)]).
Proof. split; vm_compute; reflexivity. Qed.

(** Formatting all items of a table and then printing them asks for every cell
    twice.  Cells that have a width and are no more (different) than the
    capacity are computed once each; different cells, more than the capacity,
    are computed twice each. *)
Theorem C96_session : forall (Item Val E : Type) cap c (t : PTable Item Val E) cols items rows maxWidth sep out st log,
  (1 <= cap)%nat -> ptColumns t = map Some cols -> ptWidth t <> None -> Forall Built cols ->
  Forall2 (fun item row => Forall2 (fun col s => Gives col item s) cols row) items rows ->
  runL cap c (fun _ => true) 0 [] (formatAndPrintP t items maxWidth sep) = (out, st, log) -> st = Finished ->
  map fst log = List.concat rows ++ List.concat rows
  /\ ((distinct (List.concat rows) <= cap)%nat -> Forall (fun s => vwidth c s <> 0) (List.concat rows) ->
      count (map snd log) = distinct (List.concat rows))
  /\ (NoDup (List.concat rows) -> (cap < List.length (List.concat rows))%nat -> count (map snd log) = (2 * List.length (List.concat rows))%nat).
Proof. exact @session_computes. Qed.
Print Assumptions C96_session.

Example C96_session_example : Forall Built [oneCol]
  /\ Forall2 (fun item row => Forall2 (fun col s => Gives col item s) [oneCol] row) [ta; tb; tc] [[ta]; [tb]; [tc]]
  /\ runL 3 exC (fun _ => true) 0 [] (formatAndPrintP oneTable [ta; tb; tc] 3 (lit "|"%string))
     = ([lit "a|b"%string ++ [x0a]; lit "c|"%string ++ [x0a]], Finished, [(ta, true); (tb, true); (tc, true); (ta, false); (tb, false); (tc, false)])
  /\ runL 2 exC (fun _ => true) 0 [] (formatAndPrintP oneTable [ta; tb; tc] 3 (lit "|"%string))
     = ([lit "a|b"%string ++ [x0a]; lit "c|"%string ++ [x0a]], Finished, [(ta, true); (tb, true); (tc, true); (ta, true); (tb, true); (tc, true)]).
Proof.
  split; [constructor; [left; reflexivity|constructor]|]. split; [apply (one_gives [ta; tb; tc])|]. split; vm_compute; reflexivity.
Qed.

(** "The cache saves computing a cell again when it is printed" is false for
    its 10000 entries: a table of 16384 different cells of width 14 computes
    32768 widths. *)
Theorem C96_saves_refuted : exists (t : PTable str str str) cols items rows, ptColumns t = map Some cols /\ ptWidth t <> None /\ Forall Built cols
  /\ Forall2 (fun item row => Forall2 (fun col s => Gives col item s) cols row) items rows
  /\ forall c maxWidth out st log, Reachable c ->
     runL capacity c (fun _ => true) 0 [] (formatAndPrintP t items maxWidth (lit "|"%string)) = (out, st, log) ->
     st = Finished /\ Z.of_nat (List.length log) = 32768 /\ Z.of_nat (count (map snd log)) = 32768 /\ Z.of_nat (distinct (map fst log)) = 16384.
Proof.
  exists oneTable, [oneCol], (words 14), (map (fun s => [s]) (words 14)). split; [reflexivity|]. split; [discriminate|].
  split; [constructor; [left; reflexivity|constructor]|]. split; [apply one_gives|]. exact real_twice.
Qed.
Print Assumptions C96_saves_refuted.

Example C96_saves_example : words 2 = [lit "aa"%string; lit "ab"%string; lit "ba"%string; lit "bb"%string] /\ Reachable exC.
Proof. split; [vm_compute; reflexivity|apply r_fresh]. Qed.
