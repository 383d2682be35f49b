(** * PropShared: goroutines that share getters, lists and writers (C93). *)
From Coq Require Import Strings.String.
From Verif Require Import GoBase Runewidth Width AlignSpec Table Merge TableContract TableExamples MergeSpec
  Calls CallsSpec Shared SharedSpec SharedProofs SharedCases.
Local Open Scope Z_scope.

(** A goroutine that has returned did exactly what it does alone, with objects whose state
    is set anew before each call. *)
Theorem C93_returned : forall Item Val E G L W R (env : nat -> environment Item Val E G L W) d p m w w' (ths' : threads Item Val E G L R) log,
  texec env w (start p m) w' ths' log -> forall i r, thProg (ths' i) = KRet r ->
  exists ws, krun (jumping (env i) d) (p i) ws (m i) = ([], thMap (ths' i), r, done_by i log).
Proof. exact @returned. Qed.
Print Assumptions C93_returned.

(** No goroutine ever has to wait for another. *)
Theorem C93_goes_on : forall Item Val E G L W R (env : nat -> environment Item Val E G L W) w0 ths0 log0 w (ths : threads Item Val E G L R) i,
  texec env w0 ths0 w ths log0 ->
  exists w' ths' more r, texec env w0 ths0 w' ths' (log0 ++ more) /\ thProg (ths' i) = KRet r /\ forall j, j <> i -> ths' j = ths j.
Proof. exact @can_end. Qed.
Print Assumptions C93_goes_on.

(** So each goroutine that formats calls its getters in order, and records what it got. *)
Theorem C93_format : forall Item Val E G L W (env : nat -> environment Item Val E G L W) (w w' : W) c (cols : nat -> list (option (kcol G L))) (item : nat -> Item) ms
    (ths' : threads Item Val E G L (fun _ => outcome E (list str))) log,
  texec env w (start (fun i => FormatItemK c (cols i) (item i)) ms) w' ths' log -> forall i r, thProg (ths' i) = KRet r ->
  FormatActs c (item i) (cols i) (done_by i log) r
  /\ (Grows (env i) -> forall kcols texts, cols i = map Some kcols -> r = Ok texts ->
      List.length texts = List.length kcols /\ forall j col s, nth_error kcols j = Some col -> nth_error texts j = Some s -> vwidth c s <= thMap (ths' i) (kName col)).
Proof. exact @each_format. Qed.
Print Assumptions C93_format.

(** Two goroutines, one getter that numbers its answers. *)
Example C93_format_example : exists w' ths' log, texec counting 0%nat (start formatting (fun _ => wempty)) w' ths' log
  /\ thProg (ths' 0%nat) = KRet (Ok [lit "*"%string; lit "***"%string]) /\ thProg (ths' 1%nat) = KRet (Ok [lit "**"%string; lit "****"%string])
  /\ thMap (ths' 0%nat) (lit "o"%string) = 3 /\ thMap (ths' 1%nat) (lit "o"%string) = 4.
Proof. exact counting_example. Qed.
Example C93_grows_example : forall i, Grows (counting i).
Proof. exact counting_grows. Qed.

(** And each that merges asks, measures and prints as C68 says, whatever the others do to
    the objects between its calls. *)
Theorem C93_merge : forall Item Val E G L W (env : nat -> environment Item Val E G L W) (w w' : W) (m : nat -> mode) (fuel : nat -> nat) c
    (cols : nat -> list (kcol G L)) (maxWidth : nat -> Z) (sep : nat -> str) (compact : nat -> bool) ms
    (ths' : threads Item Val E G L (fun _ => option (outcome Empty_set unit))) log,
  texec env w (start (fun i => mergeK (m i) (fuel i) c (map Some (cols i)) (maxWidth i) (sep i) (compact i)) ms) w' ths' log ->
  forall i r, thProg (ths' i) = KRet r ->
  AsksWithin None (done_by i log) /\ (forall name v, ~ In (Raised name v) (done_by i log))
  /\ (Counts (done_by i log) ->
      (forall p, r = Some (Panic p) -> kreckoned (ms i) (cols i) (sep i) mod 65536 <> 0 -> Blame (List.length (cols i)) (done_by i log) p)
      /\ (compact i = false -> r = Some (Ok tt) ->
          exists g rest lines, Z.of_nat g = kestimate (ms i) (cols i) (sep i) (maxWidth i)
            /\ done_by i log = looks (ms i) (cols i) ++ rest /\ Prints c (cols i) (sep i) (m i) g true lines rest)
      /\ (compact i = true -> r = Some (Ok tt) ->
          exists g0 g Wd search print lines, Z.of_nat g0 = kestimate (ms i) (cols i) (sep i) (maxWidth i)
            /\ done_by i log = looks (ms i) (cols i) ++ search ++ print /\
            Searches c (m i) (cols i) (sep i) (maxWidth i) g0 None search g Wd /\
            match Wd with None => Prints c (cols i) (sep i) (m i) g true lines print
            | Some Wg => Prints c (cols i) (sep i) (m i) g false lines print /\ UsesWidths Wg lines end)).
Proof. exact @each_merge. Qed.
Print Assumptions C93_merge.

(** One writer for all: what it accepted from a goroutine is what that call writes alone, to
    a writer that answers as this one answered to it. *)
Theorem C93_writer : forall Item Val E W lists wr (e : E) (d w w' : W) (xs : nat -> merging Item Val E) (ms : nat -> wmap)
    (ths' : threads _ _ _ _ _ (fun _ => option (outcome Empty_set unit))) log,
  (forall i, columnWidth (mgTable (xs i)) = Some (ms i)) ->
  texec (one_writer lists wr e) w (start (fun i => program (xs i)) ms) w' ths' log ->
  forall i r, thProg (ths' i) = KRet r ->
  exists ok, alone (xs i) (fst (lists i)) (snd (lists i)) ok = {| written := done_by i (accepted log); stop := stop_of r |}
    /\ (forall k b, nth_error (answers (done_by i log)) k = Some b -> ok k = b).
Proof. exact @merging_together. Qed.
Print Assumptions C93_writer.

(** And at any time before, the first lines of it. *)
Theorem C93_midway : forall Item Val E W lists wr (e : E) (d w w' : W) (xs : nat -> merging Item Val E) (ms : nat -> wmap)
    (ths' : threads _ _ _ _ _ (fun _ => option (outcome Empty_set unit))) log,
  (forall i, columnWidth (mgTable (xs i)) = Some (ms i)) ->
  texec (one_writer lists wr e) w (start (fun i => program (xs i)) ms) w' ths' log ->
  forall i, exists ok more, written (alone (xs i) (fst (lists i)) (snd (lists i)) ok) = done_by i (accepted log) ++ more
    /\ (forall k b, nth_error (answers (done_by i log)) k = Some b -> ok k = b).
Proof. exact @merging_midway. Qed.
Print Assumptions C93_midway.

Example C93_writer_example :
  (forall i, columnWidth (mgTable (twoCalls i)) = Some (twoMaps i))
  /\ Two 99 (Some (Ok tt)) (Some (Ok tt))
       [line 0 "go.mod 12"; line 0 "x       3"; line 1 "12 go.mod |7 ab"; line 0 "ab      7"; line 0 "c       9"; line 1 " 3 x      |9 c "]
  /\ Two 3 (Some (Panic WriteFailed)) (Some (Panic WriteFailed))
       [line 0 "go.mod 12"; line 0 "x       3"; line 1 "12 go.mod |7 ab"].
Proof. exact two_example. Qed.

(** Refuted: that the lines of one call stand together. *)
Theorem C93_together_refuted : exists w' ths' log, texec (two_env 99) 0%nat (start (fun i => program (twoCalls i)) twoMaps) w' ths' log
  /\ thProg (ths' 0%nat) = KRet (Some (Ok tt)) /\ thProg (ths' 1%nat) = KRet (Some (Ok tt))
  /\ map snd (accepted log) <> done_by 0 (accepted log) ++ done_by 1 (accepted log)
  /\ map snd (accepted log) <> done_by 1 (accepted log) ++ done_by 0 (accepted log).
Proof. exact together_refuted. Qed.
Print Assumptions C93_together_refuted.
