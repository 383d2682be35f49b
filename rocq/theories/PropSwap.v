(** * PropSwap: callbacks that replace the table's parts (C97). *)
From Coq Require Import Strings.String.
From Verif Require Import GoBase Runewidth Width Table Merge TableContract TableExamples MergeSpec
  Calls CallsSpec CallsCases Live LiveSpec LiveCases Swap SwapSpec SwapProofs SwapMerge SwapCases.
Local Open Scope Z_scope.

(** C97: whatever what is called does to the table, to its spec, its width maps,
    its columns and the rows, FormatItem goes through the columns there were when
    it was called, one text each, and records their widths in the map the table
    had then. *)
Theorem C97_format : forall Item Val E G L W (env : objects Item Val E G L W) c item w0 m0 w' m' texts tr,
  srun env (FormatItemS c item) w0 m0 = (w', m', Ok texts, tr) ->
  exists h cells, slice m0 = Some h /\ List.length cells = hLen h /\ texts = map scText cells /\ tr = flat_map swap_events cells /\
    (forall j x, nth_error cells j = Some x -> SwapCell c item (sMap m0) h j x).
Proof. exact @format_swap. Qed.
Print Assumptions C97_format.

(** If nothing called lowers a width, every width is there in that map at the end. *)
Theorem C97_widths : forall Item Val E G L W (env : objects Item Val E G L W) c item w0 m0 w' m' texts tr a,
  (forall q w m, Raises m (snd (fst (env q w m)))) -> sMap m0 = Some a -> (a < List.length (sMaps m0))%nat ->
  srun env (FormatItemS c item) w0 m0 = (w', m', Ok texts, tr) ->
  forall name v, In (SRaised (Some a) name v) (acts_of tr) -> v <= nth a (sMaps m') wempty name.
Proof. exact @format_widths. Qed.
Print Assumptions C97_widths.

(** What is done to the table's two pointers meanwhile has no influence on
    FormatItem: same calls, same texts, same widths recorded. *)
Theorem C97_format_table : forall Item Val E G L W (env1 env2 : objects Item Val E G L W) c item w m1 m2 w1 n1 r1 t1 w2 n2 r2 t2,
  DoSame SameButTable env1 env2 -> SameButTable m1 m2 -> sSpec m1 = sSpec m2 -> sMap m1 = sMap m2 ->
  srun env1 (FormatItemS c item) w m1 = (w1, n1, r1, t1) -> srun env2 (FormatItemS c item) w m2 = (w2, n2, r2, t2) ->
  w1 = w2 /\ r1 = r2 /\ SameButTable n1 n2 /\ acts_of t1 = acts_of t2.
Proof. exact @format_any_table. Qed.
Print Assumptions C97_format_table.

(** Nor on FormatItemBasic, *)
Theorem C97_basic_table : forall Item Val E G L W (env1 env2 : objects Item Val E G L W) item sep w m1 m2 w1 n1 r1 t1 w2 n2 r2 t2,
  DoSame SameButTable env1 env2 -> SameButTable m1 m2 -> sSpec m1 = sSpec m2 ->
  srun env1 (FormatItemBasicS item sep) w m1 = (w1, n1, r1, t1) -> srun env2 (FormatItemBasicS item sep) w m2 = (w2, n2, r2, t2) ->
  w1 = w2 /\ r1 = r2 /\ SameButTable n1 n2 /\ acts_of t1 = acts_of t2.
Proof. exact @basic_any_table. Qed.
Print Assumptions C97_basic_table.

(** and what is done to [t.TableSpec] has none on AlignFormattedItem. *)
Theorem C97_align_spec : forall Item Val E G L W (env1 env2 : objects Item Val E G L W) f w m1 m2 w1 n1 r1 t1 w2 n2 r2 t2,
  DoSame SameButSpec env1 env2 -> SameButSpec m1 m2 -> sSpec m1 = sSpec m2 ->
  srun env1 (AlignFormattedItemS f) w m1 = (w1, n1, r1, t1) -> srun env2 (AlignFormattedItemS f) w m2 = (w2, n2, r2, t2) ->
  w1 = w2 /\ r1 = r2 /\ SameButSpec n1 n2 /\ acts_of t1 = acts_of t2.
Proof. exact @align_any_spec. Qed.
Print Assumptions C97_align_spec.

(** So the widths may not be the table's: a getter that replaces the table by a
    new one takes them away, although nothing lowers a width. *)
Theorem C97_kept_refuted : exists t eff m0 w' m' texts tr,
  srun (dealing t eff) (FormatItemS exC (lit "x"%string)) 0%nat m0 = (w', m', Ok texts, tr) /\
  (forall q w m, Raises m (snd (fst (dealing t eff q w m)))) /\ gone m' = false /\
  exists name v, In (SRaised (sMap m0) name v) (acts_of tr) /\ now_width m' name < v.
Proof. exact kept_refuted. Qed.
Print Assumptions C97_kept_refuted.

Example C97_format_ex :
  result (sfmt 99 same blank) = Ok [lit "x*"%string; lit "x**"%string] /\
  (now_width (ending (sfmt 99 same blank)) cA, now_width (ending (sfmt 99 same blank)) cB) = (2, 3) /\
  result (sfmt 1 nospec blank) = Ok [lit "x*"%string; lit "x**"%string] /\
  result (sfmt 1 anew blank) = Ok [lit "x*"%string; lit "x**"%string] /\
  (now_width (ending (sfmt 1 anew blank)) cA, now_width (ending (sfmt 1 anew blank)) cB) = (0, 0) /\
  (nth 0 (sMaps (ending (sfmt 1 anew blank))) wempty cA, nth 0 (sMaps (ending (sfmt 1 anew blank))) wempty cB) = (2, 3).
Proof. exact format_cases. Qed.
Example C97_widths_ex : (forall q w m, Raises m (snd (fst (dealing 1 anew q w m)))) /\ sMap blank = Some 0%nat /\ (0 < List.length (sMaps blank))%nat.
Proof. split; [apply dealing_raises, anew_raises|split; [reflexivity|apply Nat.lt_0_succ]]. Qed.
Example C97_same_ex : DoSame SameButTable (dealing 1 nospec) (dealing 1 same) /\ DoSame SameButSpec (dealing 0 nospec) (dealing 0 same).
Proof. split; [apply nospec_table|apply nospec_spec]. Qed.
Example C97_align_ex :
  result (srun (dealing 0 nospec) (AlignFormattedItemS {| hArr := 0; hLen := 2 |}) 0%nat duo) = Ok {| hArr := 0; hLen := 2 |} /\
  map (fun x => match x with SLooked _ v => [v] | _ => [] end) (acts_of (snd (srun (dealing 0 nospec) (AlignFormattedItemS {| hArr := 0; hLen := 2 |}) 0%nat duo)))
  = map (fun x => match x with SLooked _ v => [v] | _ => [] end) (acts_of (snd (srun (dealing 0 same) (AlignFormattedItemS {| hArr := 0; hLen := 2 |}) 0%nat duo))) /\
  gone (ending (srun (dealing 0 nospec) (AlignFormattedItemS {| hArr := 0; hLen := 2 |}) 0%nat duo)) = true.
Proof. exact align_case. Qed.

(** A merge during which [t.TableSpec] becomes nil, and stays so, writes at most
    one more line: the one under way. *)
Theorem C97_gone : forall Item Val E G L W (env : objects Item Val E G L W), StaysGone env ->
  forall md fuel c maxWidth sep compact w m w' m' r tr,
  srun env (mergeS md fuel c maxWidth sep compact) w m = (w', m', r, tr) -> (written_gone tr <= 1)%nat.
Proof. exact @merge_gone. Qed.
Print Assumptions C97_gone.

(** A plain merge panics as soon as a Get returns with [t.TableSpec] nil. *)
Theorem C97_plain : forall Item Val E G L W (env : objects Item Val E G L W) md fuel c maxWidth sep w m w' m' r tr,
  srun env (mergeS md fuel c maxWidth sep false) w m = (w', m', r, tr) ->
  forall pre x post, tr = pre ++ x :: post -> isGet x = true -> gone (sAfter x) = true ->
  post = [] /\ exists q, r = Some (Panic q) /\ (forall i row, sAct x = SCalled (CGet i) (Ok row) -> q = NilDereference).
Proof. exact @plain_stops. Qed.
Print Assumptions C97_plain.

(** As long as it is never nil, a merge does what C71 says, of the columns and the
    widths the table has at each moment, whichever spec and map they are in. *)
Theorem C97_merge_live : forall Item Val E G L W (env : objects Item Val E G L W) md fuel c maxWidth sep compact w0 m0 w' m' r tr,
  srun env (mergeS md fuel c maxWidth sep compact) w0 m0 = (w', m', r, tr) ->
  gone m0 = false -> Forall (fun x => gone (sAfter x) = false) tr ->
  exists st, lrun (as_surroundings env) (mergeL md fuel c maxWidth sep compact) (w0, m0) (view m0) = ((w', st), view m', r, map view_event tr).
Proof. exact @merge_as_live. Qed.
Print Assumptions C97_merge_live.

(** So do AlignFormattedItem *)
Theorem C97_align_live : forall Item Val E G L W (env : objects Item Val E G L W) f w0 m0 w' m' r tr,
  srun env (AlignFormattedItemS f) w0 m0 = (w', m', r, tr) ->
  gone m0 = false -> Forall (fun x => gone (sAfter x) = false) tr ->
  exists st, lrun (as_surroundings env) (AlignFormattedItemL f) (w0, m0) (view m0) = ((w', st), view m', r, map view_event tr).
Proof. exact @align_as_live. Qed.
Print Assumptions C97_align_live.

(** and FormatItemBasic. *)
Theorem C97_basic_live : forall Item Val E G L W (env : objects Item Val E G L W) item sep w0 m0 w' m' r tr,
  srun env (FormatItemBasicS item sep) w0 m0 = (w', m', r, tr) ->
  gone m0 = false -> Forall (fun x => gone (sAfter x) = false) tr ->
  exists st, lrun (as_surroundings env) (FormatItemBasicL item sep) (w0, m0) (view m0) = ((w', st), view m', r, map view_event tr).
Proof. exact @basic_as_live. Qed.
Print Assumptions C97_basic_live.

Example C97_merge_ex :
  result (smrg H 99 same false) = Some (Ok tt) /\ lines_of (snd (smrg H 99 same false)) = [lit "* A|** A"%string ++ [x0a]; lit "*** A|"%string ++ [x0a]] /\
  result (smrg H 4 nospec false) = Some (Panic NilDereference) /\ lines_of (snd (smrg H 4 nospec false)) = [] /\
  result (smrg H 6 nospec false) = Some (Panic NilDereference) /\ lines_of (snd (smrg H 6 nospec false)) = [lit "* A|** A"%string ++ [x0a]] /\
  written_gone (snd (smrg H 6 nospec false)) = 1%nat /\
  result (smrg H 10 nospec false) = Some (Ok tt) /\ written_gone (snd (smrg H 10 nospec false)) = 1%nat /\
  result (smrg V 3 nospec true) = Some (Panic NilDereference) /\ lines_of (snd (smrg V 3 nospec true)) = [].
Proof. exact merge_cases. Qed.
Example C97_gone_ex : StaysGone (dealing 6 nospec).
Proof. apply nospec_gone. reflexivity. Qed.
Example C97_plain_ex : exists pre x, snd (smrg H 4 nospec false) = pre ++ x :: [] /\ isGet x = true /\ gone (sAfter x) = true.
Proof. exact plain_case. Qed.
Example C97_live_ex :
  Forall (fun x => gone (sAfter x) = false) (snd (smrg H 4 anew false)) /\ gone duo = false /\
  result (smrg H 4 anew false) = Some (Ok tt) /\
  flat_map (fun x => match sAct x with SCalled (CAlign _ _ w) _ => [w] | _ => [] end) (snd (smrg H 4 anew false)) = [5; 5; 0; 0; 0; 0].
Proof. exact anew_case. Qed.
