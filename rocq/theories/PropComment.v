(** * PropComment: comments in the code (C80). *)
From Verif Require Import GoBase Utf8 IntervalSpec PropConst GraphemeData Uniseg SegmentSpec CrossSpec Runewidth ConditionSpec Table Merge
  TableExamples MergeExamples CommentSpec CommentProofs.
Local Open Scope Z_scope.

(** C80: the rules in the comment of uniseg's runeWidth decide every width ... *)
Theorem C80_rules : forall r, exists w, Decides (documented r) w /\ forall w', Decides (documented r) w' -> w' = w.
Proof. exact rules_total. Qed.
Print Assumptions C80_rules.

(** ... and the code follows them but for twelve wide pictographs shown as
    text, since it does not look in the order of the comment. *)
Theorem C80_width : forall r, Decides (documented r) (uniRuneWidth r (property graphemeCodePoints r)) <-> ~ Member r textPictographs.
Proof. exact documented_width. Qed.
Print Assumptions C80_width.

Theorem C80_order_refuted : forall r, Member r textPictographs ->
  uniRuneWidth r (property graphemeCodePoints r) = 1 /\ Decides (documented r) 2.
Proof. exact documented_text. Qed.
Print Assumptions C80_order_refuted.

Example C80_width_example : Member 0x3030 textPictographs /\ ~ Member 0x1F600 textPictographs
  /\ uniRuneWidth 0x1F600 (property graphemeCodePoints 0x1F600) = 2.
Proof. exact width_example. Qed.

(** The branch that "will probably never be reached" is taken for every rune
    without a property behind a control character, line break or prepended
    mark. *)
Theorem C80_branch : forall st r, OnlySpecificState st r <->
  In st [grCR; grControlLF; grPrepend] /\ HasProperty graphemeCodePoints r 0.
Proof. exact branch. Qed.
Print Assumptions C80_branch.

Theorem C80_branch_refuted : exists s cluster rest b st, StepString s (-1) = Some (cluster, rest, b, st)
  /\ fst (fst (transitionGraphemeState (-1) (fst (DecodeRune s)))) = grControlLF
  /\ OnlySpecificState grControlLF (fst (DecodeRune rest)).
Proof. exact branch_taken. Qed.
Print Assumptions C80_branch_refuted.

(** prAny is 1 though it "must be 0"; that changes no transition. *)
Theorem C80_prAny : prAny = 1 /\ forall st r,
  zeroTransition st (property graphemeCodePoints r) = transition st (property graphemeCodePoints r).
Proof. exact prAny_one. Qed.
Print Assumptions C80_prAny.

(** The parts of the state do not overlap, and fit in an int of 32 bits; the
    upper bits hold the property of the rune behind the cluster. *)
Theorem C80_state : forall s st cluster rest b st', StateFor s st -> StepString s st = Some (cluster, rest, b, st') -> rest <> [] ->
  0 <= st' < 2 ^ 31 /\ Z.land st' 15 <= 10 /\ HasProperty graphemeCodePoints (fst (DecodeRune rest)) (Z.shiftr st' 21).
Proof. exact state_bits. Qed.
Print Assumptions C80_state.

Example C80_state_example : StateFor [x61; x0d; x0a] (-1)
  /\ StepString [x61; x0d; x0a] (-1) = Some ([x61], [x0d; x0a], 16, 3 * 2 ^ 21 + 1) /\ [x0d; x0a] <> [].
Proof. split; [apply sf_start; reflexivity|]. split; [vm_compute; reflexivity|discriminate]. Qed.

(** The lookup table has 557056 bytes (one of its two comments says 557055). *)
Theorem C80_table : forall c, Reachable c -> slen (combinedLut (CreateLUT c)) = 557056.
Proof. exact lut_bytes. Qed.
Print Assumptions C80_table.

(** The reasoning in mergedRowsWidthV: it gives up when the last group would
    be empty, and then one group less takes as many lines. *)
Theorem C80_groups : forall (Item Val E : Type) c (t : Table Item Val E) items g L,
  1 <= fiLen items -> 1 <= g -> Lines (fiLen items) g L ->
  (mergedRowsWidthV c t items g = Ok None <-> (g - 1) * L > fiLen items - 1)
  /\ (g - 1 > (fiLen items - 1) / L <-> (g - 1) * L > fiLen items - 1)
  /\ (1 < g -> (g - 1) * L > fiLen items - 1 -> Lines (fiLen items) (g - 1) L).
Proof. exact worthless. Qed.
Print Assumptions C80_groups.

(** Five items: four groups would need two lines, as three do. *)
Example C80_groups_example : 1 <= fiLen (listOf mRows) /\ 1 <= 4 /\ Lines (fiLen (listOf mRows)) 4 2 /\ Lines (fiLen (listOf mRows)) 3 2
  /\ mergedRowsWidthV exC mTable (listOf mRows) 4 = Ok None /\ mergedRowsWidthV exC mTable (listOf mRows) 3 <> Ok None.
Proof. exact groups_example. Qed.

Theorem C80_lines : forall n g, 1 <= n -> 1 <= g -> exists L, Lines n g L /\ forall L', Lines n g L' -> L' = L.
Proof. exact lines_total. Qed.
Print Assumptions C80_lines.
