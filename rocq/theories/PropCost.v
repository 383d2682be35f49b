(** * PropCost: how much work measuring is (C82). *)
From Coq Require Import Strings.String.
From Verif Require Import GoBase Utf8 PropConst GraphemeData EastAsianData EmojiData RuneWidthData Uniseg Runewidth ConditionSpec Regex Width
  EscapeSpec Cost CostSpec CostProofs CostSearch.
Local Open Scope Z_scope.

(** C82: the binary searches look at no more than k entries of a table with
    fewer than 2^k entries, sorted or not; inTable looks at the first entry
    besides. *)
Theorem C82_search : forall dict r k, slen dict < 2 ^ Z.of_nat k ->
  fst (propertyC dict r) = property dict r /\ snd (propertyC dict r) <= Z.of_nat k.
Proof. intros dict r k K. exact (conj (propC_fst dict r) (proj2 (propC_snd dict r k K))). Qed.
Print Assumptions C82_search.

Theorem C82_inTable : forall r t k, slen t < 2 ^ Z.of_nat k ->
  fst (inTableC r t) = inTable r t /\ snd (inTableC r t) <= 1 + Z.of_nat k.
Proof. intros r t k K. exact (conj (inTableC_fst r t) (proj2 (inTableC_snd r t k K))). Qed.
Print Assumptions C82_inTable.

Example C82_search_example : slen graphemeCodePoints < 2 ^ Z.of_nat 11 /\ slen eastAsianWidth < 2 ^ Z.of_nat 12 /\
  propertyC graphemeCodePoints 0x1F600 = (prExtendedPictographic, 10).
Proof. split; [exact grapheme_size|]. split; [exact eastAsian_size|]. vm_compute. reflexivity. Qed.

(** RuneWidth: at most 54 entries, one if there is a lookup table. *)
Theorem C82_rune : forall c r, fst (RuneWidthC c r) = RuneWidth c r /\ snd (RuneWidthC c r) <= 54 /\
  (combinedLut c <> [] -> snd (RuneWidthC c r) <= 1).
Proof.
  intros c r. exact (conj (RuneWidthC_fst c r) (conj (proj2 (RuneWidthC_snd c r)) (fun N => proj2 (RuneWidthC_lut c r N)))).
Qed.
Print Assumptions C82_rune.

(** StepString: at most 27 operations for each rune of the cluster it returns,
    and 15 to find out that the cluster ends. *)
Theorem C82_step : forall s st, s <> [] -> fst (StepStringC s st) = StepString s st /\
  forall cluster rest b st', StepString s st = Some (cluster, rest, b, st') ->
  snd (StepStringC s st) <= 27 * (slen (runes s) - slen (runes rest)) + 15.
Proof. exact step_cost. Qed.
Print Assumptions C82_step.

(** StringWidth: linear in the number of runes. *)
Theorem C82_string : forall c s, fst (StringWidthC c s) = Some (StringWidth c s) /\
  snd (StringWidthC c s) <= 97 * slen (runes s) /\
  (combinedLut c <> [] -> snd (StringWidthC c s) <= 44 * slen (runes s)).
Proof. exact string_cost. Qed.
Print Assumptions C82_string.

Example C82_string_example : StringWidthC (plainCondition true false) (lit "go.mod"%string) = (Some 6, 238).
Proof. vm_compute. reflexivity. Qed.

(** The searches for escape sequences: one for each sequence and at most one
    more, and all of them together need not look at more than twice the text,
    since none must look beyond the next character that cannot belong to a
    sequence. *)
Theorem C82_searches : forall s, exists texts ns ms,
  countMatchesC ansiEscapeRE s = Some (countMatchesLength ansiEscapeRE s, texts) /\
  Forall2 Settled texts ns /\ zsum ns <= 2 * (slen s + 1) /\
  Scan (decode s) ms /\ (List.length ms <= List.length texts <= S (List.length ms))%nat.
Proof. exact count_cost. Qed.
Print Assumptions C82_searches.

Example C82_searches_example : FindStringIndex ansiEscapeRE colours = Some (0, 5) /\ ~ Settled colours 4.
Proof. exact colours_unsettled. Qed.

(** The cache: a text is measured anew if it was not asked for before or takes
    no width, and while nothing is evicted only then. *)
Theorem C82_cache : forall c pre keep s post, exists b,
  nth_error (computing c [] (pre ++ (keep, s) :: post)) (List.length pre) = Some b /\
  (vwidth c s = 0 \/ ~ In s (map snd pre) -> b = true) /\
  ((forall k t, In (k, t) pre -> forall x, k x = true) -> b = true -> vwidth c s = 0 \/ ~ In s (map snd pre)).
Proof. exact computed_again. Qed.
Print Assumptions C82_cache.

Example C82_cache_example : computing (plainCondition false false) []
  (map (fun s => (fun _ => true, s)) [lit "a"%string; []; lit "a"%string; []; lit "b"%string]) = [true; true; false; true; true].
Proof. vm_compute. reflexivity. Qed.
