(** * PropMethods: what visualWidth measures, and the other methods its comment names (C78). *)
From Coq Require Import Strings.String.
From Verif Require Import GoBase Utf8 Utf8Spec Runewidth ConditionSpec Width TextSpec TableExamples MethodsSpec MethodsProofs MethodsCases.
Local Open Scope Z_scope.

(** C78: every text can be taken apart in exactly one way. *)
Theorem C78_apart : forall s, exists ps es, Apart s ps es /\ forall ps' es', Apart s ps' es' -> ps' = ps /\ es' = es.
Proof. exact apart_all. Qed.
Print Assumptions C78_apart.

(** The visual width is that of the texts between the sequences, each but the
    first measured as if it stood behind a letter. *)
Theorem C78_measured : forall c s p ps es, Reachable c -> Apart s (p :: ps) es ->
  rawWidth c s = StringWidth c p + zsum (map (behind c) ps) - c1_introduced es.
Proof. exact measured_sum. Qed.
Print Assumptions C78_measured.

Example C78_example : Reachable exC /\ Apart accented [lit "a"%string; [xcc; x81] ++ lit "b"%string] [x1b :: lit "[1m"%string]
  /\ behind exC ([xcc; x81] ++ lit "b"%string) = 1 /\ rawWidth exC accented = 2.
Proof. exact accented_example. Qed.

(** So if none begins with a mark it is the sum of their widths. *)
Theorem C78_sum : forall c s p ps es, Reachable c -> Apart s (p :: ps) es -> Forall (fun q => ~ JoinsPrevious q) ps ->
  rawWidth c s = zsum (map (StringWidth c) (p :: ps)) - c1_introduced es.
Proof. exact whole_sum. Qed.
Print Assumptions C78_sum.

(** Method 3, removing the sequences first, never gives more. *)
Theorem C78_removed : forall c s p ps es, Reachable c -> Apart s (p :: ps) es -> Forall (fun q => ~ JoinsPrevious q) ps ->
  Forall StartsRune ps -> c1_introduced es = 0 -> StringWidth c (List.concat (p :: ps)) <= rawWidth c s.
Proof. exact removed_le. Qed.
Print Assumptions C78_removed.

(** It gives the same where no cluster reaches across a sequence. *)
Theorem C78_removed_same : forall c s p ps es, Reachable c -> Apart s (p :: ps) es -> Forall (fun q => ~ JoinsPrevious q) ps ->
  Forall StartsRune ps -> c1_introduced es = 0 -> SeamsBreak (p :: ps) -> StringWidth c (List.concat (p :: ps)) = rawWidth c s.
Proof. exact removed_eq. Qed.
Print Assumptions C78_removed_same.

(** Method 2, leaving the sequences in, counts every byte of them but the first. *)
Theorem C78_kept : forall c s ps es, Apart s ps es -> StringWidth c s = rawWidth c s + zsum (map (fun e => slen e - 1) es).
Proof. exact with_sequences. Qed.
Print Assumptions C78_kept.

(** Method 1, counting bytes, is too large by one for each sequence even if
    the rest is printable ASCII. *)
Theorem C78_bytes : forall c s p ps es, Reachable c -> Apart s (p :: ps) es ->
  Forall (Forall (fun b => 0x20 <= bv b <= 0x7E)) (p :: ps) ->
  slen s - countMatchesLength ansiEscapeRE s = rawWidth c s + c1_introduced es + slen es.
Proof. exact bytes_counted. Qed.
Print Assumptions C78_bytes.

Example C78_coloured : Reachable exC /\ Apart coloured colouredPieces colouredSequences
  /\ Forall (fun q => ~ JoinsPrevious q) (tl colouredPieces) /\ Forall StartsRune (tl colouredPieces)
  /\ c1_introduced colouredSequences = 0 /\ SeamsBreak colouredPieces
  /\ Forall (Forall (fun b => 0x20 <= bv b <= 0x7E)) colouredPieces
  /\ rawWidth exC coloured = 8 /\ StringWidth exC (List.concat colouredPieces) = 8 /\ StringWidth exC coloured = 15
  /\ slen coloured - countMatchesLength ansiEscapeRE coloured = 10.
Proof. exact coloured_example. Qed.

Theorem C78_bytes_refuted : exists c s, Reachable c /\ slen s - countMatchesLength ansiEscapeRE s <> rawWidth c s
  /\ Forall (fun b => bv b = 0x1B \/ 0x20 <= bv b <= 0x7E) s.
Proof. exact bytes_refuted. Qed.
Print Assumptions C78_bytes_refuted.

(** An emoji sequence with a colour inside is one character for method 3. *)
Theorem C78_across_refuted : exists c s p ps es, Reachable c /\ Apart s (p :: ps) es /\ Forall (fun q => ~ JoinsPrevious q) ps
  /\ Forall StartsRune ps /\ c1_introduced es = 0 /\ StringWidth c (List.concat (p :: ps)) = 2 /\ rawWidth c s = 4.
Proof. exact family_refuted. Qed.
Print Assumptions C78_across_refuted.

(** A vowel sign behind a sequence is measured less than without the sequence. *)
Theorem C78_mark_refuted : exists c s p ps es, Reachable c /\ Apart s (p :: ps) es /\ Forall StartsRune ps /\ c1_introduced es = 0
  /\ rawWidth c s = 0 /\ StringWidth c (List.concat (p :: ps)) = 1.
Proof. exact vowel_refuted. Qed.
Print Assumptions C78_mark_refuted.
