(** * PropWidth: properties of the visual width (C04, C05, C08, C09). *)
From Coq Require Import Strings.String.
From Verif Require Import GoBase Utf8 GraphemeSpec Runewidth ConditionSpec Regex Width EscapeSpec
  TextSpec Utf8Proofs RegexProofs ScanProofs WidthProofs WidthTheory.
Local Open Scope Z_scope.

(** C04. *)
Theorem C04_ascii_width : forall c s, Reachable c ->
  Forall (fun b => 0x20 <= bv b <= 0x7E) s ->
  rawWidth c s = slen s /\ (slen s < 65536 -> vwidth c s = slen s).
Proof. exact ascii_width. Qed.
Print Assumptions C04_ascii_width.

Theorem C04_modulo : forall c s, vwidth c s = rawWidth c s mod 65536 /\ 0 <= vwidth c s < 65536.
Proof. exact vwidth_mod. Qed.
Print Assumptions C04_modulo.

Example C04_example : vwidth (plainCondition true false) (lit "hello, w~rld "%string) = 13.
Proof. vm_compute. reflexivity. Qed.

(** A line of 65536 spaces measures 0. *)
Theorem C04_wraps : forall c, Reachable c -> vwidth c (spaces 65536) = 0.
Proof. exact vwidth_wraps. Qed.
Print Assumptions C04_wraps.

(** C05. *)
Theorem C05_sequences_take_no_width : forall c a e b, Reachable c ->
  EscSequence e -> ~ JoinsPrevious b ->
  rawWidth c (a ++ e ++ b) = rawWidth c a + rawWidth c b.
Proof. exact rawWidth_sequence. Qed.
Print Assumptions C05_sequences_take_no_width.

Theorem C05_colour_is_sequence : forall e, SGR e -> EscSequence e.
Proof. exact SGR_sequence. Qed.
Print Assumptions C05_colour_is_sequence.

Theorem C05_wrap_in_colour : forall c on off s, Reachable c -> SGR on -> SGR off ->
  ~ JoinsPrevious s -> vwidth c (on ++ s ++ off) = vwidth c s.
Proof. exact wrap_in_colour. Qed.
Print Assumptions C05_wrap_in_colour.

Example C05_example :
  SGR (x1b :: (x5b :: lit "1;38;5"%string) ++ [x6d]) /\ ~ JoinsPrevious (lit "text"%string)
  /\ vwidth (plainCondition false true) (lit "some "%string ++ (x1b :: (x5b :: lit "1;38;5"%string) ++ [x6d]) ++ lit "text"%string) = 9.
Proof. exact sgr_example. Qed.

(** A text that starts with a joining mark is not measured independently. *)
Theorem C05_joining_refuted : exists c a e b, Reachable c /\ SGR e /\
  vwidth c (a ++ e ++ b) <> u16 (vwidth c a + vwidth c b).
Proof. exact sequence_joining_refuted. Qed.
Print Assumptions C05_joining_refuted.

(** C08. *)
Theorem C08_no_underflow : forall c s, Reachable c -> ~ In 0x9B (runes s) ->
  0 <= countMatchesLength ansiEscapeRE s <= StringWidth c s.
Proof. exact no_underflow. Qed.
Print Assumptions C08_no_underflow.

Theorem C08_exact : forall c s, Reachable c -> ~ In 0x9B (runes s) ->
  StringWidth c s < 65536 -> vwidth c s = StringWidth c s - countMatchesLength ansiEscapeRE s.
Proof. exact vwidth_exact. Qed.
Print Assumptions C08_exact.

(** In general each U+009B costs at most one cell. *)
Theorem C08_c1_bound : forall c s, Reachable c ->
  countMatchesLength ansiEscapeRE s <= StringWidth c s + slen (filter (fun r => r =? 0x9B) (runes s)).
Proof. exact c1_bound. Qed.
Print Assumptions C08_c1_bound.

Example C08_example : vwidth (plainCondition false true) (x1b :: lit "[31m"%string ++ [x1b]) = 0.
Proof. vm_compute. reflexivity. Qed.

Theorem C08_c1_refuted : exists c s, Reachable c /\ runes s = [0x9B; 0x6D] /\ rawWidth c s = -1 /\ vwidth c s = 65535.
Proof. exact c1_refuted. Qed.
Print Assumptions C08_c1_refuted.

(** C09. *)
Theorem C09_leftmost_longest : forall s i j, FindStringIndex ansiEscapeRE s = Some (i, j) ->
  exists pre m rest, decode s = pre ++ m ++ rest /\ FirstEscape pre m rest
    /\ i = text_bytes pre /\ j = i + text_bytes m.
Proof. exact find_some. Qed.
Print Assumptions C09_leftmost_longest.

Theorem C09_no_match : forall s, FindStringIndex ansiEscapeRE s = None <->
  (forall pre m rest, decode s = pre ++ m ++ rest -> ~ Escape (text_runes m)).
Proof. exact find_none. Qed.
Print Assumptions C09_no_match.

Theorem C09_count_terminates : forall s, exists ms, Scan (decode s) ms
  /\ countMatchesLength_go ansiEscapeRE s = Some (zsum (map (fun m => text_bytes m - 1) ms)).
Proof. exact count_terminates. Qed.
Print Assumptions C09_count_terminates.

Theorem C09_scan_unique : forall l ms ms', Scan l ms -> Scan l ms' -> ms = ms'.
Proof. exact scan_unique. Qed.
Print Assumptions C09_scan_unique.

Example C09_example : FindStringIndex ansiEscapeRE (lit "ab"%string ++ x1b :: lit "[12345m"%string) = Some (2, 9).
Proof. vm_compute. reflexivity. Qed.
