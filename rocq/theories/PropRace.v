(** * PropRace: goroutines sharing a Condition whose lookup table is made (C61). *)
From Verif Require Import GoBase Runewidth ConditionSpec LutRace LutRaceSpec LutRaceProofs LutRaceCases RaceHalts.
Local Open Scope Z_scope.

(** C61: whatever the goroutines do, the widths they are given are widths. *)
Theorem C61_widths : forall A c (E S : bool -> Prop) (ps : list (lprog A)) m ts i p a, Reachable c ->
  E (EastAsianWidth c) -> S (StrictEmojiNeutral c) -> Forall (SetsOnly E S) ps ->
  lexec (mem_of c, map AtProg ps) (m, ts) -> nth_error ps i = Some p ->
  nth_error ts i = Some (AtProg (LRet a)) -> MayReturn (answers c E S) p a.
Proof. intros A c E S ps m ts i p a Hc. exact (widths c E S Hc ps m ts i p a). Qed.
Print Assumptions C61_widths.

(** With fixed flags every result is that of the program run alone. *)
Theorem C61_exact : forall A c (ps : list (lprog A)) m ts i p a, Reachable c ->
  (forall r, RuneWidth c r = RuneWidth (plainCondition (EastAsianWidth c) (StrictEmojiNeutral c)) r) ->
  Forall (SetsOnly (eq (EastAsianWidth c)) (eq (StrictEmojiNeutral c))) ps ->
  lexec (mem_of c, map AtProg ps) (m, ts) -> nth_error ps i = Some p ->
  nth_error ts i = Some (AtProg (LRet a)) -> a = result (RuneWidth c) p.
Proof. exact @widths_exact. Qed.
Print Assumptions C61_exact.

Theorem C61_string_width : forall A c (ps : list (lprog A)) m ts i s (f : Z -> A) a, Reachable c ->
  (forall r, RuneWidth c r = RuneWidth (plainCondition (EastAsianWidth c) (StrictEmojiNeutral c)) r) ->
  Forall (SetsOnly (eq (EastAsianWidth c)) (eq (StrictEmojiNeutral c))) ps ->
  lexec (mem_of c, map AtProg ps) (m, ts) -> nth_error ps i = Some (stringWidthP s (fun w => LRet (f w))) ->
  nth_error ts i = Some (AtProg (LRet a)) -> a = f (StringWidth c s).
Proof. exact @string_exact. Qed.
Print Assumptions C61_string_width.

(** There is no execution without end, and every one can be completed; a
    goroutine that has not died has then returned. *)
Theorem C61_halts : forall A c (ps : list (lprog A)), Reachable c ->
  ~ exists f, f O = (mem_of c, map AtProg ps) /\ forall n, goes_on (f n) (f (S n)).
Proof. exact @lut_halts. Qed.
Print Assumptions C61_halts.

Theorem C61_ends : forall A c (ps : list (lprog A)) m ts, Reachable c -> lexec (mem_of c, map AtProg ps) (m, ts) ->
  exists m' ts', lexec (m, ts) (m', ts') /\ Forall (fun t => ended t \/ t = Died) ts'.
Proof. exact @lut_ends. Qed.
Print Assumptions C61_ends.

(** One goroutine makes the first table while others measure: no panic. *)
Theorem C61_one_maker : forall A c (ps1 : list (lprog A)) p ps2 m ts, Reachable c ->
  combinedLut c = [] -> MakesOne p -> Forall MakesNone (ps1 ++ ps2) ->
  lexec (mem_of c, map AtProg (ps1 ++ p :: ps2)) (m, ts) -> ~ In Died ts.
Proof. intros A c ps1 p ps2 m ts Hc. exact (no_panic_one c Hc ps1 p ps2 m ts). Qed.
Print Assumptions C61_one_maker.

(** With a table, any number of package-level CreateLUT calls: no panic. *)
Theorem C61_with_table : forall A c (ps : list (lprog A)) m ts, Reachable c ->
  combinedLut c <> [] -> Forall OnlyDefault ps ->
  lexec (mem_of c, map AtProg ps) (m, ts) -> ~ In Died ts.
Proof. intros A c ps m ts Hc. exact (no_panic_default c Hc ps m ts). Qed.
Print Assumptions C61_with_table.

Example C61_example : Reachable (plainCondition true false) /\ combinedLut (plainCondition true false) = [] /\
  MakesNone reader /\ MakesOne maker /\ Forall (SetsOnly (eq true) (eq false)) [reader; maker] /\
  (exists m, lexec (mem_of (plainCondition true false), map AtProg [reader; maker]) (m, map AtProg [LRet 3; LRet 2])) /\
  result (RuneWidth (plainCondition true false)) reader = 3 /\ result (RuneWidth (plainCondition true false)) maker = 2.
Proof. exact race_example. Qed.

(** The steps of one goroutine alone are the functions. *)
Theorem C61_alone : forall A c r (k : Z -> lprog A) (q : lprog A), Reachable c ->
  lexec (mem_of c, [AtProg (LWidth r k)]) (mem_of c, [AtProg (k (RuneWidth c r))]) /\
  (exists m, lexec (mem_of c, [AtProg (LCreate q)]) (m, [AtProg q]) /\ cond_of m = CreateLUT c) /\
  (exists m, lexec (mem_of c, [AtProg (LCreateDefault q)]) (m, [AtProg q]) /\
     cond_of m = if 0 <? slen (combinedLut c) then c else CreateLUT c).
Proof. exact @alone_functions. Qed.
Print Assumptions C61_alone.

(** Remaking a table while a width is asked for can end the program. *)
Theorem C61_remake_refuted : forall A c r (k : Z -> lprog A) (q : lprog A), Reachable c -> combinedLut c <> [] ->
  0 <= r <= 0x10FFFF -> exists m t, lexec (mem_of c, map AtProg [LWidth r k; LCreate q]) (m, [Died; t]).
Proof. exact @remake_panics. Qed.
Print Assumptions C61_remake_refuted.

(** So can two goroutines that each call the package-level CreateLUT first. *)
Theorem C61_both_default_refuted : forall A c r (k : Z -> lprog A) (q : lprog A), Reachable c -> combinedLut c = [] ->
  0 <= r <= 0x10FFFF -> exists m t,
    lexec (mem_of c, map AtProg [LCreateDefault (LWidth r k); LCreateDefault q]) (m, [Died; t]).
Proof. exact @both_default_panics. Qed.
Print Assumptions C61_both_default_refuted.

(** They can also leave no table at all. *)
Theorem C61_table_lost_refuted : forall A c (p q : lprog A), Reachable c -> combinedLut c = [] ->
  exists m, lexec (mem_of c, map AtProg [LCreateDefault p; LCreateDefault q]) (m, map AtProg [p; q]) /\
    combinedLut (cond_of m) = [].
Proof. exact @table_lost. Qed.
Print Assumptions C61_table_lost_refuted.

(** When both flags change, a width can be one the condition never had. *)
Theorem C61_torn_flags_refuted : exists m,
  lexec (mem_of (plainCondition true true), map AtProg [LWidth 0x1F321 LRet; LSetEA false (LSetStrict false (LRet 0))])
        (m, map AtProg [LRet 2; LRet 0]) /\
  RuneWidth (plainCondition true true) 0x1F321 = 1 /\ RuneWidth (plainCondition false true) 0x1F321 = 1 /\
  RuneWidth (plainCondition false false) 0x1F321 = 1.
Proof. exact torn_flags. Qed.
Print Assumptions C61_torn_flags_refuted.
