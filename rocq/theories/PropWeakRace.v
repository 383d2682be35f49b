(** * PropWeakRace: a Condition shared without sequential consistency (C77). *)
From Verif Require Import GoBase Runewidth ConditionSpec LutRace LutRaceSpec LutRaceCases WeakRace WeakRaceSpec WeakRaceProofs WeakRaceRuns WeakRaceHalts WeakRaceCases.
Local Open Scope Z_scope.

(** C77: whatever the goroutines do, and in whatever order writes arrive, a
    width is 0, that of the condition at the start, or that of flags that were set. *)
Theorem C77_widths : forall A c (E S : bool -> Prop) (ps : list (lprog A)) y i p v a, Reachable c ->
  E (EastAsianWidth c) -> S (StrictEmojiNeutral c) -> Forall (SetsOnly E S) ps -> wexec (wstart c ps) y ->
  nth_error ps i = Some p -> nth_error (cThreads y) i = Some (v, WAt (LRet a)) -> MayReturn (answers_or_zero c E S) p a.
Proof. intros A c E S ps y i p v a Hc HE HS. exact (weak_widths c E S Hc HE HS ps y i p v a). Qed.
Print Assumptions C77_widths.

(** Every element read or written lies in a table that was made. *)
Theorem C77_memory : forall A c (E S : bool -> Prop) (ps : list (lprog A)) y i v t a j, Reachable c ->
  E (EastAsianWidth c) -> S (StrictEmojiNeutral c) -> Forall (SetsOnly E S) ps -> wexec (wstart c ps) y ->
  nth_error (cThreads y) i = Some (v, t) -> touches t a j -> 1 <= a <= cArrs y /\ 0 <= j < 0x110000 / 2.
Proof. intros A c E S ps y i v t a j Hc HE HS. exact (weak_touches c E S Hc HE HS ps y i v t a j). Qed.
Print Assumptions C77_memory.

(** There is no execution without end, and every one can be completed. *)
Theorem C77_halts : forall A c (ps : list (lprog A)), ~ exists f, f O = wstart c ps /\ forall n, wstep (f n) (f (S n)).
Proof. exact @weak_halts. Qed.
Print Assumptions C77_halts.

Theorem C77_ends : forall A c (ps : list (lprog A)) x, wexec (wstart c ps) x ->
  exists y, wexec x y /\ Forall (fun t => (exists a, snd t = WAt (LRet a)) \/ snd t = WDied) (cThreads y).
Proof. exact @weak_ends. Qed.
Print Assumptions C77_ends.

(** The executions of C61 are among these. *)
Theorem C77_contains : forall A c (ps : list (lprog A)) m ts, Reachable c -> lexec (mem_of c, map AtProg ps) (m, ts) ->
  exists y, wexec (wstart c ps) y /\ length (cThreads y) = length ts /\
    forall i, (forall p, nth_error ts i = Some (AtProg p) -> exists v, nth_error (cThreads y) i = Some (v, WAt p))
           /\ (nth_error ts i = Some Died -> exists v, nth_error (cThreads y) i = Some (v, WDied)).
Proof. exact @contained. Qed.
Print Assumptions C77_contains.

(** A table made before the goroutines are started, and not remade: no panic,
    and the widths of the table whatever is done to the flags. *)
Theorem C77_made_before : forall A c (ps : list (lprog A)) y, Reachable c -> combinedLut c <> [] -> Forall OnlyDefault ps -> wexec (wstart c ps) y ->
  (forall v, ~ In (v, WDied) (cThreads y)) /\
  forall i p v a, nth_error ps i = Some p -> nth_error (cThreads y) i = Some (v, WAt (LRet a)) -> a = result (RuneWidth c) p.
Proof. exact @made_before. Qed.
Print Assumptions C77_made_before.

Theorem C77_made_before_text : forall A c (ps : list (lprog A)) y i s (f : Z -> A) v a, Reachable c -> combinedLut c <> [] -> Forall OnlyDefault ps ->
  wexec (wstart c ps) y -> nth_error ps i = Some (stringWidthP s (fun w => LRet (f w))) ->
  nth_error (cThreads y) i = Some (v, WAt (LRet a)) -> a = f (StringWidth c s).
Proof. exact @made_before_text. Qed.
Print Assumptions C77_made_before_text.

Example C77_made_before_example : Reachable ready /\ combinedLut ready <> [] /\ Forall OnlyDefault [measurer; LSetEA true (LWidth 0xA1 LRet)] /\
  (exists y v v', wexec (wstart ready [measurer; LSetEA true (LWidth 0xA1 LRet)]) y /\ cThreads y = [(v, WAt (LRet 3)); (v', WAt (LRet 1))]) /\
  RuneWidth (plainCondition true false) 0xA1 = 2.
Proof. exact ready_example. Qed.

(** No table, and none made: no panic, and widths of flags that were set. *)
Theorem C77_no_table : forall A c (E S : bool -> Prop) (ps : list (lprog A)) y, combinedLut c = [] -> E (EastAsianWidth c) -> S (StrictEmojiNeutral c) ->
  Forall (SetsOnly E S) ps -> Forall MakesNone ps -> wexec (wstart c ps) y ->
  (forall v, ~ In (v, WDied) (cThreads y)) /\
  forall i p v a, nth_error ps i = Some p -> nth_error (cThreads y) i = Some (v, WAt (LRet a)) -> MayReturn (answers c E S) p a.
Proof. exact @no_table. Qed.
Print Assumptions C77_no_table.

Theorem C77_no_table_exact : forall A c (ps : list (lprog A)) y i p v a, combinedLut c = [] ->
  Forall (SetsOnly (eq (EastAsianWidth c)) (eq (StrictEmojiNeutral c))) ps -> Forall MakesNone ps -> wexec (wstart c ps) y ->
  nth_error ps i = Some p -> nth_error (cThreads y) i = Some (v, WAt (LRet a)) -> a = result (RuneWidth c) p.
Proof. exact @no_table_exact. Qed.
Print Assumptions C77_no_table_exact.

Example C77_no_table_example : combinedLut shared = [] /\ Forall (SetsOnly (fun _ => True) (eq false)) [LWidth 0xA1 LRet; LSetEA true (LRet 0)] /\
  Forall MakesNone [LWidth 0xA1 LRet; LSetEA true (LRet 0)] /\
  forall w, w = 1 \/ w = 2 -> exists y v v', wexec (wstart shared [LWidth 0xA1 LRet; LSetEA true (LRet 0)]) y /\ cThreads y = [(v, WAt (LRet w)); (v', WAt (LRet 0))].
Proof. exact flag_example. Qed.

(** One goroutine alone, making tables and measuring: exact, and no panic. *)
Theorem C77_alone : forall A c (p : lprog A) y v t, Reachable c ->
  (forall r, RuneWidth c r = RuneWidth (plainCondition (EastAsianWidth c) (StrictEmojiNeutral c)) r) ->
  SetsOnly (eq (EastAsianWidth c)) (eq (StrictEmojiNeutral c)) p -> wexec (wstart c [p]) y -> cThreads y = [(v, t)] ->
  t <> WDied /\ forall a, t = WAt (LRet a) -> a = result (RuneWidth c) p.
Proof. intros A c p y v t Hc Hp. exact (alone_exact c Hc Hp p y v t). Qed.
Print Assumptions C77_alone.

Example C77_alone_example : SetsOnly (eq false) (eq false) maker /\ (forall r, RuneWidth shared r = RuneWidth (plainCondition false false) r) /\
  exists y v, wexec (wstart shared [maker]) y /\ cThreads y = [(v, WAt (LRet 1))].
Proof. exact alone_example. Qed.

(** While one goroutine makes the first table, another can be told that any
    character has width 0 *)
Theorem C77_unwritten : forall A c r (q : lprog A) (k : Z -> lprog A), combinedLut c = [] -> 0 <= r <= 0x10FFFF ->
  exists y v v', wexec (wstart c [LCreate q; LWidth r k]) y /\ cThreads y = [(v, WAt q); (v', WAt (k 0))].
Proof. exact @sees_zero. Qed.
Print Assumptions C77_unwritten.

(** or die. *)
Theorem C77_torn : forall A c r (q : lprog A) (k : Z -> lprog A), combinedLut c = [] -> 0 <= r <= 0x10FFFF ->
  exists y v v', wexec (wstart c [LCreate q; LWidth r k]) y /\ cThreads y = [(v, WAt q); (v', WDied)].
Proof. exact @dies. Qed.
Print Assumptions C77_torn.

(** What C61_exact and C61_one_maker say of sequentially consistent executions does not hold here. *)
Theorem C77_one_maker_refuted : Forall (SetsOnly (eq false) (eq false)) [LCreate (LRet 0); LWidth 97 LRet] /\ MakesOne (LCreate (LRet 0)) /\ MakesNone (LWidth 97 LRet) /\
  (exists y v v', wexec (wstart shared [LCreate (LRet 0); LWidth 97 LRet]) y /\ cThreads y = [(v, WAt (LRet 0)); (v', WAt (LRet 0))]) /\
  (exists y v v', wexec (wstart shared [LCreate (LRet 0); LWidth 97 LRet]) y /\ cThreads y = [(v, WAt (LRet 0)); (v', WDied)]) /\
  result (RuneWidth shared) (LWidth 97 LRet) = 1.
Proof. exact one_maker_refuted. Qed.
Print Assumptions C77_one_maker_refuted.
