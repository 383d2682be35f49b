(** * PropRounds: what merging measures, and what the cache saves (C104). *)
From Coq Require Import Strings.String.
From Coq Require Import Permutation.
From Verif Require Import GoBase Runewidth Width Table TableExamples Merge MergeSpec FarCases Cached CachedSpec Lru LruSpec LruCases HeaderSpec
  RoundsSpec RoundsProofs RoundsCases.
Local Open Scope Z_scope.

(** A finished merge measures, if compact, one round for each number of groups
    tried, and then, as it prints, the cells in the order they are printed. *)
Theorem C104_merging : forall Item Val E c (t : PTable Item Val E) cols items rows,
  ptColumns t = map Some cols -> Forall Built cols -> Holds items rows -> Forall (fun row => (List.length cols <= List.length row)%nat) rows ->
  forall ok m fuel maxWidth sep compact k, (forall n, ok n = true) ->
  snd (effect (vwidth c) ok k (mergeP m fuel t items maxWidth sep compact)) = Finished ->
  exists g1 g lines rounds, Z.of_nat g1 = estimate (plainTable c t) (plainColumns c cols) sep maxWidth
    /\ Layout m g rows lines
    /\ (if compact then Search c (plainColumns c cols) sep maxWidth m rows g1 g /\ Rounds m (List.length cols) rows g1 g rounds else g = g1 /\ rounds = [])
    /\ texts (vwidth c) ok k (mergeP m fuel t items maxWidth sep compact) = List.concat rounds ++ shown (List.length cols) (List.concat lines).
Proof. exact @merging. Qed.
Print Assumptions C104_merging.

(** Three items of two cells: a round for two groups, one for three, which is
    rejected, and the lines. *)
Example C104_merging_example :
  Forall Built rCols /\ Holds rItems rRows /\ Forall (fun row : list str => (List.length rCols <= List.length row)%nat) rRows
  /\ effect (vwidth exC) (fun _ => true) 0 (mergeP V 9 (rTable 4 4) rItems 7 (lit "|"%string) true)
     = ([lit "a b|e f"%string ++ [x0a]; lit "c d|"%string ++ [x0a]], Finished)
  /\ List.concat (texts (vwidth exC) (fun _ => true) 0 (mergeP V 9 (rTable 4 4) rItems 7 (lit "|"%string) true)) = lit "acbdef"%string ++ lit "abcdef"%string ++ lit "abefcd"%string
  /\ effect (vwidth exC) (fun _ => true) 0 (mergeP H 9 (rTable 4 4) rItems 7 (lit "|"%string) true)
     = ([lit "a b|c d"%string ++ [x0a]; lit "e f|"%string ++ [x0a]], Finished)
  /\ List.concat (texts (vwidth exC) (fun _ => true) 0 (mergeP H 9 (rTable 4 4) rItems 7 (lit "|"%string) true)) = lit "aebfcd"%string ++ lit "abcdef"%string ++ lit "abcdef"%string.
Proof. split; [exact rBuilt|]. split; [exact rHolds|]. split; [exact rLong|]. repeat split; vm_compute; reflexivity. Qed.

(** A round measures every cell shown, once. *)
Theorem C104_round : forall m ncols g rows r, (1 <= g)%nat -> Round m ncols g rows r -> Permutation r (shown ncols rows).
Proof. exact round_perm. Qed.
Print Assumptions C104_round.

(** So a finished merge measures every cell shown as often as any other: once,
    and once more for each number of groups tried. *)
Theorem C104_times : forall Item Val E c (t : PTable Item Val E) cols items rows,
  ptColumns t = map Some cols -> Forall Built cols -> Holds items rows -> Forall (fun row => (List.length cols <= List.length row)%nat) rows ->
  forall m fuel maxWidth sep compact, snd (effect (vwidth c) (fun _ => true) 0 (mergeP m fuel t items maxWidth sep compact)) = Finished ->
  exists g1 g n, Z.of_nat g1 = estimate (plainTable c t) (plainColumns c cols) sep maxWidth
    /\ (if compact then Search c (plainColumns c cols) sep maxWidth m rows g1 g
          /\ ((Worth m rows (S g) /\ n = S (g - g1)) \/ (~ Worth m rows (S g) /\ n = (g - g1)%nat))
        else n = 0%nat)
    /\ Permutation (texts (vwidth c) (fun _ => true) 0 (mergeP m fuel t items maxWidth sep compact)) (List.concat (repeat (shown (List.length cols) rows) (S n))).
Proof. exact @times. Qed.
Print Assumptions C104_times.

Example C104_times_example : shown 2 rRows = map (fun b => [b]) (lit "abcdef"%string) /\ Worth V rRows 3 /\ ~ Worth V rRows 4
  /\ Permutation (lit "acbdef"%string ++ lit "abcdef"%string ++ lit "abefcd"%string) (List.concat (repeat (lit "abcdef"%string) 3)).
Proof. exact rTimes. Qed.

(** Vertically there are few rounds: about the root of twice the items. *)
Theorem C104_vertical : forall Item Val E c (cols : list (Column Item Val E)) sep maxWidth rows g1 g n, rows <> [] -> (1 <= g1)%nat ->
  Search c cols sep maxWidth V rows g1 g -> (Worth V rows (S g) /\ n = S (g - g1)) \/ (~ Worth V rows (S g) /\ n = (g - g1)%nat) ->
  (n <= 2 \/ n * (n - 2) < 2 * List.length rows)%nat.
Proof. exact @vertical_tries. Qed.
Print Assumptions C104_vertical.

Example C104_vertical_example : Search exC [exName] fSep 300 V (oneRows 100) 1 10 /\ ~ Worth V (oneRows 100) 11.
Proof. exact hundred_search. Qed.

(** "A merge measures a cell only a few times" is false horizontally: one item
    of one letter is measured 65535 times, and computed once. *)
Theorem C104_once_refuted : exists fuel n, 65535 <= Z.of_nat n
  /\ snd (effect (vwidth exC) (fun _ => true) 0 (mergeP H fuel sTable sItems 65534 fSep true)) = Finished
  /\ texts (vwidth exC) (fun _ => true) 0 (mergeP H fuel sTable sItems 65534 fSep true) = repeat (lit "x"%string) n
  /\ forall cap out st log, (1 <= cap)%nat -> runL cap exC (fun _ => true) 0 [] (mergeP H fuel sTable sItems 65534 fSep true) = (out, st, log) ->
     count (map snd log) = 1%nat.
Proof. exact often. Qed.
Print Assumptions C104_once_refuted.

(** With room in the cache for all of them, a program that measures all cells
    [n + 1] times computes each once; but those of no width each time. *)
Theorem C104_computed : forall A cap c ok (p : wprog A) out a log cells n, (1 <= cap)%nat -> runL cap c ok 0 [] p = (out, a, log) ->
  Permutation (texts (vwidth c) ok 0 p) (List.concat (repeat cells (S n))) -> (distinct cells <= cap)%nat ->
  count (map snd log) = (S n * zeros c cells + visible c cells)%nat.
Proof. exact @computed. Qed.
Print Assumptions C104_computed.

Example C104_computed_example : let p := mergeP V 9 (rTable 4 4) rItems 7 (lit "|"%string) true in
  let computes cap := let '(_, _, log) := runL cap exC (fun _ => true) 0 [] p in count (map snd log) in
  computes 5%nat = 15%nat /\ computes 6%nat = 6%nat /\ computes capacity = 6%nat.
Proof. repeat split; vm_compute; reflexivity. Qed.

(** FormatItem measures the cells it returns, in order. *)
Theorem C104_format : forall Item Val E w (t : PTable Item Val E) cols item row ok n, ptColumns t = map Some cols -> ptWidth t <> None ->
  Forall2 (fun col s => Gives col item s) cols row -> texts w ok n (alone (formatItemP t item)) = row.
Proof. exact @format_measures. Qed.
Print Assumptions C104_format.

Example C104_format_example : Forall2 (fun col s => Gives col ta s) [oneCol] [ta]
  /\ texts (vwidth exC) (fun _ => true) 0 (alone (formatItemP oneTable ta)) = [ta].
Proof. split; [exact (Forall2_hd _ _ _ _ _ (one_gives [ta]))|vm_compute; reflexivity]. Qed.

(** AlignFormattedItem measures the cells of columns that have an alignment,
    unless the row has the wrong length: then nothing. *)
Theorem C104_align : forall Item Val E w (t : PTable Item Val E) cols row ok n, ptColumns t = map Some cols -> Forall Built cols ->
  texts w ok n (alone (alignItemP t row)) = if (List.length row =? List.length cols)%nat then aligned cols row else [].
Proof. exact @align_measures. Qed.
Print Assumptions C104_align.

Example C104_align_example : texts (vwidth exC) (fun _ => true) 0 (alone (alignItemP (rTable 4 4) [ta; tb])) = [ta]
  /\ texts (vwidth exC) (fun _ => true) 0 (alone (alignItemP (rTable 4 4) [ta])) = [].
Proof. split; vm_compute; reflexivity. Qed.

(** FormatHeader measures of each column that has a width the title as it is shown. *)
Theorem C104_header : forall Item Val E w (t : PTable Item Val E) cols sep ok n, ptColumns t = map Some cols ->
  texts w ok n (alone (headerP t sep)) = titles t cols.
Proof. exact @header_measures. Qed.
Print Assumptions C104_header.

Example C104_header_example : texts (vwidth exC) (fun _ => true) 0 (alone (headerP (rTable 5 2) (lit "|"%string))) = [lit "Alpha"%string; lit "B"%string]
  /\ texts (vwidth exC) (fun _ => true) 0 (alone (headerP (rTable 1 0) (lit "|"%string))) = [[]].
Proof. split; vm_compute; reflexivity. Qed.
