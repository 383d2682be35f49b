(** * PropMeasured: only padding depends on what measurements return (C90). *)
From Coq Require Import Strings.String.
From Verif Require Import GoBase Runewidth ConditionSpec Width AlignSpec Table TableContract Merge MergeSpec ReadSpec Cached CachedSpec
  MeasuredSpec MeasuredProofs MeasuredExact MeasuredCases.
Local Open Scope Z_scope.

(** An alignment adds spaces, as many as it likes up to the width. *)
Theorem C90_align : forall a s n x, 0 <= n < 65536 ->
  (may (alignP a s n) x <-> exists k, 0 <= k <= n /\ PaddedBy a k s x).
Proof. exact align_may. Qed.
Print Assumptions C90_align.

Example C90_align_case : may (alignP ACenter (lit "x"%string) 3) (lit " x "%string) /\ may (alignP ACenter (lit "x"%string) 3) (lit "x"%string).
Proof.
  split; apply align_may; try (split; [discriminate|reflexivity]).
  - exists 2. split; [split; discriminate|reflexivity].
  - exists 0. split; [split; discriminate|reflexivity].
Qed.

(** FormatItem returns the same strings whatever is measured. *)
Theorem C90_format : forall (Item Val E : Type) (t : PTable Item Val E) item row r,
  ptWidth t <> None -> Quiet t item row -> may (formatItemP t item) r -> snd r = Ok row /\ Grows t (fst r).
Proof. exact @format_may. Qed.
Print Assumptions C90_format.

(** The width recorded may be any. *)
Example C90_format_case : ptWidth sTable <> None /\ Quiet sTable mark [mark]
  /\ forall w, 0 < w < 65536 -> exists t', may (formatItemP sTable mark) (t', Ok [mark]) /\ widthP t' (lit "n"%string) = w.
Proof. exact sQuiet. Qed.

(** AlignFormattedItem pads them, or reports the wrong number. *)
Theorem C90_align_item : forall (Item Val E : Type) (t : PTable Item Val E) cols als row r,
  ptColumns t = map Some cols -> Forall2 (fun a col => pcAlignment col = Some (alignP a)) als cols ->
  (forall col, In col cols -> 0 <= widthP t (pcName col) < 65536) -> may (alignItemP t row) r ->
  (List.length row <> List.length cols /\ r = (row, Err (slen row, slen cols)))
  \/ exists xs, CellsMay als (recordedP t cols) row xs /\ r = (xs, Ok xs).
Proof. exact @align_item_may. Qed.
Print Assumptions C90_align_item.

Example C90_align_item_case : may (alignItemP mTable [mark]) ([mark ++ [space]], Ok [mark ++ [space]]).
Proof. exact mAlign. Qed.

(** A merge prints every row once, in its place, the cells padded; measurements
    decide how much padding there is and how many groups compaction finds. *)
Theorem C90_merge : forall (Item Val E : Type) (t : PTable Item Val E) cols als items rows,
  CanPrint t cols als items rows -> forall m fuel maxWidth sep compact out st,
  reckonedP t cols sep mod 65536 <> 0 ->
  unsure (fun _ => true) 0 (mergeP m fuel t items maxWidth sep compact) out st ->
  (compact = true /\ st = Running /\ out = [] /\ (m = V -> fuel = 0%nat \/ (fuel < List.length rows)%nat))
  \/ (st = Finished /\ exists g W, (1 <= g)%nat /\ InRange W g /\ MayPrint als sep m rows g W out
      /\ ((Z.of_nat g = estimateP t cols sep maxWidth /\ W = fun _ => recordedP t cols)
          \/ (compact = true /\ estimateP t cols sep maxWidth < Z.of_nat g < estimateP t cols sep maxWidth + Z.of_nat fuel
              /\ Worth m rows g /\ forall k, (k < g)%nat -> List.length (W k) = List.length cols))).
Proof. exact @merge_may. Qed.
Print Assumptions C90_merge.

Theorem C90_zero : forall (Item Val E : Type) (t : PTable Item Val E) cols als items rows,
  CanPrint t cols als items rows -> forall m fuel maxWidth sep compact out st,
  reckonedP t cols sep mod 65536 = 0 ->
  unsure (fun _ => true) 0 (mergeP m fuel t items maxWidth sep compact) out st ->
  out = [] /\ st = Panicked DivideByZero.
Proof. exact @merge_may_zero. Qed.
Print Assumptions C90_zero.

(** Without compaction all of this may be printed, and nothing else. *)
Theorem C90_exact : forall (Item Val E : Type) (t : PTable Item Val E) cols als items rows,
  CanPrint t cols als items rows -> forall m fuel maxWidth sep out,
  reckonedP t cols sep mod 65536 <> 0 ->
  (unsure (fun _ => true) 0 (mergeP m fuel t items maxWidth sep false) out Finished <->
   MayPrint als sep m rows (Z.to_nat (estimateP t cols sep maxWidth)) (fun _ => recordedP t cols) out).
Proof. exact @plain_exact. Qed.
Print Assumptions C90_exact.

(** The cells can be read back from whatever was printed. *)
Theorem C90_read : forall (Item Val E : Type) (t : PTable Item Val E) cols als items rows,
  CanPrint t cols als items rows -> forall x sep m g W out,
  als <> [] -> Marks x sep -> (1 <= g)%nat -> LegibleRows x (List.length als) rows ->
  MayPrint als sep m rows g W out ->
  exists lines, Layout m g rows lines /\ read_output sep (List.concat out) = map (map (firstn (List.length als))) lines.
Proof. exact @may_read. Qed.
Print Assumptions C90_read.

Example C90_read_case : Marks x7c mSep /\ LegibleRows x7c 1 mRows.
Proof. exact mLegible. Qed.

(** This holds of runs with the cache when the display condition changes before
    any measurement and other goroutines use the cache. *)
Theorem C90_drifting : forall A ok m n (p : wprog A) out a, Uints m -> drifting ok m n p out a -> unsure ok n p out a.
Proof. exact @drifting_unsure. Qed.
Print Assumptions C90_drifting.

Example C90_case : CanPrint mTable [mCol] [ALeft] mItems mRows /\ reckonedP mTable [mCol] mSep mod 65536 <> 0
  /\ Uints mCache /\ drifting (fun _ => true) mCache 0 mMerge [mark ++ lit " "%string ++ [x0a]; lit "bb"%string ++ [x0a]] Finished.
Proof. exact (conj mPrint (conj mReckoned (conj mCache_uints mDrift))). Qed.

(** That the columns are straight does depend on it: with widths measured before
    a change of mode left in the cache, the columns are not straight in any mode
    in which all of the printing was done. *)
Theorem C90_straight_refuted : exists (t : PTable unit unit str) cols als items rows c c' sep m' line line',
  CanPrint t cols als items rows /\ (forall col row s, In col cols -> In row rows -> In s row -> vwidth c' s = widthP t (pcName col))
  /\ cached c' (fun _ => true) (snd (visualWidth c (fun _ => true) [] mark)) 0 (mergeP H 9 t items 2 sep false) m'
       [line ++ [x0a]; line' ++ [x0a]] Finished
  /\ vwidth c' line <> vwidth c' line'.
Proof. exact straight_refuted. Qed.
Print Assumptions C90_straight_refuted.
