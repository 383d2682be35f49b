(** * PropMerge: properties of merged rows (C32 to C42). *)
From Coq Require Import Strings.String.
From Verif Require Import GoBase Utf8 Runewidth ConditionSpec Width TextSpec AlignSpec Table TableContract TableExamples
  Merge MergeSpec MergeLayout MergeRender MergeSearch MergeTheory MergeWidths MergePlan MergePrinted MergeGroups MergeExamples MergeCases.
Local Open Scope Z_scope.

(** C32. *)
Theorem C32_horizontal_output : forall (Item Val E : Type) c (t : Table Item Val E) cols items rows,
  Printable t cols items rows -> forall fuel maxWidth sep compact, reckoned t cols sep mod 65536 <> 0 ->
  stop (MergeRowsHorizontal fuel c t (fun _ => true) items maxWidth sep compact) = Finished ->
  exists g lines W, Plan c t cols sep maxWidth H rows compact g lines W
    /\ written (MergeRowsHorizontal fuel c t (fun _ => true) items maxWidth sep compact) = printed c cols sep W g lines.
Proof. exact @horizontal_output. Qed.
Print Assumptions C32_horizontal_output.

Theorem C32_horizontal_exact : forall (Item Val E : Type) c (t : Table Item Val E) cols items rows,
  Printable t cols items rows -> forall maxWidth sep compact g lines W fuel, reckoned t cols sep mod 65536 <> 0 ->
  Plan c t cols sep maxWidth H rows compact g lines W -> (g < fuel)%nat ->
  MergeRowsHorizontal fuel c t (fun _ => true) items maxWidth sep compact =
  {| written := printed c cols sep W g lines; stop := Finished |}.
Proof. exact @horizontal_exact. Qed.
Print Assumptions C32_horizontal_exact.

Theorem C32_horizontal_positions : forall (A : Type) g (rows : list A) lines, (1 <= g)%nat -> Layout H g rows lines ->
  (forall l k, get2 lines l k = if (k <? g)%nat then nth_error rows (l * g + k) else None)
  /\ (rows <> [] -> List.concat lines = rows).
Proof. exact @horizontal_reading. Qed.
Print Assumptions C32_horizontal_positions.

Theorem C32_every_item_once : forall (A : Type) m g (rows : list A) lines i, (1 <= g)%nat -> Layout m g rows lines -> (i < List.length rows)%nat ->
  let position l k := match m with H => l * g + k | V => k * List.length lines + l end%nat in
  exists l k, position l k = i /\ (k < g)%nat /\ (l < List.length lines)%nat /\ get2 lines l k = nth_error rows i
    /\ forall l' k', (k' < g)%nat -> (l' < List.length lines)%nat -> position l' k' = i -> l' = l /\ k' = k.
Proof. exact @layout_once. Qed.
Print Assumptions C32_every_item_once.

Example C32_example : reckoned mTable mCols mSep mod 65536 <> 0
  /\ written (MergeRowsHorizontal 20 exC mTable (fun _ => true) (listOf mRows) 26 mSep false)
     = [lit "go.mod 12 |x       3"%string ++ [x0a]; [xe6; x97; xa5] ++ lit "      5 |ab      7"%string ++ [x0a];
        lit "c       9 |"%string ++ [x0a]]
  /\ written (MergeRowsHorizontal 20 exC mTable (fun _ => true) (listOf mRows) 26 mSep true)
     = [lit "go.mod 12 |x 3 |"%string ++ [xe6; x97; xa5] ++ lit " 5 |ab 7"%string ++ [x0a];
        lit "c       9 |"%string ++ [x0a]].
Proof. split; [discriminate|]. split; vm_compute; reflexivity. Qed.

(** C33. *)
Theorem C33_vertical_output : forall (Item Val E : Type) c (t : Table Item Val E) cols items rows,
  Printable t cols items rows -> forall fuel maxWidth sep compact, reckoned t cols sep mod 65536 <> 0 ->
  stop (MergeRowsVertical fuel c t (fun _ => true) items maxWidth sep compact) = Finished ->
  exists g lines W, Plan c t cols sep maxWidth V rows compact g lines W
    /\ written (MergeRowsVertical fuel c t (fun _ => true) items maxWidth sep compact) = printed c cols sep W g lines.
Proof. exact @vertical_output. Qed.
Print Assumptions C33_vertical_output.

Theorem C33_vertical_exact : forall (Item Val E : Type) c (t : Table Item Val E) cols items rows,
  Printable t cols items rows -> forall maxWidth sep compact g lines W fuel, reckoned t cols sep mod 65536 <> 0 ->
  Plan c t cols sep maxWidth V rows compact g lines W -> (g < fuel)%nat ->
  MergeRowsVertical fuel c t (fun _ => true) items maxWidth sep compact =
  {| written := printed c cols sep W g lines; stop := Finished |}.
Proof. exact @vertical_exact. Qed.
Print Assumptions C33_vertical_exact.

Theorem C33_vertical_positions : forall (A : Type) g (rows : list A) lines, (1 <= g)%nat -> Layout V g rows lines ->
  (forall l k, get2 lines l k = if (l <? List.length lines)%nat then nth_error rows (k * List.length lines + l) else None)
  /\ (rows <> [] -> ((List.length lines - 1) * g < List.length rows <= List.length lines * g)%nat).
Proof. exact @vertical_reading. Qed.
Print Assumptions C33_vertical_positions.

Example C33_example :
  written (MergeRowsVertical 20 exC mTable (fun _ => true) (listOf mRows) 26 mSep false)
     = [lit "go.mod 12 |ab      7"%string ++ [x0a]; lit "x       3 |c       9"%string ++ [x0a];
        [xe6; x97; xa5] ++ lit "      5 |"%string ++ [x0a]]
  /\ written (MergeRowsVertical 20 exC mTable (fun _ => true) (listOf mRows) 26 mSep true)
     = [lit "go.mod 12 |"%string ++ [xe6; x97; xa5] ++ lit " 5 |c 9"%string ++ [x0a];
        lit "x       3 |ab 7 |"%string ++ [x0a]].
Proof. split; vm_compute; reflexivity. Qed.

(** C34. *)
Theorem C34_lines_fit : forall (Item Val E : Type) c (t : Table Item Val E) cols items rows,
  Printable t cols items rows -> Reachable c -> Forall (BuiltIn c) cols -> IsolatedCells cols rows ->
  (forall name, 0 <= Width t name < 65536) ->
  forall m fuel sep maxWidth, Separates sep -> 0 <= maxWidth -> maxWidth + slen sep < 65536 ->
  reckoned t cols sep mod 65536 <> 0 -> reckoned t cols sep < 65536 -> zsum (recorded t cols) + slen cols - 1 <= maxWidth ->
  FitsRecorded c t cols rows ->
  forall txt, In txt (written (merge m fuel c t (fun _ => true) items maxWidth sep false)) ->
  exists line, txt = line ++ [x0a] /\ vwidth c line <= maxWidth.
Proof. exact @plain_lines_fit. Qed.
Print Assumptions C34_lines_fit.

Theorem C34_most_groups : forall (Item Val E : Type) (t : Table Item Val E) cols sep maxWidth g',
  0 < reckoned t cols sep < 65536 -> 0 <= maxWidth -> maxWidth + slen sep < 65536 ->
  estimate t cols sep maxWidth < g' -> maxWidth + slen sep < g' * reckoned t cols sep.
Proof. exact @estimate_most. Qed.
Print Assumptions C34_most_groups.

(** The lines printed have that many groups. *)
Theorem C34_groups : forall (Item Val E : Type) c (t : Table Item Val E) cols items rows,
  Printable t cols items rows -> forall m fuel sep maxWidth,
  0 < reckoned t cols sep < 65536 -> 0 <= maxWidth -> maxWidth + slen sep < 65536 ->
  exists g lines, Layout m g rows lines /\ (1 <= g)%nat
    /\ written (merge m fuel c t (fun _ => true) items maxWidth sep false) = printed c cols sep (fun _ => recorded t cols) g lines
    /\ (g = 1%nat \/ Z.of_nat g * reckoned t cols sep <= maxWidth + slen sep)
    /\ forall g', (g < g')%nat -> maxWidth + slen sep < Z.of_nat g' * reckoned t cols sep.
Proof. exact @plain_groups. Qed.
Print Assumptions C34_groups.

(** With one column no further group would fit. *)
Theorem C34_one_column : forall (Item Val E : Type) (t : Table Item Val E) cols sep maxWidth g',
  0 < reckoned t cols sep < 65536 -> 0 <= maxWidth -> maxWidth + slen sep < 65536 ->
  slen cols = 1 -> estimate t cols sep maxWidth < Z.of_nat g' ->
  maxWidth < total sep cols (fun _ => recorded t cols) g'.
Proof. exact @one_column_most. Qed.
Print Assumptions C34_one_column.

Example C34_example : Printable mTable mCols (listOf mRows) mRows /\ Reachable exC /\ Forall (BuiltIn exC) mCols
  /\ IsolatedCells mCols mRows /\ (forall name, 0 <= Width mTable name < 65536) /\ Separates mSep
  /\ reckoned mTable mCols mSep = 12 /\ zsum (recorded mTable mCols) + slen mCols - 1 = 9
  /\ FitsRecorded exC mTable mCols mRows.
Proof. exact fit_example. Qed.

(** An empty separator: the spaces inside the blocks are not reckoned with. *)
Theorem C34_empty_separator_refuted : exists (t : Table (list str) str str) cols rows maxWidth,
  Printable t cols (listOf rows) rows /\ Forall (BuiltIn exC) cols /\ IsolatedCells cols rows /\ FitsRecorded exC t cols rows
  /\ zsum (recorded t cols) + slen cols - 1 <= maxWidth /\ maxWidth < 65536
  /\ exists line, In (line ++ [x0a]) (written (merge H 1 exC t (fun _ => true) (listOf rows) maxWidth [] false))
     /\ maxWidth < vwidth exC line.
Proof. exact empty_separator. Qed.
Print Assumptions C34_empty_separator_refuted.

(** C35. *)
Theorem C35_compact_lines_fit : forall (Item Val E : Type) c (t : Table Item Val E) cols items rows,
  Printable t cols items rows -> Reachable c -> Forall (BuiltIn c) cols -> IsolatedCells cols rows ->
  (forall name, 0 <= Width t name < 65536) ->
  forall m fuel sep maxWidth g0 g, Separates sep -> reckoned t cols sep mod 65536 <> 0 ->
  Z.of_nat g0 = estimate t cols sep maxWidth -> Search c cols sep maxWidth m rows g0 g -> (g0 < g < g0 + fuel)%nat ->
  (forall w, CompactTotal c cols sep m rows g w -> w < 65536) ->
  forall txt, In txt (written (merge m fuel c t (fun _ => true) items maxWidth sep true)) ->
  exists line, txt = line ++ [x0a] /\ vwidth c line <= effective maxWidth.
Proof. exact @compact_lines_fit. Qed.
Print Assumptions C35_compact_lines_fit.

Example C35_example : exists g, Search exC mCols mSep 26 H mRows 2 g /\ (2 < g < 2 + 20)%nat
  /\ Z.of_nat 2 = estimate mTable mCols mSep 26
  /\ (forall w, CompactTotal exC mCols mSep H mRows g w -> w < 65536)
  /\ map (vwidth exC) (written (merge H 20 exC mTable (fun _ => true) (listOf mRows) 26 mSep true)) = [26; 11].
Proof. exact compact_example. Qed.

(** C36. *)
Theorem C36_terminates : forall (Item Val E : Type) c (t : Table Item Val E) cols items rows,
  Printable t cols items rows -> forall fuel maxWidth sep, reckoned t cols sep mod 65536 <> 0 ->
  (1 <= fuel)%nat -> (List.length rows <= fuel)%nat ->
  stop (MergeRowsVertical fuel c t (fun _ => true) items maxWidth sep true) = Finished.
Proof. exact @vertical_terminates. Qed.
Print Assumptions C36_terminates.

Theorem C36_no_more_lines : forall (Item Val E : Type) c (t : Table Item Val E) cols items rows,
  Printable t cols items rows -> forall fuel maxWidth sep,
  stop (MergeRowsVertical fuel c t (fun _ => true) items maxWidth sep true) = Finished ->
  (List.length (written (MergeRowsVertical fuel c t (fun _ => true) items maxWidth sep true)) <=
   List.length (written (MergeRowsVertical fuel c t (fun _ => true) items maxWidth sep false)))%nat.
Proof. exact @vertical_no_more_lines. Qed.
Print Assumptions C36_no_more_lines.

Theorem C36_groups : forall (Item Val E : Type) c (cols : list (Column Item Val E)) rows maxWidth sep g0, (1 <= g0)%nat ->
  exists g, Search c cols sep maxWidth V rows g0 g /\ (g <= Nat.max g0 (List.length rows))%nat.
Proof. exact @vertical_search. Qed.
Print Assumptions C36_groups.

(** Five items, widest possible: five rounds suffice. *)
Example C36_example : stop (MergeRowsVertical 5 exC mTable (fun _ => true) (listOf mRows) 65535 (lit "  "%string) true) = Finished
  /\ stop (MergeRowsVertical 5 exC mTable (fun _ => true) (listOf mRows) 26 mSep true) = Finished.
Proof. split; vm_compute; reflexivity. Qed.

(** C37. *)
Theorem C37_terminates : forall (Item Val E : Type) c (t : Table Item Val E) cols items rows,
  Printable t cols items rows -> forall fuel maxWidth sep, reckoned t cols sep mod 65536 <> 0 ->
  1 <= slen sep + slen cols - 1 -> slen sep + slen cols - 1 <= 65535 - effective maxWidth ->
  slen rows + effective maxWidth + 1 < Z.of_nat fuel ->
  stop (MergeRowsHorizontal fuel c t (fun _ => true) items maxWidth sep true) = Finished.
Proof. exact @horizontal_terminates. Qed.
Print Assumptions C37_terminates.

Theorem C37_diverges : forall (Item Val E : Type) c (t : Table Item Val E) cols items rows,
  Printable t cols items rows -> forall fuel maxWidth sep, reckoned t cols sep mod 65536 <> 0 ->
  (effective maxWidth = 65535 \/
   (sep = [] /\ List.length cols = 1%nat /\ zsum (map (first_width (c := c)) rows) <= effective maxWidth)) ->
  forall ok, MergeRowsHorizontal fuel c t ok items maxWidth sep true = {| written := []; stop := Running |}.
Proof. exact @horizontal_diverges. Qed.
Print Assumptions C37_diverges.

(** In general: the search goes on exactly as long as groups are acceptable. *)
Theorem C37_running : forall (Item Val E : Type) c (t : Table Item Val E) cols items rows,
  Printable t cols items rows -> forall m fuel maxWidth sep g0, reckoned t cols sep mod 65536 <> 0 ->
  Z.of_nat g0 = estimate t cols sep maxWidth ->
  (stop (merge m fuel c t (fun _ => true) items maxWidth sep true) = Running <->
   forall g, (g0 < g <= g0 + fuel)%nat -> Acceptable c cols sep maxWidth m rows g).
Proof. exact @compact_running. Qed.
Print Assumptions C37_running.

(** More fuel changes nothing once the search has ended. *)
Theorem C37_fuel : forall (Item Val E : Type) m fuel fuel' c (t : Table Item Val E) cols items rows ok maxWidth sep compact,
  Printable t cols items rows -> (fuel <= fuel')%nat ->
  stop (merge m fuel c t ok items maxWidth sep compact) <> Running ->
  merge m fuel' c t ok items maxWidth sep compact = merge m fuel c t ok items maxWidth sep compact.
Proof. exact @merge_fuel. Qed.
Print Assumptions C37_fuel.

Example C37_example :
  (reckoned mTable mCols mSep mod 65536 <> 0 /\ 1 <= slen mSep + slen mCols - 1 <= 65535 - effective 26
   /\ stop (MergeRowsHorizontal 3 exC mTable (fun _ => true) (listOf mRows) 26 mSep true) = Finished)
  /\ effective 65535 = 65535 /\ effective 100000 = 65535 /\ effective (-1) = 65535
  /\ stop (MergeRowsHorizontal 3 exC mTable (fun _ => true) (listOf mRows) (-1) mSep true) = Running.
Proof. exact search_example. Qed.

(** C38. *)
Theorem C38_groups_line_up : forall (Item Val E : Type) c (t : Table Item Val E) cols items rows,
  Printable t cols items rows -> Reachable c -> Forall (BuiltIn c) cols -> IsolatedCells cols rows ->
  (forall name, 0 <= Width t name < 65536) ->
  forall m sep maxWidth compact g lines W, Separates sep -> reckoned t cols sep mod 65536 <> 0 ->
  Plan c t cols sep maxWidth m rows compact g lines W -> FitsRecorded c t cols rows ->
  forall line k row, In line lines -> nth_error line k = Some row ->
  exists before after, line_text c cols sep W g line = before ++ block c cols (W k) row ++ after
    /\ vwidth c before = start_of c cols sep W k mod 65536
    /\ vwidth c (block c cols (W k) row) = group_width cols W k mod 65536.
Proof. exact @plan_starts. Qed.
Print Assumptions C38_groups_line_up.

(** The same of the lines written. *)
Theorem C38_printed : forall (Item Val E : Type) c (t : Table Item Val E) cols items rows,
  Printable t cols items rows -> Reachable c -> Forall (BuiltIn c) cols -> IsolatedCells cols rows ->
  (forall name, 0 <= Width t name < 65536) ->
  forall m fuel sep maxWidth compact, Separates sep -> reckoned t cols sep mod 65536 <> 0 -> FitsRecorded c t cols rows ->
  let r := merge m fuel c t (fun _ => true) items maxWidth sep compact in
  stop r = Finished ->
  exists g lines (start width : nat -> Z), (1 <= g)%nat /\ Layout m g rows lines /\ List.length (written r) = List.length lines
    /\ forall l line txt k row, nth_error lines l = Some line -> nth_error (written r) l = Some txt -> nth_error line k = Some row ->
       exists before ws after, txt = before ++ block c cols ws row ++ after ++ [x0a]
         /\ vwidth c before = start k /\ vwidth c (block c cols ws row) = width k.
Proof. exact @printed_starts. Qed.
Print Assumptions C38_printed.

(** The hypotheses are those of C34_example; the second group starts at 11. *)
Example C38_example : start_of exC mCols mSep (fun _ => recorded mTable mCols) 1 = 11
  /\ vwidth exC (lit "go.mod 12 |"%string) = 11 /\ vwidth exC ([xe6; x97; xa5] ++ lit "      5 |"%string) = 11.
Proof. split; [|split]; vm_compute; reflexivity. Qed.

(** C39. *)
Theorem C39_failing_write : forall (Item Val E : Type) m fuel c (t : Table Item Val E) items ok n maxWidth sep compact,
  (forall i, (i < n)%nat -> ok i = true) -> ok n = false ->
  let r := merge m fuel c t (fun _ => true) items maxWidth sep compact in
  merge m fuel c t ok items maxWidth sep compact =
  if (n <? List.length (written r))%nat
  then {| written := firstn n (written r); stop := Panicked WriteFailed |} else r.
Proof. exact @merge_fails. Qed.
Print Assumptions C39_failing_write.

Example C39_example : merge H 1 exC mTable (fun k => (k <? 1)%nat) (listOf mRows) 26 mSep false
  = {| written := [lit "go.mod 12 |x       3"%string ++ [x0a]]; stop := Panicked WriteFailed |}.
Proof. vm_compute. reflexivity. Qed.

(** C40. *)
Theorem C40_division_by_zero : forall (Item Val E : Type) c (t : Table Item Val E) cols items rows,
  Printable t cols items rows -> forall m fuel maxWidth sep compact,
  stop (merge m fuel c t (fun _ => true) items maxWidth sep compact) = Panicked DivideByZero
  <-> reckoned t cols sep mod 65536 = 0.
Proof. exact @divide_iff. Qed.
Print Assumptions C40_division_by_zero.

Theorem C40_no_other_panic : forall (Item Val E : Type) c (t : Table Item Val E) cols items rows,
  Printable t cols items rows -> forall m fuel maxWidth sep compact, reckoned t cols sep mod 65536 <> 0 ->
  stop (merge m fuel c t (fun _ => true) items maxWidth sep compact) = Finished
  \/ (compact = true /\ stop (merge m fuel c t (fun _ => true) items maxWidth sep compact) = Running).
Proof. exact @merge_stops. Qed.
Print Assumptions C40_no_other_panic.

(** Whatever [Get] does outside the range, even panic, does not matter. *)
Theorem C40_get_in_range : forall (Item Val E : Type) m fuel c (t : Table Item Val E) cols items items' rows ok maxWidth sep compact,
  Printable t cols items rows -> Printable t cols items' rows ->
  merge m fuel c t ok items maxWidth sep compact = merge m fuel c t ok items' maxWidth sep compact.
Proof. exact @merge_rows_only. Qed.
Print Assumptions C40_get_in_range.

Theorem C40_nil_column : forall (Item Val E : Type) m fuel c (t : Table Item Val E) ok items maxWidth sep compact,
  In None (Columns (tSpec t)) ->
  merge m fuel c t ok items maxWidth sep compact = {| written := []; stop := Panicked NilDereference |}.
Proof. exact @merge_nil_column. Qed.
Print Assumptions C40_nil_column.

Example C40_example : Printable mTable mCols (listOf mRows) mRows
  /\ stop (merge V 1 exC exTable (fun _ => true) (listOf mRows) 26 [] false) = Panicked DivideByZero
  /\ stop (merge V 1 exC (NewTable None : Table (list str) str str) (fun _ => true) (listOf mRows) 26 mSep false) = Panicked DivideByZero.
Proof. split; [exact mPrintable|]. split; vm_compute; reflexivity. Qed.

(** C41. *)
Theorem C41_empty_list : forall (Item Val E : Type) c (t : Table Item Val E) cols items rows,
  Printable t cols items rows -> forall m maxWidth sep compact g lines W fuel, rows = [] -> reckoned t cols sep mod 65536 <> 0 ->
  Plan c t cols sep maxWidth m rows compact g lines W -> (g < fuel)%nat ->
  merge m fuel c t (fun _ => true) items maxWidth sep compact =
  {| written := if (2 <=? g)%nat then [[x0a]] else []; stop := Finished |}.
Proof. exact @empty_printed. Qed.
Print Assumptions C41_empty_list.

Theorem C41_empty_vertical : forall (Item Val E : Type) c (t : Table Item Val E) cols rows maxWidth sep compact g lines W, rows = [] ->
  Plan c t cols sep maxWidth V rows compact g lines W -> Z.of_nat g = estimate t cols sep maxWidth.
Proof. exact @empty_vertical. Qed.
Print Assumptions C41_empty_vertical.

Example C41_example : Printable mTable mCols (listOf []) []
  /\ merge V 1 exC mTable (fun _ => true) (listOf []) 26 mSep true = {| written := [[x0a]]; stop := Finished |}
  /\ merge H 1 exC mTable (fun _ => true) (listOf []) 12 mSep false = {| written := []; stop := Finished |}.
Proof. split; [exact mEmptyPrintable|]. split; vm_compute; reflexivity. Qed.

(** C42. *)
Theorem C42_clamped : forall (Item Val E : Type) m fuel c (t : Table Item Val E) ok items maxWidth sep compact,
  let r w := merge m fuel c t ok items w sep compact in
  (65535 < maxWidth -> r maxWidth = r 65535) /\ (maxWidth < 0 -> r maxWidth = r (maxWidth mod 65536)).
Proof. exact @merge_clamp_cases. Qed.
Print Assumptions C42_clamped.

Example C42_example : merge H 1 exC mTable (fun _ => true) (listOf mRows) (-65510) mSep false
  = merge H 1 exC mTable (fun _ => true) (listOf mRows) 26 mSep false.
Proof. vm_compute. reflexivity. Qed.
