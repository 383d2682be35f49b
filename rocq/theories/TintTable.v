(** * TintTable: coloured texts cut, aligned and merged. *)
From Coq Require Import Strings.String.
From Coq Require Import ZifyBool ZifyNat.
From Verif Require Import GoBase Utf8 Uniseg GraphemeSpec Runewidth ConditionSpec TextSpec Width AlignSpec AlignProofs Table TableContract TableExamples
  Merge MergeSpec MergeExamples TerminalSpec TerminalProofs TerminalMerge TerminalCases WrapSpec ColourSpec ColourProofs PartsSpec PartsCases TrimSpec TrimProofs TrimCases TrimTable
  TintSpec TintProofs TintCases.
Local Open Scope Z_scope.

Lemma tint_cell a c w s p x st : Reachable c -> 0 <= w < 65536 -> Tint c w s p ->
  show c (mkT Ground x st) (align a c p w) = mkT Ground (x + w) (tStyle (show c (mkT Ground x st) s)).
Proof.
  intros Hc Hw H. destruct (tint_fits c w s p Hc H) as (Hp & R & _). destruct (tint_after c w s p Hc H) as [A _].
  destruct (aligned_shown a c p w x st Hc Hp ltac:(lia) Hw) as (M & C & S). destruct (A x st) as [A1 _].
  destruct (show_styled c p Hc Hp) as (s1 & E1). rewrite E1 in C. cbn [tCol] in C.
  destruct (show c (mkT Ground x st) (align a c p w)) as [m k y]. cbn [tMode tCol tStyle] in *. subst. f_equal; [lia|congruence].
Qed.

Lemma tint_row_cell {Item Val E} c (t : Table Item Val E) cols texts rows row i p : TintRows c t cols texts rows -> In row rows -> nth_error row i = Some p ->
  exists col s, nth_error cols i = Some col /\ Tint c (Width t (colName col)) s p.
Proof.
  intros H Hr Hp. apply In_nth_error in Hr. destruct Hr as (j & Hr). destruct (Forall2_nth_both _ _ _ _ _ H Hr) as (text & Ht & HF & HL).
  destruct (nth_combine _ _ _ _ HL Hp) as (s & Hs & Hsp). destruct (Forall2_nth_both _ _ _ _ _ HF Hsp) as (col & Hcol & HT). cbn [fst snd] in HT. eauto.
Qed.

Lemma tint_merged (Item Val E : Type) c (t : Table Item Val E) cols items texts rows :
  Printable t cols items rows -> Reachable c -> Forall (BuiltIn c) cols -> (forall name, 0 <= Width t name < 65536) -> TintRows c t cols texts rows ->
  forall m fuel sep maxWidth compact, Styled sep -> reckoned t cols sep mod 65536 <> 0 ->
  let r := merge m fuel c t (fun _ => true) items maxWidth sep compact in
  stop r = Finished ->
  exists g lines (start width : nat -> nat -> Z), (1 <= g)%nat /\ Layout m g rows lines /\ List.length (written r) = List.length lines
    /\ forall l line txt k row i s, nth_error lines l = Some line -> nth_error (written r) l = Some txt ->
       nth_error line k = Some row -> nth_error row i = Some s -> (i < List.length cols)%nat ->
       exists before p q after st st', txt = before ++ (spaces p ++ s ++ spaces q) ++ after ++ [x0a]
         /\ show c home before = mkT Ground (start k i) st
         /\ show c home (before ++ spaces p ++ s ++ spaces q) = mkT Ground (start k i + width k i) st'.
Proof.
  intros HP Hc HB HW HR m fuel sep maxWidth compact Hs R. apply (@merged_shown Item Val E c t cols items rows HP Hc HB); auto.
  - apply Forall_forall. intros row Hrow. apply Forall_forall. intros p Hp. apply In_nth_error in Hp. destruct Hp as (i & Hp).
    destruct (tint_row_cell c t cols texts rows row i p HR Hrow Hp) as (col & s & _ & HT). destruct (tint_fits _ _ _ _ Hc HT) as (S & L & _).
    split; [exact S|]. pose proof (HW (colName col)). lia.
  - intros row i p col Hrow Hp Hcol. destruct (tint_row_cell c t cols texts rows row i p HR Hrow Hp) as (col' & s & Hcol' & HT).
    rewrite Hcol in Hcol'. injection Hcol' as <-. destruct (tint_fits _ _ _ _ Hc HT) as (_ & _ & L & _). apply L, HW.
Qed.

Definition tintTexts : list (list str) := [[[] ++ red_on ++ lit "go.modules"%string ++ off ++ []; lit "1234"%string]; [[] ++ red_on ++ lit "abc"%string ++ off ++ lit "de"%string; lit "5"%string]].
Definition tintRows : list (list str) := [[[] ++ red_on ++ lit "go.mod"%string ++ off ++ []; lit "12"%string]; [[] ++ red_on ++ lit "abc"%string ++ off ++ lit "de"%string; lit "5"%string]].
Ltac simple := apply simple_b_ok; vm_compute; reflexivity.
Ltac trimming a b := apply (trim_by _ _ _ a b); [apply (clusters_by 20); vm_compute; reflexivity|vm_compute; discriminate|try exact Logic.I; vm_compute; reflexivity].
Lemma tint_rows_example : Printable mTable mCols (listOf tintRows) tintRows /\ TintRows exC mTable mCols tintTexts tintRows
  /\ reckoned mTable mCols mSep mod 65536 <> 0
  /\ stop (merge H 9 exC mTable (fun _ => true) (listOf tintRows) 26 mSep false) = Finished
  /\ written (merge H 9 exC mTable (fun _ => true) (listOf tintRows) 26 mSep false)
     = [red_on ++ lit "go.mod"%string ++ off ++ lit " 12 |"%string ++ red_on ++ lit "abc"%string ++ off ++ lit "de   5"%string ++ [x0a]].
Proof.
  split; [split; [reflexivity|apply listOf_serves|repeat constructor]|]. split; [|repeat split; vm_compute; try reflexivity; discriminate].
  constructor; [|constructor; [|constructor]]; (split; [|reflexivity]); constructor; [|constructor; [|constructor]| |constructor; [|constructor]]; cbn [fst snd].
  - apply ti_more; [simple|apply quiet_on|vm_compute; discriminate|]. apply (ti_full _ _ _ (lit "go.mod"%string) (lit "ules"%string)); [simple|apply quiet_off| |discriminate|constructor; simple].
    trimming (map (fun b => [b]) (lit "go.mod"%string)) (map (fun b => [b]) (lit "ules"%string)).
  - apply (ti_end _ _ _ _ (lit "34"%string)); [simple|]. trimming (map (fun b => [b]) (lit "12"%string)) (map (fun b => [b]) (lit "34"%string)).
  - apply ti_more; [simple|apply quiet_on|vm_compute; discriminate|]. apply ti_more; [simple|apply quiet_off|vm_compute; discriminate|].
    apply (ti_end _ _ _ _ []); [simple|]. trimming (map (fun b => [b]) (lit "de"%string)) (@nil str).
  - apply (ti_end _ _ _ _ []); [simple|]. trimming [lit "5"%string] (@nil str).
Qed.
