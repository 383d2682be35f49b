(** * TrimTable: rows cut to the widths of their columns, merged. *)
From Coq Require Import Strings.String.
From Coq Require Import ZifyBool ZifyNat.
From Verif Require Import GoBase Utf8 Utf8Spec Uniseg GraphemeSpec Runewidth ConditionSpec Width WidthProofs TextSpec AlignSpec Table TableContract TableExamples
  Merge MergeSpec MergeExamples VisualLawsSpec VisualLawsProofs VisualLawsCases PartsSpec PartsCases TrimSpec TrimProofs TrimCases.
Local Open Scope Z_scope.

Lemma combine_snd {A B} (l : list A) (m : list B) : List.length l = List.length m -> map snd (combine l m) = m.
Proof. revert m. induction l as [|x l IH]; intros [|y m] H; try discriminate; [reflexivity|]. cbn in *. rewrite IH by lia. reflexivity. Qed.
Lemma nth_combine {A B} (l : list A) (m : list B) i y : List.length l = List.length m -> nth_error m i = Some y ->
  exists x, nth_error l i = Some x /\ nth_error (combine l m) i = Some (x, y).
Proof.
  revert m i. induction l as [|x l IH]; intros [|z m] [|i] HL H; try discriminate; cbn in *; [injection H as <-; eauto|]. apply IH; [lia|exact H].
Qed.
Lemma Forall2_nth_both {A B} (R : A -> B -> Prop) l m i y : Forall2 R l m -> nth_error m i = Some y -> exists x, nth_error l i = Some x /\ R x y.
Proof. intros H. revert i. induction H as [|a b l m HR _ IH]; intros [|i] E; try discriminate; cbn in *; [injection E as <-; eauto|auto]. Qed.

Section C.
Context {Item Val E : Type}.
Variables (c : Condition) (t : Table Item Val E) (cols : list (Column Item Val E)) (texts rows : list (list str)).
Hypothesis Hc : Reachable c.
Hypothesis HW : forall name, 0 <= Width t name < 65536.
Hypothesis H : CutRows c t cols texts rows.
Hypothesis HN : forall text s, In text texts -> In s text -> ~ In 0x9B (runes s).

Lemma cut_cell row i p : In row rows -> nth_error row i = Some p ->
  exists col s q, nth_error cols i = Some col /\ ~ In 0x9B (runes s) /\ Trim c (Width t (colName col)) s p q.
Proof.
  intros Hr Hp. apply In_nth_error in Hr. destruct Hr as (j & Hr). destruct (Forall2_nth_both _ _ _ _ _ H Hr) as (text & Ht & HF & HL).
  destruct (nth_combine _ _ _ _ HL Hp) as (s & Hs & Hsp). destruct (Forall2_nth_both _ _ _ _ _ HF Hsp) as (col & Hcol & q & HT). cbn [fst snd] in HT.
  exists col, s, q. split; [exact Hcol|]. split; [|exact HT]. apply (HN text); eapply nth_error_In; eauto.
Qed.
Lemma cut_fits : FitsRecorded c t cols rows.
Proof.
  intros row i p col Hr Hp Hcol. destruct (cut_cell row i p Hr Hp) as (col' & s & q & Hcol' & N & HT). rewrite Hcol in Hcol'. injection Hcol' as <-.
  apply (trim_cell c _ s p q Hc HT N). apply HW.
Qed.
Lemma cut_narrow row p : In row rows -> In p row -> rawWidth c p < 65536.
Proof.
  intros Hr Hp. apply In_nth_error in Hp. destruct Hp as (i & Hp). destruct (cut_cell row i p Hr Hp) as (col & s & q & _ & _ & HT).
  destruct (trim_facts _ _ _ _ _ Hc HT) as (_ & L & _). pose proof (rawWidth_le_StringWidth c p). pose proof (HW (colName col)). lia.
Qed.
End C.

Lemma cut_merged (Item Val E : Type) c (t : Table Item Val E) cols items texts rows :
  Printable t cols items rows -> Reachable c -> Forall (BuiltIn c) cols -> (forall name, 0 <= Width t name < 65536) ->
  CutRows c t cols texts rows -> (forall text s, In text texts -> In s text -> ~ In 0x9B (runes s)) ->
  forall m fuel sep maxWidth, ValidUTF8 sep -> sep <> [] -> 0 <= maxWidth -> maxWidth + slen sep < 65536 ->
  reckoned t cols sep mod 65536 <> 0 -> reckoned t cols sep < 65536 -> zsum (recorded t cols) + slen cols - 1 <= maxWidth ->
  forall txt, In txt (written (merge m fuel c t (fun _ => true) items maxWidth sep false)) ->
  exists line, txt = line ++ [x0a] /\ rawWidth c line <= maxWidth /\ (~ In 0x9B (runes line) -> vwidth c line <= maxWidth).
Proof.
  intros HP Hc HB HW HR HN m fuel sep maxWidth Hs Hs0 Hm Hm2 R1 R2 R3.
  apply (@any_plain_fit Item Val E c t cols items rows HP Hc HB); auto.
  - intros row s. apply (cut_narrow c t cols texts rows); auto.
  - apply (cut_fits c t cols texts rows); auto.
Qed.

Definition longTexts : list (list str) := [[lit "go.modules"%string; lit "1234"%string]; [[x61] ++ wide ++ wide ++ wide; lit "5"%string]].
Definition cutTexts : list (list str) := [[lit "go.mod"%string; lit "12"%string]; [[x61] ++ wide ++ wide; lit "5"%string]].
Lemma cut_by c w s cl1 cl2 p : List.concat cl1 = p -> Clusters s (cl1 ++ cl2) -> StringWidth c p <= w ->
  match cl2 with [] => True | k :: _ => w < StringWidth c p + StringWidth c k end -> exists q, Trim c w s p q.
Proof. intros <- H HW HN. exists (List.concat cl2). apply trim_by; auto. Qed.
Ltac cutting a b := apply (cut_by _ _ _ a b); [reflexivity|apply (clusters_by 20); vm_compute; reflexivity|vm_compute; discriminate|try exact Logic.I; vm_compute; reflexivity].
Lemma cut_example : Printable mTable mCols (listOf cutTexts) cutTexts /\ CutRows exC mTable mCols longTexts cutTexts
  /\ (forall text s, In text longTexts -> In s text -> ~ In 0x9B (runes s))
  /\ reckoned mTable mCols oddSep = 12 /\ zsum (recorded mTable mCols) + slen mCols - 1 = 9
  /\ map (rawWidth exC) (written (merge H 1 exC mTable (fun _ => true) (listOf cutTexts) 22 oddSep false)) = [20].
Proof.
  split; [split; [reflexivity|apply listOf_serves|repeat constructor]|]. split; [|split; [|repeat split; vm_compute; reflexivity]].
  - constructor; [|constructor; [|constructor]]; (split; [|reflexivity]); repeat constructor; cbn [fst snd].
    + cutting (map (fun b => [b]) (lit "go.mod"%string)) (map (fun b => [b]) (lit "ules"%string)).
    + cutting (map (fun b => [b]) (lit "12"%string)) (map (fun b => [b]) (lit "34"%string)).
    + cutting [[x61]; wide; wide] [wide].
    + cutting [lit "5"%string] (@nil str).
  - intros text s Ht Hs. assert (K : forallb (forallb (fun s => forallb (fun r => negb (r =? 0x9B)) (runes s))) longTexts = true) by (vm_compute; reflexivity).
    rewrite forallb_forall in K. specialize (K text Ht). rewrite forallb_forall in K. specialize (K s Hs). rewrite forallb_forall in K.
    intros H9. specialize (K _ H9). discriminate.
Qed.
