(** * VisualLawsCases: texts that join, and where widths do not grow. *)
From Coq Require Import Strings.String.
From Verif Require Import GoBase Utf8 Utf8Spec Runewidth ConditionSpec Width TextSpec AlignSpec Table TableContract TableExamples
  Merge MergeSpec MergeLayout MergeSearch MergeTheory MergeExamples VisualLawsSpec VisualLawsProofs.
From Coq Require Import ZifyBool ZifyNat.
Local Open Scope Z_scope.

(** A sequence begun in one text and ended in the next. *)
Definition begun : str := x1b :: lit "[1"%string.
Lemma subadd_example : Reachable exC /\ StartsRune (lit "mb"%string)
  /\ rawWidth exC begun = 0 /\ rawWidth exC (lit "mb"%string) = 2 /\ rawWidth exC (begun ++ lit "mb"%string) = 1.
Proof. split; [apply r_fresh|]. split; [left; reflexivity|]. repeat split; vm_compute; reflexivity. Qed.

Lemma finished (s : str) : Forall (fun r => ~ Introducer r) (runes s) -> ~ Unfinished s.
Proof.
  intros HF (pre & i & post & E & Hi & _). rewrite E in HF. apply Forall_app in HF. destruct HF as [_ HF]. inversion HF. contradiction.
Qed.
Definition ended : str := begun ++ lit "m "%string.
Lemma prefix_example : Reachable exC /\ StartsRune (lit "mb"%string) /\ ~ Unfinished ended /\ ~ In 0x9B (runes (lit "mb"%string))
  /\ rawWidth exC ended = 1 /\ rawWidth exC (ended ++ lit "mb"%string) = 3.
Proof.
  split; [apply r_fresh|]. split; [left; reflexivity|]. split.
  { intros (pre & i & post & E & Hi & HF). change (runes ended) with ([0x1B; 91; 49; 109] ++ [0x20]) in E.
    destruct post as [|p post _] using rev_ind.
    - apply app_inj_tail in E. destruct E as [_ <-]. destruct Hi; discriminate.
    - change (pre ++ i :: post ++ [p]) with (pre ++ (i :: post) ++ [p]) in E. rewrite app_assoc in E.
      apply app_inj_tail in E. destruct E as [_ <-]. apply Forall_app in HF. destruct HF as [_ HF]. inversion HF as [|? ? K _]; subst.
      destruct K as [K|[K|K]]; vm_compute in K; repeat (destruct K as [K|K]; [discriminate|]); exact K. }
  split; [vm_compute; intuition discriminate|]. split; vm_compute; reflexivity.
Qed.

Lemma unfinished_refuted : exists c s t, Reachable c /\ StartsRune t /\ ~ In 0x9B (runes t) /\ rawWidth c (s ++ t) < rawWidth c s.
Proof.
  exists exC, [x1b; x5b], (lit "m"%string). split; [apply r_fresh|]. split; [left; reflexivity|].
  split; [vm_compute; intuition discriminate|]. vm_compute. reflexivity.
Qed.
Lemma c1_prefix_refuted : exists c s t, Reachable c /\ StartsRune t /\ ~ Unfinished s /\ rawWidth c (s ++ t) < rawWidth c s.
Proof.
  exists exC, (lit "a"%string), ([xc2; x9b] ++ lit "m"%string). split; [apply r_fresh|]. split; [right; vm_compute; discriminate|].
  split; [apply finished; repeat constructor; intros [K|K]; discriminate|]. vm_compute. reflexivity.
Qed.

(** Rows of cells that join their neighbours. *)
Definition oddRows : list (list str) :=
  [[lit "go.mod"%string; [x1b; x5b]]; [[xcc; x81]; lit "3"%string]; [[xd8; x80]; lit "12"%string]; [[x80; xff; x80]; begun]].
Definition oddSep : str := lit "m|"%string.
Lemma odd_printable : Printable mTable mCols (listOf oddRows) oddRows.
Proof. split; [reflexivity|apply listOf_serves|repeat constructor]. Qed.
Lemma odd_example : Printable mTable mCols (listOf oddRows) oddRows /\ Reachable exC /\ Forall (BuiltIn exC) mCols
  /\ (forall row s, In row oddRows -> In s row -> rawWidth exC s < 65536) /\ (forall name, 0 <= Width mTable name < 65536)
  /\ ValidUTF8 oddSep /\ FitsRecorded exC mTable mCols oddRows
  /\ reckoned mTable mCols oddSep = 12 /\ zsum (recorded mTable mCols) + slen mCols - 1 = 9
  /\ ~ IsolatedCells mCols oddRows /\ ~ Separates oddSep
  /\ map (rawWidth exC) (written (merge H 1 exC mTable (fun _ => true) (listOf oddRows) 22 oddSep false)) = [18; 19].
Proof.
  split; [apply odd_printable|]. split; [apply r_fresh|]. split; [apply mBuiltIn|]. split.
  { assert (K : forallb (forallb (fun s => rawWidth exC s <? 65536)) oddRows = true) by (vm_compute; reflexivity).
    intros row s Hrow Hs. rewrite forallb_forall in K. specialize (K row Hrow). rewrite forallb_forall in K. apply Z.ltb_lt, K, Hs. }
  split; [apply mWidths|]. split; [unfold ValidUTF8; vm_compute; repeat constructor; discriminate|].
  split; [apply fits_b_ok; vm_compute; reflexivity|]. split; [reflexivity|]. split; [reflexivity|]. split; [|split].
  - intros HI. destruct (HI [[xcc; x81]; lit "3"%string] 0%nat [xcc; x81] ltac:(right; left; reflexivity) eq_refl ltac:(cbn; lia)) as [K _].
    apply K. exists 0x301, []. split; [reflexivity|]. left. vm_compute. reflexivity.
  - intros (_ & _ & (r & post & Er & Hr & _) & _). change (runes oddSep) with [109; 124] in Er. injection Er as <- _.
    apply Hr. right. right. vm_compute. intuition.
  - vm_compute. reflexivity.
Qed.

Lemma odd_compact_example : exists g0 g, Z.of_nat g0 = estimate mTable mCols oddSep 22 /\ Search exC mCols oddSep 22 H oddRows g0 g
  /\ (g0 < g < g0 + 20)%nat /\ (forall w, CompactTotal exC mCols oddSep H oddRows g w -> w < 65536).
Proof.
  exists 2%nat, 3%nat. split; [reflexivity|]. split; [|split; [lia|]].
  - split; [lia|]. split.
    + intros g' Hg'. apply (acceptable_dec 22 oddSep H 2); [lia|lia|]. replace g' with 3%nat by lia. vm_compute. reflexivity.
    + intros HA. apply (acceptable_dec 22 oddSep H 2) in HA; [|lia|lia]. vm_compute in HA. discriminate.
  - intros w Hw. apply CompactTotal_is in Hw; [|lia]. subst w. vm_compute. reflexivity.
Qed.

(** A separator that is not UTF-8 is wider than its bytes in East Asian locales. *)
Definition eaC : Condition := plainCondition true true.
Definition eaCols : list (Column (list str) str str) :=
  [{| colGetter := Some (field 0); colAlignment := None; colName := lit "name"%string; colTitle := []; colShortTitle := [] |}].
Definition eaTable : Table (list str) str str :=
  fst (UpdateWidth (E := str) (NewTable (Some (add_all NewTableSpec (map Some eaCols)))) [(lit "name"%string, 2)]).
Definition eaRows : list (list str) := [[lit "ab"%string]; [[xc2; xa1]]].
Lemma invalid_separator : exists (t : Table (list str) str str) cols rows sep maxWidth,
  Printable t cols (listOf rows) rows /\ Reachable eaC /\ Forall (BuiltIn eaC) cols /\ IsolatedCells cols rows /\ FitsRecorded eaC t cols rows
  /\ sep <> [] /\ zsum (recorded t cols) + slen cols - 1 <= maxWidth /\ maxWidth + slen sep < 65536
  /\ exists line, In (line ++ [x0a]) (written (merge H 1 eaC t (fun _ => true) (listOf rows) maxWidth sep false))
     /\ maxWidth < rawWidth eaC line.
Proof.
  exists eaTable, eaCols, eaRows, [xff], 5. split; [split; [reflexivity|apply listOf_serves|repeat constructor]|]. split; [apply r_fresh|].
  split; [repeat constructor|]. split; [apply isolated_cells; vm_compute; reflexivity|].
  split; [apply fits_b_ok; vm_compute; reflexivity|]. split; [discriminate|]. split; [vm_compute; discriminate|]. split; [vm_compute; reflexivity|].
  exists (lit "ab"%string ++ [xff] ++ [xc2; xa1]). split; [left; vm_compute; reflexivity|]. vm_compute. reflexivity.
Qed.
