(** * MergePrinted: the groups of the printed lines line up. *)
From Verif Require Import GoBase Runewidth ConditionSpec Width TextSpec AlignSpec Table TableContract
  Merge MergeSpec MergeLayout MergeRender MergeSearch MergeTheory MergeWidths MergePlan.
From Coq Require Import ZifyBool ZifyNat.
Local Open Scope Z_scope.

Section Types.
Context {Item Val E : Type}.

Theorem printed_starts c (t : Table Item Val E) cols items rows :
  Printable t cols items rows -> Reachable c -> Forall (BuiltIn c) cols -> IsolatedCells cols rows ->
  (forall name, 0 <= Width t name < 65536) ->
  forall m fuel sep maxWidth compact, Separates sep -> reckoned t cols sep mod 65536 <> 0 -> FitsRecorded c t cols rows ->
  let r := merge m fuel c t (fun _ => true) items maxWidth sep compact in
  stop r = Finished ->
  exists g lines (start width : nat -> Z), (1 <= g)%nat /\ Layout m g rows lines /\ length (written r) = length lines
    /\ forall l line txt k row, nth_error lines l = Some line -> nth_error (written r) l = Some txt -> nth_error line k = Some row ->
       exists before ws after, txt = before ++ block c cols ws row ++ after ++ [x0a]
         /\ vwidth c before = start k /\ vwidth c (block c cols ws row) = width k.
Proof.
  intros P Hc Hb Hi Hw m fuel sep maxWidth compact Hs Hr HF r Hf.
  assert (K : exists g lines W, Plan c t cols sep maxWidth m rows compact g lines W /\ written r = printed c cols sep W g lines).
  { destruct m; [exact (horizontal_output c t cols items rows P fuel maxWidth sep compact Hr Hf)
                |exact (vertical_output c t cols items rows P fuel maxWidth sep compact Hr Hf)]. }
  destruct K as (g & lines & W & Pl & Ew).
  exists g, lines, (fun k => start_of c cols sep W k mod 65536), (fun k => group_width cols W k mod 65536).
  destruct Pl as (g0 & Hg0 & HS & HL & HW). pose proof (estimate_pos t cols sep maxWidth) as Hp.
  split; [destruct compact; [destruct HS|]; lia|]. split; [exact HL|]. rewrite Ew. unfold printed. rewrite map_length. split; [reflexivity|].
  intros l line txt k row Hl Ht Hk. rewrite nth_error_map, Hl in Ht. injection Ht as <-.
  destruct (@plan_starts Item Val E c t cols items rows P Hc Hb Hi Hw m sep maxWidth compact g lines W Hs Hr (ex_intro _ g0 (conj Hg0 (conj HS (conj HL HW)))) HF line k row (nth_error_In _ _ Hl) Hk)
    as (before & after & E1 & E2 & E3).
  exists before, (W k), after. rewrite E1, <- !app_assoc. auto.
Qed.
End Types.
