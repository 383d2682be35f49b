(** * MergeScreens: how the number of lines depends on the screen. *)
From Coq Require Import Strings.String.
From Verif Require Import GoBase Runewidth Width AlignSpec Table Merge TableContract TableExamples
  MergeSpec MergeLayout MergeRender MergeSearch MergeTheory MergePlan MergeExamples.
From Coq Require Import ZifyBool ZifyNat.
Local Open Scope Z_scope.

Section Types.
Context {Item Val E : Type}.

Lemma estimate_mono (t : Table Item Val E) cols sep w w' : reckoned t cols sep mod 65536 <> 0 -> 0 <= w <= w' -> w' + slen sep < 65536 ->
  estimate t cols sep w <= estimate t cols sep w'.
Proof.
  intros Hr Hw Hs. unfold estimate. assert (0 <= slen sep) by (unfold slen; lia). assert (Hd : 0 < reckoned t cols sep mod 65536) by (pose proof (Z.mod_pos_bound (reckoned t cols sep) 65536); lia).
  assert (Ew : forall x, 0 <= x -> x + slen sep < 65536 -> (effective x + slen sep) mod 65536 = x + slen sep).
  { intros x Hx Hl. unfold effective. destruct (Z.gtb_spec x 65535); [lia|]. rewrite (Z.mod_small x) by lia. apply Z.mod_small. lia. }
  rewrite !Ew by lia. apply Z.max_le_compat_l. apply Z.div_le_mono; lia.
Qed.
Lemma effective_mono w w' : 0 <= w <= w' -> effective w <= effective w'.
Proof. intros H. unfold effective. destruct (Z.gtb_spec w 65535), (Z.gtb_spec w' 65535); try lia; rewrite ?Z.mod_small by lia; lia. Qed.

Lemma wider c (t : Table Item Val E) cols items rows : Printable t cols items rows -> rows <> [] ->
  forall m fuel fuel' sep w w' compact compact', 0 <= w <= w' -> w' + slen sep < 65536 -> (compact = true -> compact' = true) ->
  let r := merge m fuel c t (fun _ => true) items w sep compact in
  let r' := merge m fuel' c t (fun _ => true) items w' sep compact' in
  stop r = Finished -> stop r' = Finished -> (List.length (written r') <= List.length (written r))%nat.
Proof.
  intros HP Hne m fuel fuel' sep w w' b b' Hw Hs Hb r r' Hr Hr'.
  destruct (Z.eq_dec (reckoned t cols sep mod 65536) 0) as [Hz|Hz]; [unfold r in Hr; rewrite (merge_divzero HP) in Hr by exact Hz; discriminate|].
  destruct (plan_output HP m fuel w sep b Hz Hr) as (g & lines & W & (g0 & Hg0 & HS & HL & _) & E1).
  destruct (plan_output HP m fuel' w' sep b' Hz Hr') as (g' & lines' & W' & (g0' & Hg0' & HS' & HL' & _) & E2).
  unfold r, r'. rewrite E1, E2. cbn [written]. unfold printed. rewrite !map_length.
  pose proof (estimate_mono t cols sep w w' Hz Hw Hs) as Hm. pose proof (estimate_pos t cols sep w) as Hp.
  assert (Hg : (1 <= g)%nat) by (destruct b; [destruct HS|]; lia).
  apply (layout_mono m m g g' rows lines lines'); auto. destruct b.
  - rewrite (Hb eq_refl) in *. destruct HS as (S1 & S2 & S3). destruct HS' as (S1' & S2' & S3').
    destruct (le_lt_dec g g') as [L|L]; [exact L|]. exfalso. apply S3'. destruct (S2 (S g')) as [A1 (x & A2 & A3)]; [lia|].
    split; [exact A1|]. exists x. split; [exact A2|]. pose proof (effective_mono w w' Hw). lia.
  - subst g. destruct b'; [destruct HS'|]; lia.
Qed.

Lemma same_count c (t : Table Item Val E) cols items rows : Printable t cols items rows ->
  forall fuel fuel' maxWidth sep,
  List.length (written (MergeRowsHorizontal fuel c t (fun _ => true) items maxWidth sep false))
  = List.length (written (MergeRowsVertical fuel' c t (fun _ => true) items maxWidth sep false)).
Proof.
  intros HP fuel fuel' maxWidth sep. change (@MergeRowsHorizontal Item Val E) with (@merge Item Val E H). change (@MergeRowsVertical Item Val E) with (@merge Item Val E V).
  destruct (Z.eq_dec (reckoned t cols sep mod 65536) 0) as [Hz|Hz]; [rewrite !(merge_divzero HP) by exact Hz; reflexivity|].
  rewrite !(merge_plain HP) by exact Hz. rewrite !write_all. cbn [written]. rewrite !map_length, !layout_len. reflexivity.
Qed.
End Types.

(** ** Concrete tables *)
Definition gTable : Table (list str) str str :=
  fst (UpdateWidth (E := str) (NewTable (Some (add_all NewTableSpec [Some exName]))) [(lit "name"%string, 9)]).
Definition gRow (big : bool) : list str := [lit (if big then "123456789"%string else "x"%string)].
Definition gRowsH := map gRow [true; false; true; false; true; false].
Definition gRowsV := map gRow [false; false; false; true; true; false; false; false; true; false; false; false].
Definition gSep : str := lit "|"%string.

Lemma g_printable rows : Forall (fun row => (1 <= List.length row)%nat) rows -> Printable gTable [exName] (listOf rows) rows.
Proof. intros Hr. split; [reflexivity|apply listOf_serves|exact Hr]. Qed.

Lemma greedy m : exists (t : Table (list str) str str) cols rows sep maxWidth g g',
  Printable t cols (listOf rows) rows /\ reckoned t cols sep mod 65536 <> 0
  /\ Z.of_nat g = estimate t cols sep maxWidth
  /\ Search exC cols sep maxWidth m rows g g /\ (g < g')%nat /\ Acceptable exC cols sep maxWidth m rows g'
  /\ exists fuel r, merge m fuel exC t (fun _ => true) (listOf rows) maxWidth sep true = r /\ stop r = Finished
     /\ forall lines, Layout m g' rows lines -> (List.length lines < List.length (written r))%nat.
Proof.
  exists gTable, [exName], (match m with H => gRowsH | V => gRowsV end), gSep, 24, 2%nat, 4%nat.
  split; [apply g_printable; destruct m; repeat constructor|]. split; [vm_compute; discriminate|]. split; [vm_compute; reflexivity|].
  split; [split; [lia|split; [intros; lia|]]|].
  { intros HA. apply acceptable_spec in HA; [|lia]. destruct m; vm_compute in HA; discriminate. }
  split; [lia|]. split; [apply acceptable_spec; [lia|]; destruct m; vm_compute; reflexivity|].
  exists 3%nat. eexists. split; [reflexivity|]. split; [destruct m; vm_compute; reflexivity|]. intros lines HL. apply layout_is in HL; [|lia]. subst lines.
  destruct m; vm_compute; lia.
Qed.

(** Overflow of the sum maxWidth + len(sep). *)
Lemma wider_overflow : exists (t : Table (list str) str str) cols rows w w', Printable t cols (listOf rows) rows /\ 0 <= w <= w' /\ w' < 65536
  /\ stop (merge H 1 exC t (fun _ => true) (listOf rows) w gSep false) = Finished
  /\ stop (merge H 1 exC t (fun _ => true) (listOf rows) w' gSep false) = Finished
  /\ (List.length (written (merge H 1 exC t (fun _ => true) (listOf rows) w gSep false))
      < List.length (written (merge H 1 exC t (fun _ => true) (listOf rows) w' gSep false)))%nat.
Proof.
  exists gTable, [exName], gRowsH, 40, 65535. split; [apply g_printable; repeat constructor|]. split; [lia|]. split; [lia|].
  split; [vm_compute; reflexivity|]. split; [vm_compute; reflexivity|]. vm_compute. lia.
Qed.
