(** * TerminalCases: concrete text on the terminal. *)
From Coq Require Import Strings.String.
From Verif Require Import GoBase Utf8 GraphemeSpec Runewidth ConditionSpec Width EscapeSpec TextSpec AlignSpec Table TableContract TableExamples TableOpsProofs
  Merge MergeSpec MergeExamples TerminalSpec TerminalProofs.
From Coq Require Import ZifyBool ZifyNat.
Local Open Scope Z_scope.

Definition stands_b (r : Z) : bool := match class r with Other | HLV | HLVT | Pict => true | _ => false end.
Definition simple_b (s : str) : bool :=
  forallb (fun x => negb ((fst x =? RuneError) && (snd x =? 1)) && stands_b (fst x)) (decode s).
Lemma simple_b_ok s : simple_b s = true -> SimpleText s.
Proof.
  unfold simple_b. intros H. rewrite forallb_forall in H. split.
  - unfold ValidUTF8. apply Forall_forall. intros x Hx K. specialize (H x Hx). subst x. cbn [fst snd] in H.
    rewrite !Z.eqb_refl in H. discriminate.
  - unfold runes. rewrite Forall_map. apply Forall_forall. intros x Hx. specialize (H x Hx).
    apply andb_true_iff in H. destruct H as [_ H]. unfold stands_b in H. unfold Stands.
    destruct (class (fst x)); try discriminate; auto.
Qed.

(** ESC [ n m *)
Definition attr (n : string) : str := x1b :: x5b :: lit n ++ [x6d].
Definition short_b (p : str) : bool := forallb (fun b => (48 <=? bv b) && (bv b <=? 57)) p && (List.length p <=? 4)%nat && (1 <=? List.length p)%nat.
Lemma attr_quiet n : short_b (lit n) = true -> Quiet (attr n).
Proof.
  unfold short_b. intros H. apply andb_true_iff in H. destruct H as [H H2]. apply andb_true_iff in H. destruct H as [H H1].
  unfold attr. change (lit n ++ [x6d]) with (([] ++ lit n) ++ [x6d]). apply quiet; [constructor| |vm_compute; tauto].
  rewrite <- (app_nil_r (map bv (lit n))). constructor; [|constructor]. split; [|rewrite map_length; lia].
  rewrite Forall_map. apply Forall_forall. intros b Hb. rewrite forallb_forall in H. apply digit_b. apply H. exact Hb.
Qed.

Definition bold (s : str) : str := [] ++ attr "1" ++ s ++ attr "0" ++ [].
Lemma bold_styled s : simple_b s = true -> Styled (bold s).
Proof.
  intros H. apply st_more; [apply simple_b_ok; reflexivity|apply attr_quiet; reflexivity|].
  apply st_more; [apply simple_b_ok; exact H|apply attr_quiet; reflexivity|]. apply st_end, simple_b_ok. reflexivity.
Qed.

(** Bold names, plain sizes; a wide rune. *)
Definition sRows : list (list str) :=
  [[bold (lit "go.mod"); lit "12"]; [bold (lit "x"); lit "3"]; [bold [xe6; x97; xa5]; lit "5"]]%string.

Lemma cell_bold s : simple_b s = true -> (rawWidth exC (bold s) <? 65536) = true -> Styled (bold s) /\ rawWidth exC (bold s) < 65536.
Proof. intros H1 H2. split; [apply bold_styled; exact H1|lia]. Qed.
Lemma cell_plain s : simple_b s = true -> (rawWidth exC s <? 65536) = true -> Styled s /\ rawWidth exC s < 65536.
Proof. intros H1 H2. split; [apply st_end, simple_b_ok; exact H1|lia]. Qed.
Lemma sStyled : Forall (Forall (fun s => Styled s /\ rawWidth exC s < 65536)) sRows.
Proof.
  unfold sRows.
  repeat (apply Forall_cons;
    [apply Forall_cons; [apply cell_bold; vm_compute; reflexivity|
     apply Forall_cons; [apply cell_plain; vm_compute; reflexivity|apply Forall_nil]]|]).
  apply Forall_nil.
Qed.
Lemma mSepStyled : Styled mSep.
Proof. apply st_end, simple_b_ok. vm_compute. reflexivity. Qed.

Lemma rows_hypotheses : exists t', Formats exC exTable sRows t' sRows
  /\ Columns (tSpec exTable) = map Some mCols
  /\ Forall (fun col => exists a, colAlignment col = Some (align a exC)) mCols
  /\ Forall (Forall (fun s => Styled s /\ rawWidth exC s < 65536)) sRows /\ Styled mSep
  /\ map (fun row => map (fun n => tCol (show exC home (List.concat (map (fun cell => cell ++ mSep) (firstn n (fst (AlignFormattedItem t' row))))))) [1; 2]%nat) sRows
     = [[8; 12]; [8; 12]; [8; 12]].
Proof.
  set (i1 := [bold (lit "go.mod"); lit "12"]%string). set (i2 := [bold (lit "x"); lit "3"]%string). set (i3 := [bold [xe6; x97; xa5]; lit "5"]%string).
  set (t1 := fst (FormatItem exC exTable i1)). set (t2 := fst (FormatItem exC t1 i2)). set (t3 := fst (FormatItem exC t2 i3)).
  exists t3. split; [|split; [reflexivity|split; [|split; [exact sStyled|split; [exact mSepStyled|vm_compute; reflexivity]]]]].
  - change sRows with [i1; i2; i3].
    eapply f_cons with (t1 := t1); [|eapply f_cons with (t1 := t2); [|eapply f_cons with (t1 := t3); [|apply f_nil]]].
    + rewrite (surjective_pairing (FormatItem exC exTable i1)). f_equal.
    + rewrite (surjective_pairing (FormatItem exC t1 i2)). f_equal.
    + rewrite (surjective_pairing (FormatItem exC t2 i3)). f_equal.
  - constructor; [exists ALeft; reflexivity|]. constructor; [exists ARight; reflexivity|constructor].
Qed.

Lemma merged_hypotheses : Printable mTable mCols (listOf sRows) sRows /\ Reachable exC /\ Forall (BuiltIn exC) mCols
  /\ Forall (Forall (fun s => Styled s /\ rawWidth exC s < 65536)) sRows
  /\ (forall name, 0 <= Width mTable name < 65536) /\ Styled mSep /\ reckoned mTable mCols mSep mod 65536 <> 0
  /\ FitsRecorded exC mTable mCols sRows
  /\ stop (merge H 9 exC mTable (fun _ => true) (listOf sRows) 26 mSep false) = Finished
  /\ written (merge H 9 exC mTable (fun _ => true) (listOf sRows) 26 mSep false)
     = [bold (lit "go.mod"%string) ++ lit " 12 |"%string ++ bold (lit "x"%string) ++ lit "       3"%string ++ [x0a];
        bold [xe6; x97; xa5] ++ lit "      5 |"%string ++ [x0a]].
Proof.
  split; [split; [reflexivity|apply listOf_serves|repeat constructor]|]. split; [apply r_fresh|].
  split; [constructor; [right; exists ALeft; reflexivity|constructor; [right; exists ARight; reflexivity|constructor]]|].
  split; [exact sStyled|]. split.
  { exact mWidths. }
  split; [exact mSepStyled|]. split; [vm_compute; discriminate|]. split.
  { intros row i s col Hrow Hs Hcol. cbn in Hrow.
    destruct Hrow as [<-|[<-|[<-|[]]]]; destruct i as [|[|i]]; cbn in Hs, Hcol; try discriminate;
      try (destruct i; discriminate); injection Hs as <-; injection Hcol as <-; vm_compute; discriminate. }
  split; vm_compute; reflexivity.
Qed.

(** A hyperlink as terminals know it, around one letter. *)
Definition link : str := x1b :: lit "]8;;u"%string ++ [x07] ++ lit "x"%string ++ x1b :: lit "]8;;"%string ++ [x07].
Lemma link_wrong : tCol (show exC home link) = 1 /\ tMode (show exC home link) = Ground /\ vwidth exC link = 10
  /\ tCol (show exC home (align ALeft exC link 10)) = 1.
Proof. repeat split; vm_compute; reflexivity. Qed.

(** ESC [ 5 C moves the cursor five cells. *)
Lemma moving_wrong : vwidth exC (x1b :: lit "[5C"%string) = 0 /\ show exC home (x1b :: lit "[5C"%string) = mkT Ground 5 [].
Proof. split; vm_compute; reflexivity. Qed.

(** An underline with a style, parameters divided by a colon. *)
Lemma colon_wrong : show exC home (x1b :: lit "[4:3m"%string) = mkT Ground 0 [[52; 58; 51]]
  /\ vwidth exC (x1b :: lit "[4:3m"%string) = 3.
Proof. split; vm_compute; reflexivity. Qed.

(** Woman, joiner, laptop: one cluster of two cells for the library, four
    cells on a terminal that goes by runes. *)
Definition technologist : str := [xf0; x9f; x91; xa9; xe2; x80; x8d; xf0; x9f; x92; xbb].
Lemma joined_wrong : vwidth exC technologist = 2 /\ show exC home technologist = mkT Ground 4 [].
Proof. split; vm_compute; reflexivity. Qed.

(** All runes of the library's own examples: text, a syllable, a picture. *)
Lemma styled_example : Styled (bold (lit "ab"%string ++ [xea; xb0; x80] ++ [xe2; x98; x80]))
  /\ show exC home (bold (lit "ab"%string ++ [xea; xb0; x80] ++ [xe2; x98; x80])) = mkT Ground 5 [[48]; [49]].
Proof. split; [apply bold_styled; vm_compute; reflexivity|vm_compute; reflexivity]. Qed.

Lemma attribute_example : ShortNumbers (lit "38;5;1234;;0")%string /\ ~ ShortNumbers (lit "38;12345")%string.
Proof.
  split.
  - apply escape_short; [repeat (constructor; [vm_compute; tauto|]); constructor|].
    assert (Q : Quiet (x1b :: x5b :: ([] ++ lit "38;5;1234;;0"%string) ++ [x6d])).
    { apply quiet; [constructor| |vm_compute; tauto].
      change (map bv (lit "38;5;1234;;0"%string)) with ([51; 56] ++ (59 :: [53] ++ (59 :: [49; 50; 51; 52] ++ (59 :: [] ++ (59 :: [48] ++ []))))).
      assert (D : forall l, forallb isdig l = true -> Forall (oneof digits) l).
      { intros l Hl. apply Forall_forall. intros r Hr. apply digit_b. rewrite forallb_forall in Hl. auto. }
      constructor; [split; [apply D; reflexivity|cbn; lia]|].
      repeat (constructor; [split; [apply D; reflexivity|cbn; lia]|]). constructor. }
    destruct (quiet_escseq _ Q) as (body & fin & _ & K & _). exact K.
  - intros [_ K]. specialize (K (lit "38;")%string (lit "12345")%string [] eq_refl).
    assert (F : Forall (fun b => oneof digits (bv b)) (lit "12345")%string) by (repeat (constructor; [vm_compute; tauto|]); constructor).
    specialize (K F). cbn in K. lia.
Qed.

Lemma colon_refuted : exists c e, Reachable c /\ tCol (show c home e) = 0 /\ tMode (show c home e) = Ground
  /\ tStyle (show c home e) <> [] /\ vwidth c e = 3.
Proof.
  exists exC, (x1b :: lit "[4:3m"%string). destruct colon_wrong as [E1 E2]. rewrite E1, E2.
  split; [apply r_fresh|]. repeat split. discriminate.
Qed.
Lemma link_refuted : exists c s w, Reachable c /\ vwidth c s = w /\ tMode (show c home s) = Ground
  /\ tCol (show c home (align ALeft c s w)) < w.
Proof.
  exists exC, link, 10. destruct link_wrong as (_ & E1 & E2 & E3). rewrite E1, E2, E3.
  split; [apply r_fresh|]. repeat split.
Qed.
Lemma moving_refuted : exists c e, Reachable c /\ EscSequence e /\ vwidth c e = 0 /\ tCol (show c home e) = 5.
Proof.
  exists exC, (x1b :: lit "[5C"%string). destruct moving_wrong as [E1 E2]. rewrite E1, E2.
  split; [apply r_fresh|]. split; [|split; reflexivity].
  exists (lit "[5"%string), x43. split; [reflexivity|]. split.
  - change (Escape (0x1B :: [91] ++ ([53] ++ []) ++ [67])). constructor; [auto| | |].
    + constructor; [vm_compute; tauto|constructor].
    + constructor; [split; [constructor; [vm_compute; tauto|constructor]|cbn; lia]|constructor].
    + vm_compute. tauto.
  - intros K. apply digit_b in K. discriminate.
Qed.
Lemma joined_refuted : exists c s, Reachable c /\ ValidUTF8 s /\ vwidth c s < tCol (show c home s).
Proof.
  exists exC, technologist. destruct joined_wrong as [E1 E2]. rewrite E1, E2. split; [apply r_fresh|]. split; [|reflexivity].
  unfold ValidUTF8. change (decode technologist) with [(128105, 4); (8205, 3); (128187, 4)].
  repeat (constructor; [discriminate|]). constructor.
Qed.
