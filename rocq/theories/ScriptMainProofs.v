(** * ScriptMainProofs: the command script/generate.go and the widths its tables
    give (C70). *)
From Coq Require Import Strings.String ZifyBool ZifyNat.
From Verif Require Import GoBase IntervalSpec TableProofs RuneWidthData Runewidth ConditionSpec RuneTheory Generate GenText GenTextSpec GenScriptSpec GenRead GenCases GenFormat GenScript GenScriptTables
  GenMain ScriptMain ScriptMainSpec.
Local Open Scope Z_scope.

(** ** Lookups *)
Definition Answers (b : option bool) (P : Prop) : Prop := exists x, b = Some x /\ (x = true <-> P).
Lemma answers_table r t : t <> [] -> Sorted t -> Answers (inTable_go r t) (Member r t).
Proof. intros N S. destruct (inTable_go_spec t r N S) as (x & E & K). exists x. auto. Qed.
Lemma answers_cons r t ts P : Answers (inTable_go r t) P -> forall Q, Answers (inTables_go r ts) Q -> Answers (inTables_go r (t :: ts)) (P \/ Q).
Proof.
  intros (x & E & K) Q (y & E' & K'). cbn [inTables_go]. rewrite E. destruct x; [exists true; tauto|]. rewrite E'. exists y. split; [reflexivity|].
  assert (~ P) by (intros p; apply K in p; discriminate). tauto.
Qed.
Lemma answers_nil r : Answers (inTables_go r []) False.
Proof. exists false. split; [reflexivity|]. split; [discriminate|contradiction]. Qed.
Lemma answers_iff b P Q : (P <-> Q) -> Answers b P -> Answers b Q.
Proof. intros H (x & E & K). exists x. split; [exact E|]. tauto. Qed.
Lemma nonprint_sorted : Sorted tbl_nonprint.
Proof. cbn. lia. Qed.
Lemma member_existsb r t : Member r t <-> existsb (fun p => (fst p <=? r) && (r <=? snd p)) t = true.
Proof.
  rewrite existsb_exists. unfold Member. split.
  - intros (a & b & I & R). exists (a, b). cbn [fst snd]. split; [exact I|lia].
  - intros ([a b] & I & R). exists a, b. cbn [fst snd] in R. split; [exact I|lia].
Qed.
Lemma control_member r : 0 <= r -> Control r <-> Member r tbl_nonprint.
Proof.
  intros H0. rewrite member_existsb. unfold Control. cbn [tbl_nonprint existsb fst snd]. lia.
Qed.
Lemma answers_hidden T r P : 0 <= r -> Answers (inTable_go r (tCombining T)) P -> Answers (inTables_go r [tbl_nonprint; tCombining T]) (Control r \/ P).
Proof.
  intros H0 HA. eapply answers_iff; [|apply answers_cons; [apply answers_table; [discriminate|exact nonprint_sorted]|apply answers_cons; [exact HA|apply answers_nil]]].
  rewrite <- control_member by exact H0. tauto.
Qed.

Lemma low_control r : 0 <= r < 0x300 -> Control r <-> r < 0x20 \/ 0x7F <= r <= 0x9F \/ r = 0xAD.
Proof. unfold Control. lia. Qed.

(** ** Widths from lines *)
Section Widths.
Variables (ls marked : list str) (T : tables).
Hypothesis Hn : forall r, Answers (inTable_go r (tNarrow T)) (Has ls Na r).
Hypothesis Hc : forall r, Answers (inTable_go r (tCombining T)) (Combines ls r).
Hypothesis Hd : forall r, Answers (inTable_go r (tDoublewidth T)) (IsWide ls r).
Hypothesis Ha : forall r, Answers (inTable_go r (tAmbiguous T)) (Has ls A r).
Hypothesis He : forall r, Answers (inTable_go r (tEmoji T)) (Pictures marked r).

Lemma width_plain st r : 0 <= r <= 0x10FFFF -> exists x, RuneWidth_on T false st r = Some x /\ FileWidth ls r x.
Proof.
  clear He Ha marked. intros R. unfold RuneWidth_on. destruct ((r <? 0) || (r >? 0x10FFFF)) eqn:E0; [lia|]. cbn [negb].
  destruct (Z.ltb_spec r 0x20); [exists 0; split; [reflexivity|apply fw_low_control; [lia|unfold Control; lia]]|].
  destruct ((r >=? 0x7F) && (r <=? 0x9F) || (r =? 0xAD)) eqn:E1; [exists 0; split; [reflexivity|apply fw_low_control; [lia|unfold Control; lia]]|].
  destruct (Z.ltb_spec r 0x300); [exists 1; split; [reflexivity|apply fw_low; [lia|rewrite low_control; lia]]|].
  destruct (Hn r) as (n & -> & Kn). destruct n; cbn [case]; [exists 1; split; [reflexivity|apply fw_narrow; tauto]|].
  assert (~ Has ls Na r) by (intros K; apply Kn in K; discriminate).
  destruct (answers_hidden T r _ ltac:(lia) (Hc r)) as (c & -> & Kc). destruct c; cbn [case]; [exists 0; split; [reflexivity|apply fw_nothing; tauto]|].
  assert (~ (Control r \/ Combines ls r)) by (intros K; apply Kc in K; discriminate).
  destruct (Hd r) as (d & -> & Kd). destruct d; cbn [case]; [exists 2; split; [reflexivity|apply fw_wide; tauto]|].
  assert (~ IsWide ls r) by (intros K; apply Kd in K; discriminate). exists 1. split; [reflexivity|apply fw_other; tauto].
Qed.

Lemma width_eastasian st r : 0 <= r <= 0x10FFFF -> exists x, RuneWidth_on T true st r = Some x /\ FileWidthEastAsian ls marked st r x.
Proof.
  intros R. unfold RuneWidth_on. destruct ((r <? 0) || (r >? 0x10FFFF)) eqn:E0; [lia|]. cbn [negb].
  destruct (answers_hidden T r _ ltac:(lia) (Hc r)) as (c & -> & Kc). destruct c; cbn [case]; [exists 0; split; [reflexivity|apply fe_nothing; tauto]|].
  assert (N1 : ~ (Control r \/ Combines ls r)) by (intros K; apply Kc in K; discriminate).
  destruct (Hn r) as (n & En & Kn). rewrite En. destruct n; cbn [case]; [exists 1; split; [reflexivity|apply fe_narrow; tauto]|].
  assert (N2 : ~ Has ls Na r) by (intros K; apply Kn in K; discriminate).
  destruct (answers_cons r _ [tDoublewidth T] _ (Ha r) _ (answers_cons r _ [] _ (Hd r) _ (answers_nil r))) as (d & -> & Kd).
  destruct d; cbn [case]; [exists 2; split; [reflexivity|apply fe_wide; tauto]|].
  assert (N3 : ~ (Has ls A r \/ IsWide ls r \/ False)) by (intros K; apply Kd in K; discriminate).
  destruct st; cbn [case]; [exists 1; split; [reflexivity|apply fe_other; tauto]|].
  destruct (answers_cons r _ [tEmoji T; tNarrow T] _ (Ha r) _ (answers_cons r _ [tNarrow T] _ (He r) _ (answers_cons r _ [] _ (Hn r) _ (answers_nil r)))) as (e & -> & Ke).
  destruct e; cbn [case]; [exists 2; split; [reflexivity|apply fe_picture; tauto]|].
  assert (N4 : ~ (Has ls A r \/ Pictures marked r \/ Has ls Na r \/ False)) by (intros K; apply Ke in K; discriminate).
  exists 1. split; [reflexivity|apply fe_other; tauto].
Qed.
End Widths.

Lemma plain_fun ls r x y : FileWidth ls r x -> FileWidth ls r y -> x = y.
Proof. intros [] []; try reflexivity; exfalso; try lia; tauto. Qed.
Lemma eastasian_fun ls marked st r x y : FileWidthEastAsian ls marked st r x -> FileWidthEastAsian ls marked st r y -> x = y.
Proof. intros [] []; try reflexivity; exfalso; intuition congruence. Qed.

(** ** The source *)
Lemma pair_fun (l : list (list str)) a b : map pair_value l = map Some a -> map pair_value l = map Some b -> a = b.
Proof.
  intros H1 H2. rewrite H1 in H2. clear H1. revert b H2. induction a as [|x a IH]; intros [|y b] H2; cbn [map] in H2; try discriminate; [reflexivity|].
  injection H2 as <- H2. f_equal. apply IH, H2.
Qed.
Lemma source_unique src T T' : Source src T -> Source src T' -> T = T'.
Proof.
  intros (gs & E & F) (gs' & E' & F'). assert (gs' = gs) by congruence. subst gs'. clear E E'.
  repeat match goal with
  | H : Forall2 _ gs (_ :: _) |- _ => inversion H; subst; clear H
  end.
  repeat match goal with
  | H : Forall2 _ _ (_ :: _) |- _ => inversion H; subst; clear H
  | H : Forall2 _ (_ :: _) _ |- _ => inversion H; subst; clear H
  | H : Forall2 _ _ [] |- _ => clear H
  | H : _ /\ _ |- _ => destruct H
  end.
  destruct T, T'. cbn in *. f_equal; eapply pair_fun; eassumption.
Qed.

Lemma script_said w ls ms marked fa early : Response w url_of_ea fa ls -> Response w url_of_em false ms -> Marked ms marked ->
  ProperLines EaRange ls -> ProperLines EmSays marked ->
  exists src T, Source src T
  /\ Script w early = ([url_of_ea; url_of_em],
       match gofmt w src with
       | None => Unformatted
       | Some out => if writable w then Written (lit "runewidth_table.go") out else Unwritten
       end)
  /\ (forall r, Member r (tNarrow T) <-> Has ls Na r) /\ (forall r, Member r (tCombining T) <-> Combines ls r)
  /\ (forall r, Member r (tDoublewidth T) <-> IsWide ls r) /\ (forall r, Member r (tAmbiguous T) <-> Has ls A r)
  /\ (forall r, Member r (tEmoji T) <-> Pictures marked r)
  /\ (Up EaRange ls -> Up EmSays marked -> Forall Sorted [tNarrow T; tCombining T; tDoublewidth T; tAmbiguous T; tEmoji T]).
Proof.
  intros (ea & W1 & S1 & L1) (em & W2 & S2 & L2) HM P1 P2.
  destruct (whole_script ea em ls ms marked early fa false S1 L1 S2 L2 HM ltac:(discriminate) P1 P2) as (cmb & dbl & amb & nar & neu & emo & D & Md & Ma & Mn & _ & Mc & Me & U1 & U2).
  exists (script_text early {| bText := ea; bFails := fa |} {| bText := em; bFails := false |}),
    {| tCombining := cmb; tDoublewidth := dbl; tAmbiguous := amb; tNarrow := nar; tNeutral := neu; tEmoji := emo |}.
  cbn [tCombining tDoublewidth tAmbiguous tNarrow tNeutral tEmoji].
  split; [exact D|]. split; [unfold Script; change ea_url with url_of_ea; change em_url with url_of_em; rewrite W1, W2; reflexivity|].
  split; [exact Mn|]. split; [exact Mc|].
  split.
  { intros r. rewrite Md. unfold IsWide, Has. split.
    - intros (line & lo & hi & c & I & S & [->| ->] & R); [left|right]; exists line, lo, hi; auto.
    - intros [(line & lo & hi & I & S & R)|(line & lo & hi & I & S & R)]; exists line, lo, hi; eauto 8. }
  split; [exact Ma|]. split; [exact Me|]. intros V1 V2. specialize (U1 V1). specialize (U2 V2). rewrite !Forall_cons_iff in *.
  repeat split; try constructor; apply Compact_Sorted; tauto.
Qed.

Lemma member_nonempty r t : Member r t -> t <> [].
Proof. intros (a & b & I & _) ->. contradiction. Qed.

Lemma script_widths w ls ms marked fa early : Response w url_of_ea fa ls -> Response w url_of_em false ms -> Marked ms marked ->
  ProperLines EaRange ls -> ProperLines EmSays marked -> Up EaRange ls -> Up EmSays marked -> AllThere ls marked ->
  exists src T, Source src T
  /\ Script w early = ([url_of_ea; url_of_em],
       match gofmt w src with
       | None => Unformatted
       | Some out => if writable w then Written (lit "runewidth_table.go") out else Unwritten
       end)
  /\ forall st r, 0 <= r <= 0x10FFFF ->
     (forall x, RuneWidth_on T false st r = Some x <-> FileWidth ls r x)
     /\ (forall x, RuneWidth_on T true st r = Some x <-> FileWidthEastAsian ls marked st r x).
Proof.
  intros R1 R2 HM P1 P2 U1 U2 ((r1 & A1) & (r2 & A2) & (r3 & A3) & (r4 & A4) & (r5 & A5)).
  destruct (script_said w ls ms marked fa early R1 R2 HM P1 P2) as (src & T & HS & E & Mn & Mc & Md & Ma & Me & U). specialize (U U1 U2).
  rewrite !Forall_cons_iff in U. destruct U as (Un & Uc & Ud & Ua & Ue & _).
  apply Mn, member_nonempty in A1. apply Mc, member_nonempty in A2. apply Md, member_nonempty in A3. apply Ma, member_nonempty in A4. apply Me, member_nonempty in A5.
  exists src, T. split; [exact HS|]. split; [exact E|]. intros st r R.
  destruct (width_plain ls T (fun r => answers_iff _ _ _ (Mn r) (answers_table r _ A1 Un)) (fun r => answers_iff _ _ _ (Mc r) (answers_table r _ A2 Uc))
    (fun r => answers_iff _ _ _ (Md r) (answers_table r _ A3 Ud)) st r R) as (x & Ex & Fx).
  destruct (width_eastasian ls marked T (fun r => answers_iff _ _ _ (Mn r) (answers_table r _ A1 Un)) (fun r => answers_iff _ _ _ (Mc r) (answers_table r _ A2 Uc))
    (fun r => answers_iff _ _ _ (Md r) (answers_table r _ A3 Ud)) (fun r => answers_iff _ _ _ (Ma r) (answers_table r _ A4 Ua))
    (fun r => answers_iff _ _ _ (Me r) (answers_table r _ A5 Ue)) st r R) as (y & Ey & Fy).
  split; intros z.
  - rewrite Ex. split; [intros K; injection K as <-; exact Fx|]. intros F. f_equal. eapply plain_fun; eauto.
  - rewrite Ey. split; [intros K; injection K as <-; exact Fy|]. intros F. f_equal. eapply eastasian_fun; eauto.
Qed.

(** ** Missing data *)
Lemma empty_table t : (forall r, ~ Member r t) -> Forall (fun p => fst p <= snd p) t -> t = [].
Proof. intros N F. destruct t as [|[a b] t]; [reflexivity|]. inversion F; subst. cbn [fst snd] in *. destruct (N a). exists a, b. split; [left; reflexivity|lia]. Qed.
Lemma sorted_proper t : Sorted t -> Forall (fun p => fst p <= snd p) t.
Proof. induction t as [|[a b] t IH]; intros S; [constructor|]. destruct S as (S1 & _ & S2). constructor; [exact S1|apply IH, S2]. Qed.

Lemma script_missing w ls ms marked fa early : Response w url_of_ea fa ls -> Response w url_of_em false ms -> Marked ms marked ->
  ProperLines EaRange ls -> ProperLines EmSays marked -> Up EaRange ls -> Up EmSays marked ->
  exists src T, Source src T
  /\ Script w early = ([url_of_ea; url_of_em],
       match gofmt w src with
       | None => Unformatted
       | Some out => if writable w then Written (lit "runewidth_table.go") out else Unwritten
       end)
  /\ ((forall r, ~ Has ls Na r) -> forall st r, 0x300 <= r <= 0x10FFFF -> RuneWidth_on T false st r = None)
  /\ ((forall r, ~ Combines ls r) -> forall st r, 0 <= r <= 0x10FFFF -> ~ Control r -> RuneWidth_on T true st r = None).
Proof.
  intros R1 R2 HM P1 P2 U1 U2.
  destruct (script_said w ls ms marked fa early R1 R2 HM P1 P2) as (src & T & HS & E & Mn & Mc & Md & Ma & Me & U). specialize (U U1 U2).
  rewrite !Forall_cons_iff in U. destruct U as (Un & Uc & _).
  exists src, T. split; [exact HS|]. split; [exact E|]. split.
  - intros N st r R. assert (Z : tNarrow T = []) by (apply empty_table; [intros q K; apply Mn in K; exact (N q K)|apply sorted_proper, Un]).
    unfold RuneWidth_on. rewrite Z. destruct ((r <? 0) || (r >? 0x10FFFF)) eqn:E0; [lia|]. cbn [negb].
    destruct (Z.ltb_spec r 0x20); [lia|]. destruct ((r >=? 0x7F) && (r <=? 0x9F) || (r =? 0xAD)) eqn:E1; [lia|]. destruct (Z.ltb_spec r 0x300); [lia|]. reflexivity.
  - intros N st r R C. assert (Z : tCombining T = []) by (apply empty_table; [intros q K; apply Mc in K; exact (N q K)|apply sorted_proper, Uc]).
    unfold RuneWidth_on. rewrite Z. destruct ((r <? 0) || (r >? 0x10FFFF)) eqn:E0; [lia|]. cbn [negb].
    cbn [inTables_go]. destruct (answers_table r tbl_nonprint ltac:(discriminate) nonprint_sorted) as (x & -> & K).
    destruct x; [exfalso; apply C, control_member; [lia|tauto]|]. reflexivity.
Qed.

(** The second response fails before the marker: no emoji table. *)
Lemma script_no_emoji w ls ms fa early : Response w url_of_ea fa ls -> Response w url_of_em true ms -> ProperLines EaRange ls ->
  Forall (fun l => ~ Mentions (lit "Extended_Pictographic ; No") l) ms ->
  exists src cmb dbl amb nar neu,
  Declares src [(lit "packagerunewidthvarcombining=table", cmb); (lit "vardoublewidth=table", dbl); (lit "varambiguous=table", amb);
     (lit "varnarrow=table", nar); (lit "varneutral=table", neu)]
  /\ Script w early = ([url_of_ea; url_of_em],
       match gofmt w src with
       | None => Unformatted
       | Some out => if writable w then Written (lit "runewidth_table.go") out else Unwritten
       end).
Proof.
  intros (ea & W1 & S1 & L1) (em & W2 & S2 & L2) P1 N.
  destruct (no_emoji ea ls em ms early fa S1 L1 P1 S2 L2 N) as (cmb & dbl & amb & nar & neu & D).
  exists (script_text early {| bText := ea; bFails := fa |} {| bText := em; bFails := true |}), cmb, dbl, amb, nar, neu. split; [exact D|].
  unfold Script. change ea_url with url_of_ea. change em_url with url_of_em. rewrite W1, W2. reflexivity.
Qed.

Lemma script_responses w early :
  (snd (Script w early) = NoResponse <-> web w url_of_ea = None \/ web w url_of_em = None)
  /\ (fst (Script w early) = [url_of_ea] \/ fst (Script w early) = [url_of_ea; url_of_em])
  /\ (In url_of_em (fst (Script w early)) <-> web w url_of_ea <> None).
Proof.
  unfold Script. change ea_url with url_of_ea. change em_url with url_of_em.
  assert (D : url_of_ea <> url_of_em) by (intros K; apply (f_equal (@List.length byte)) in K; vm_compute in K; discriminate).
  destruct (web w url_of_ea) as [ea|]; cbn [fst snd].
  - split; [|split; [tauto|split; [discriminate|intros _; cbn [In]; tauto]]].
    destruct (web w url_of_em) as [em|]; [|tauto]. destruct (gofmt _ _); [destruct (writable w)|]; split; try discriminate; intros [K|K]; discriminate.
  - split; [tauto|]. split; [tauto|]. cbn [In]. split; [intros [K|[]]; congruence|congruence].
Qed.

(** ** The tables in /repo *)
Lemma go_of r t : t <> [] -> Compact t -> inTable_go r t = Some (inTable r t).
Proof.
  intros N C. unfold inTable. destruct (inTable_go_spec t r N (Compact_Sorted _ C)) as (x & -> & _). reflexivity.
Qed.
Lemma repo_widths ea st r : RuneWidth_on repo_tables ea st r = Some (RuneWidth (plainCondition ea st) r).
Proof.
  pose proof package_tables_compact as F. rewrite !Forall_cons_iff in F. destruct F as (F1 & F2 & F3 & F4 & F5 & F6 & F7 & F8 & _).
  unfold RuneWidth_on, RuneWidth, plainCondition. cbn [combinedLut EastAsianWidth StrictEmojiNeutral]. change (0 <? slen (@nil Z)) with false. cbv iota.
  unfold RuneWidth_tables. cbn [repo_tables tCombining tDoublewidth tAmbiguous tNarrow tNeutral tEmoji inTables_go inTables].
  rewrite !go_of by tauto.
  destruct ((r <? 0) || (r >? 0x10FFFF)); [reflexivity|]. destruct ea; cbn [negb].
  - destruct (inTable r tbl_nonprint); [reflexivity|]. destruct (inTable r tbl_combining); [reflexivity|]. cbn [case].
    destruct (inTable r tbl_narrow); [reflexivity|]. cbn [case]. destruct (inTable r tbl_ambiguous); [reflexivity|].
    destruct (inTable r tbl_doublewidth); [reflexivity|]. cbn [case]. destruct st; [reflexivity|]. cbn [negb andb]. destruct (inTable r tbl_emoji); reflexivity.
  - destruct (r <? 0x20); [reflexivity|]. destruct ((r >=? 0x7F) && (r <=? 0x9F) || (r =? 0xAD)); [reflexivity|]. destruct (r <? 0x300); [reflexivity|].
    destruct (inTable r tbl_narrow); [reflexivity|]. cbn [case]. destruct (inTable r tbl_nonprint); [reflexivity|]. destruct (inTable r tbl_combining); [reflexivity|].
    cbn [case]. destruct (inTable r tbl_doublewidth); reflexivity.
Qed.

(** ** Examples *)
Definition script_world (ea em : str) : World :=
  {| web := fun url => if str_eqb url url_of_ea then Some {| bText := ea; bFails := false |}
                       else if str_eqb url url_of_em then Some {| bText := em; bFails := false |} else None;
     gofmt := fun src => Some src; writable := true; today := [] |}.
Lemma has_read ls c r : (exists line l, In line ls /\ read_ea line = Some l /\ eaClass l = c /\ eaLo l <= r <= match eaHi l with Some h => h | None => eaLo l end) -> Has ls c r.
Proof. intros (line & l & I & E & C & R). exists line, (eaLo l), (match eaHi l with Some h => h | None => eaLo l end). split; [exact I|]. split; [apply says_read; exists l; auto|exact R]. Qed.
Lemma read_has ls c r : Has ls c r -> exists line l, In line ls /\ read_ea line = Some l /\ eaClass l = c /\ eaLo l <= r <= match eaHi l with Some h => h | None => eaLo l end.
Proof. intros (line & lo & hi & I & S & R). apply says_read in S. destruct S as (l & E & <- & <- & C). exists line, l. auto. Qed.
Definition ea_lines : list str := fst (scan {| bText := ea_example; bFails := false |}).
Definition em_lines : list str := fst (scan {| bText := em_example; bFails := false |}).
Lemma script_example70 :
  Response (script_world ea_example em_example) url_of_ea false ea_lines /\ Response (script_world ea_example em_example) url_of_em false em_lines
  /\ Marked em_lines (after_marker em_lines)
  /\ ProperLines EaRange ea_lines /\ ProperLines EmSays (after_marker em_lines) /\ Up EaRange ea_lines /\ Up EmSays (after_marker em_lines)
  /\ AllThere ea_lines (after_marker em_lines)
  /\ FileWidth ea_lines 0x41 1 /\ FileWidth ea_lines 0x301 0
  /\ exists out, Script (script_world ea_example em_example) false = ([url_of_ea; url_of_em], Written (lit "runewidth_table.go") out).
Proof.
  destruct (short_example ea_example _ eq_refl eq_refl) as [S1 L1]. destruct (short_example em_example _ eq_refl eq_refl) as [S2 L2].
  split; [exists ea_example; split; [vm_compute; reflexivity|split; [exact S1|exact L1]]|]. split; [exists em_example; split; [vm_compute; reflexivity|split; [exact S2|exact L2]]|].
  split; [apply marked_iff; reflexivity|].
  split; [apply (proper_ok ea_span _ _ ea_spans); vm_compute; reflexivity|]. split; [apply (proper_ok em_span _ _ em_spans); vm_compute; reflexivity|].
  split; [apply (up_ok ea_span _ _ ea_spans); vm_compute; reflexivity|]. split; [apply (up_ok em_span _ _ em_spans); vm_compute; reflexivity|].
  assert (C : Combines ea_lines 0x301).
  { exists (nth 2 ea_lines []), 0x300, 0x36F, A. split; [vm_compute; auto 8|]. split; [apply says_read; eexists; split; [vm_compute; reflexivity|repeat split]|]. split; [|lia].
    apply contains_iff. vm_compute. reflexivity. }
  split.
  { split; [exists 0x20; apply has_read; exists (nth 1 ea_lines []); eexists; split; [vm_compute; auto 8|split; [vm_compute; reflexivity|split; [reflexivity|cbn; lia]]]|].
    split; [exists 0x301; exact C|].
    split; [exists 0x1100; left; apply has_read; exists (nth 3 ea_lines []); eexists; split; [vm_compute; auto 8|split; [vm_compute; reflexivity|split; [reflexivity|cbn; lia]]]|].
    split; [exists 0x300; apply has_read; exists (nth 2 ea_lines []); eexists; split; [vm_compute; auto 8|split; [vm_compute; reflexivity|split; [reflexivity|cbn; lia]]]|].
    exists 0x231A, (nth 1 (after_marker em_lines) []), 0x231A, 0x231B. split; [vm_compute; auto 8|]. split; [apply em_read; eexists; split; [vm_compute; reflexivity|split; reflexivity]|lia]. }
  split; [apply fw_low; [lia|unfold Control; lia]|]. split; [|eexists; reflexivity].
  apply fw_nothing; [lia| |right; exact C]. intros K. apply read_has in K. destruct K as (line & l & I & E & K & R).
  vm_compute in I. repeat (destruct I as [<-|I]; [vm_compute in E; try discriminate E; injection E as <-; try discriminate K; cbn in R; lia|]). contradiction.
Qed.

(** An error page in place of the first file. *)
Definition page : str := lit "<html><h1>404 Not Found</h1></html>".
Lemma page_missing : Response (script_world page em_example) url_of_ea false [page] /\ Response (script_world page em_example) url_of_em false em_lines
  /\ Marked em_lines (after_marker em_lines)
  /\ ProperLines EaRange [page] /\ ProperLines EmSays (after_marker em_lines) /\ Up EaRange [page] /\ Up EmSays (after_marker em_lines)
  /\ (forall r, ~ Has [page] Na r) /\ (forall r, ~ Combines [page] r)
  /\ exists out, Script (script_world page em_example) false = ([url_of_ea; url_of_em], Written (lit "runewidth_table.go") out).
Proof.
  destruct (short_example page [page] eq_refl eq_refl) as [S1 L1]. destruct (short_example em_example _ eq_refl eq_refl) as [S2 L2].
  split; [exists page; split; [vm_compute; reflexivity|split; [exact S1|exact L1]]|]. split; [exists em_example; split; [vm_compute; reflexivity|split; [exact S2|exact L2]]|].
  split; [apply marked_iff; reflexivity|].
  split; [apply (proper_ok ea_span _ _ ea_spans); vm_compute; reflexivity|]. split; [apply (proper_ok em_span _ _ em_spans); vm_compute; reflexivity|].
  split; [apply (up_ok ea_span _ _ ea_spans); vm_compute; reflexivity|]. split; [apply (up_ok em_span _ _ em_spans); vm_compute; reflexivity|].
  assert (E : read_ea page = None) by (vm_compute; reflexivity).
  split; [intros r K; apply read_has in K; destruct K as (line & l & [<-|[]] & K & _); congruence|].
  split; [intros r (line & lo & hi & c & [<-|[]] & K & _); apply says_read in K; destruct K as (l & K & _); congruence|].
  eexists. reflexivity.
Qed.
