(** * GenScriptTables: the tables script/generate.go prints (C60). *)
From Coq Require Import Strings.String ZifyBool ZifyNat.
From Verif Require Import GoBase IntervalSpec TableProofs Utf8 Regex Locale Runewidth Generate GenerateSpec GenerateProofs GenText GenTextSpec GenScan GenPattern GenRead GenSource GenCases GenScriptSpec GenFormat GenScript.
Local Open Scope Z_scope.

(** ** Positive tables *)
Lemma coalesce_pos l : forall cur, Pos (cur :: l) -> Pos (coalesce cur l).
Proof.
  induction l as [|[a b] l IH]; intros [lo hi] H; cbn [coalesce fst snd]; [exact H|]. inversion H as [|? ? [H1 H2] H3]; subst. inversion H3 as [|? ? [H4 H5] H6]; subst.
  cbn [fst snd] in *. destruct (hi + 1 =? a); [apply IH; constructor; [split; assumption|exact H6]|]. constructor; [split; assumption|apply IH, H3].
Qed.
Lemma shapeup_pos t : Pos t -> Pos (shapeup t).
Proof. rewrite shapeup_eq. destruct t; [auto|apply coalesce_pos]. Qed.
Lemma collect_pos p lines : (forall l, In l lines -> 0 <= eaLo l <= ea_end l) -> Pos (collect p lines).
Proof.
  intros H. rewrite collect_filter. apply Forall_forall. intros e I. apply in_map_iff in I. destruct I as (l & <- & I). apply filter_In in I.
  specialize (H l (proj1 I)). unfold ea_end in H. unfold ea_range. cbn [fst snd]. lia.
Qed.
Definition em_pick (l : list (Z * option Z)) : list (Z * Z) :=
  filter (fun e => negb (snd e <? 255)) (map (fun p => (fst p, match snd p with Some h => h | None => fst p end)) l).
Lemma emoji_table_eq l : emoji_table l = shapeup (em_pick l).
Proof.
  unfold emoji_table. f_equal.
  enough (G : forall acc, fold_left (fun acc '(lo, hi) => let hi := match hi with Some h => h | None => lo end in if hi <? 0xFF then acc else acc ++ [(lo, hi)]) l acc = acc ++ em_pick l) by exact (G []).
  induction l as [|[lo hi] l IH]; intros acc; cbn [fold_left]; [symmetry; apply app_nil_r|]. rewrite IH. unfold em_pick. cbn [map filter fst snd]. cbv zeta.
  destruct (_ <? _); [reflexivity|]. cbn [negb]. rewrite <- app_assoc. reflexivity.
Qed.

(** ** Lines *)
Section L.
Variable ls : list str.
Hypothesis HP : ProperLines EaRange ls.
Let recs := filter_map read_ea ls.
Lemma rec_says l : In l recs -> exists line, In line ls /\ EaSays line (eaLo l) (ea_end l) (eaClass l) /\ (eaCombining l = true <-> Mentions (lit "COMBINING") line).
Proof.
  intros H. apply filter_map_in in H. destruct H as (line & I & E). exists line. split; [exact I|]. split; [apply says_read; eauto|].
  apply read_ea_iff in E. apply E.
Qed.
Lemma says_rec line lo hi c : In line ls -> EaSays line lo hi c ->
  exists l, In l recs /\ eaLo l = lo /\ ea_end l = hi /\ eaClass l = c /\ (eaCombining l = true <-> Mentions (lit "COMBINING") line).
Proof.
  intros I H. apply says_read in H. destruct H as (l & E & H1 & H2 & H3). exists l. split; [apply filter_map_in; eauto|].
  apply read_ea_iff in E. destruct E as (_ & HC & _). auto.
Qed.
Lemma recs_range l : In l recs -> 0 <= eaLo l <= ea_end l.
Proof. intros H. apply rec_says in H. destruct H as (line & I & H & _). apply (HP line); [exact I|]. exists (eaClass l). exact H. Qed.
Lemma recs_proper : Forall ProperLine recs.
Proof. apply Forall_forall. intros l H. apply recs_range in H. unfold ProperLine, ea_end in *. destruct (eaHi l); [lia|exact I]. Qed.
Lemma covers_end l r : Covers l r <-> eaLo l <= r <= ea_end l.
Proof. unfold Covers, ea_end. destruct (eaHi l); lia. Qed.
Lemma ea_members : let t := eastasian recs in
  (forall r, Member r (eaDbl t) <-> exists line lo hi c, In line ls /\ EaSays line lo hi c /\ (c = W \/ c = F) /\ lo <= r <= hi)
  /\ (forall r, Member r (eaAmb t) <-> exists line lo hi, In line ls /\ EaSays line lo hi A /\ lo <= r <= hi)
  /\ (forall r, Member r (eaNar t) <-> exists line lo hi, In line ls /\ EaSays line lo hi Na /\ lo <= r <= hi)
  /\ (forall r, Member r (eaNeu t) <-> exists line lo hi, In line ls /\ EaSays line lo hi N /\ lo <= r <= hi)
  /\ (forall r, Member r (eaCmb t) <-> exists line lo hi c, In line ls /\ EaSays line lo hi c /\ Mentions (lit "COMBINING") line /\ lo <= r <= hi).
Proof.
  destruct (eastasian_tables recs recs_proper) as (M1 & M2 & M3 & M4 & M5). cbv zeta in *.
  assert (K : forall c r, (exists l, In l recs /\ eaClass l = c /\ Covers l r) <-> exists line lo hi, In line ls /\ EaSays line lo hi c /\ lo <= r <= hi).
  { intros c r. split.
    - intros (l & I & E & C). destruct (rec_says l I) as (line & I' & S & _). exists line, (eaLo l), (ea_end l). rewrite <- E. apply covers_end in C. auto.
    - intros (line & lo & hi & I & S & R). destruct (says_rec _ _ _ _ I S) as (l & I' & E1 & E2 & E3 & _). exists l. split; [exact I'|]. split; [exact E3|]. apply covers_end. lia. }
  split; [|split; [|split; [|split]]]; intros r.
  - rewrite M1. split.
    + intros (l & I & E & C). destruct (rec_says l I) as (line & I' & S & _). exists line, (eaLo l), (ea_end l), (eaClass l). apply covers_end in C. auto.
    + intros (line & lo & hi & c & I & S & E & R). destruct (says_rec _ _ _ _ I S) as (l & I' & E1 & E2 & E3 & _). exists l. rewrite E3. split; [exact I'|]. split; [exact E|]. apply covers_end. lia.
  - rewrite M2. apply K.
  - rewrite M3. apply K.
  - rewrite M4. apply K.
  - rewrite M5. split.
    + intros (l & I & E & C). destruct (rec_says l I) as (line & I' & S & B). exists line, (eaLo l), (ea_end l), (eaClass l). apply covers_end in C. split; [exact I'|]. split; [exact S|]. split; [apply B, E|exact C].
    + intros (line & lo & hi & c & I & S & E & R). destruct (says_rec _ _ _ _ I S) as (l & I' & E1 & E2 & E3 & B). exists l. split; [exact I'|]. split; [apply B, E|]. apply covers_end. lia.
Qed.
Lemma ea_pos : let t := eastasian recs in Forall Pos [eaCmb t; eaDbl t; eaAmb t; eaNar t; eaNeu t].
Proof. cbv zeta. unfold eastasian. cbn [eaCmb eaDbl eaAmb eaNar eaNeu]. repeat (constructor; [apply shapeup_pos, collect_pos; exact recs_range|]). constructor. Qed.
End L.
Lemma ea_up ls : Up EaRange ls -> Ascending (filter_map read_ea ls).
Proof.
  induction ls as [|line ls IH]; [intros _; exact I|]. intros [H K]. specialize (IH K). cbn [filter_map]. destruct (read_ea line) as [l|] eqn:E; [|exact IH].
  cbn [Ascending]. split; [|exact IH]. intros r l' r' C I C'. destruct (rec_says ls l' I) as (line' & I' & S & _).
  assert (Q : ea_end l < eaLo l').
  { apply (H (eaLo l) (ea_end l) line' (eaLo l') (ea_end l')); [|exact I'|]; [exists (eaClass l); apply says_read; eauto|exists (eaClass l'); exact S]. }
  apply covers_end in C. apply covers_end in C'. lia.
Qed.

(** ** The emoji table *)
Lemma marked_iff ms marked : Marked ms marked <-> after_marker ms = marked.
Proof.
  split.
  - intros [ls F|pre l rest F M].
    + induction F as [|l ls Hl F IH]; [reflexivity|]. cbn [after_marker]. destruct (Contains l marker) eqn:E; [|exact IH]. apply contains_iff in E. contradiction.
    + induction F as [|x pre Hx F IH]; cbn [app after_marker].
      * apply contains_iff in M. fold marker in M. rewrite M. reflexivity.
      * destruct (Contains x marker) eqn:E; [apply contains_iff in E; contradiction|exact IH].
  - intros <-. induction ms as [|l ms IH]; [apply marked_none; constructor|]. cbn [after_marker]. destruct (Contains l marker) eqn:E.
    + apply (marked_at [] l ms); [constructor|]. apply contains_iff, E.
    + assert (N : ~ Mentions (lit "Extended_Pictographic ; No") l) by (intros K; apply contains_iff in K; fold marker in K; congruence).
      destruct IH as [ls F|pre x rest F M]; [apply marked_none; constructor; assumption|]. apply (marked_at (l :: pre)); [constructor; assumption|exact M].
Qed.
Section E.
Variable ms : list str.
Hypothesis HP : ProperLines EmSays ms.
Lemma em_in lo hi : In (lo, hi) (em_pick (filter_map read_em ms)) <-> exists line, In line ms /\ EmSays line lo hi /\ 255 <= hi.
Proof.
  unfold em_pick. rewrite filter_In, in_map_iff. cbn [snd]. split.
  - intros [(p & E & I) Q]. apply filter_map_in in I. destruct I as (line & I & R). exists line. split; [exact I|]. injection E as <- <-. split; [apply em_read; eauto|lia].
  - intros (line & I & S & Q). apply em_read in S. destruct S as (p & R & <- & <-). split; [|lia]. exists p. split; [reflexivity|]. apply filter_map_in. eauto.
Qed.
Lemma em_nonempty : NonEmpty (em_pick (filter_map read_em ms)).
Proof. apply Forall_forall. intros [lo hi] I. apply em_in in I. destruct I as (line & I & S & _). cbn [fst snd]. apply (HP line) in S; [lia|exact I]. Qed.
Lemma em_members r : Member r (emoji_table (filter_map read_em ms)) <-> exists line lo hi, In line ms /\ EmSays line lo hi /\ 255 <= hi /\ lo <= r <= hi.
Proof.
  rewrite emoji_table_eq, shapeup_member by exact em_nonempty. unfold Member. split.
  - intros (lo & hi & I & R). apply em_in in I. destruct I as (line & I & S & Q). exists line, lo, hi. auto.
  - intros (line & lo & hi & I & S & Q & R). exists lo, hi. split; [|exact R]. apply em_in. eauto.
Qed.
Lemma em_pos : Pos (emoji_table (filter_map read_em ms)).
Proof.
  rewrite emoji_table_eq. apply shapeup_pos, Forall_forall. intros [lo hi] I. apply em_in in I. destruct I as (line & I & S & _). cbn [fst snd]. apply (HP line) in S; [lia|exact I].
Qed.
End E.
Lemma em_sorted ms : ProperLines EmSays ms -> Up EmSays ms -> Sorted (em_pick (filter_map read_em ms)).
Proof.
  induction ms as [|line ms IH]; intros P U; [exact I|]. destruct U as [U1 U2]. cbn [filter_map].
  assert (P' : ProperLines EmSays ms) by (intros l lo hi I; apply P; right; exact I). specialize (IH P' U2).
  destruct (read_em line) as [p|] eqn:E; [|exact IH]. pose (lo := fst p). pose (hi := match snd p with Some h => h | None => fst p end).
  assert (S : EmSays line lo hi) by (apply em_read; eauto).
  change (em_pick (p :: filter_map read_em ms)) with (if negb (hi <? 255) then (lo, hi) :: em_pick (filter_map read_em ms) else em_pick (filter_map read_em ms)).
  destruct (negb _); [|exact IH]. assert (P0 : 0 <= lo <= hi) by (apply (P line); [left; reflexivity|exact S]).
  cbn [Sorted]. split; [lia|]. split; [|exact IH]. destruct (em_pick (filter_map read_em ms)) as [|[a b] rest] eqn:K; [exact Logic.I|].
  assert (I : In (a, b) (em_pick (filter_map read_em ms))) by (rewrite K; left; reflexivity). apply em_in in I. destruct I as (l' & I & S' & _).
  exact (U1 lo hi l' a b S I S').
Qed.

(** ** The whole file *)
Lemma scan_short text ls : ShortLines text -> Lines text ls -> forall fails, scan {| bText := text; bFails := fails |} = (ls, if fails then ScanRead else ScanOk).
Proof. intros HS HL fails. destruct (lines_scan text fails HS) as (ls' & _ & E & U). rewrite (U ls HL). exact E. Qed.
Lemma marker_exists ms : (exists l, In l ms /\ Mentions (lit "Extended_Pictographic ; No") l) <-> existsb (fun l => Contains l marker) ms = true.
Proof.
  rewrite existsb_exists. split; intros (l & I & M); exists l; (split; [exact I|]); apply contains_iff; exact M.
Qed.
Lemma emoji_short em ms early fe : ShortLines em -> Lines em ms -> (fe = true -> early = false /\ exists l, In l ms /\ Mentions (lit "Extended_Pictographic ; No") l) ->
  emoji_text early {| bText := em; bFails := fe |} = (generate (lit "emoji") (emoji_table (filter_map read_em (after_marker ms))), false).
Proof.
  intros HS HL HF. unfold emoji_text. rewrite (scan_short _ _ HS HL). destruct fe; [|reflexivity]. destruct (HF eq_refl) as [-> M]. apply marker_exists in M. rewrite M. reflexivity.
Qed.
Section Whole.
Variables (ea em : str) (ls ms marked : list str) (early fa fe : bool).
Hypothesis HSa : ShortLines ea.
Hypothesis HLa : Lines ea ls.
Hypothesis HSe : ShortLines em.
Hypothesis HLe : Lines em ms.
Hypothesis HM : Marked ms marked.
Hypothesis HF : fe = true -> early = false /\ exists l, In l ms /\ Mentions (lit "Extended_Pictographic ; No") l.
Hypothesis HPa : ProperLines EaRange ls.
Hypothesis HPe : ProperLines EmSays marked.
Lemma whole_script : exists cmb dbl amb nar neu emo,
  Declares (script_text early {| bText := ea; bFails := fa |} {| bText := em; bFails := fe |})
    [(lit "packagerunewidthvarcombining=table", cmb); (lit "vardoublewidth=table", dbl); (lit "varambiguous=table", amb);
     (lit "varnarrow=table", nar); (lit "varneutral=table", neu); (lit "varemoji=table", emo)]
  /\ (forall r, Member r dbl <-> exists line lo hi c, In line ls /\ EaSays line lo hi c /\ (c = W \/ c = F) /\ lo <= r <= hi)
  /\ (forall r, Member r amb <-> exists line lo hi, In line ls /\ EaSays line lo hi A /\ lo <= r <= hi)
  /\ (forall r, Member r nar <-> exists line lo hi, In line ls /\ EaSays line lo hi Na /\ lo <= r <= hi)
  /\ (forall r, Member r neu <-> exists line lo hi, In line ls /\ EaSays line lo hi N /\ lo <= r <= hi)
  /\ (forall r, Member r cmb <-> exists line lo hi c, In line ls /\ EaSays line lo hi c /\ Mentions (lit "COMBINING") line /\ lo <= r <= hi)
  /\ (forall r, Member r emo <-> exists line lo hi, In line marked /\ EmSays line lo hi /\ 255 <= hi /\ lo <= r <= hi)
  /\ (Up EaRange ls -> Forall (fun t => Compact t /\ (t <> [] -> forall r, inTable r t = true <-> Member r t)) [cmb; dbl; amb; nar; neu])
  /\ (Up EmSays marked -> Compact emo /\ (emo <> [] -> forall r, inTable r emo = true <-> Member r emo)).
Proof.
  apply marked_iff in HM. pose (t := eastasian (filter_map read_ea ls)). pose (e := emoji_table (filter_map read_em marked)).
  exists (eaCmb t), (eaDbl t), (eaAmb t), (eaNar t), (eaNeu t), e. split; [|split; [|split; [|split; [|split; [|split; [|split; [|split]]]]]]].
  - unfold script_text. rewrite (emoji_short _ _ _ _ HSe HLe HF). rewrite HM. cbn [fst]. unfold eastasian_text. rewrite (scan_short _ _ HSa HLa). cbn [fst]. cbv zeta. fold t e.
    pose proof (script_declares (eaCmb t) (eaDbl t) (eaAmb t) (eaNar t) (eaNeu t) e) as K. apply K. pose proof (ea_pos ls HPa) as F. cbv zeta in F. fold t in F.
    pose proof (em_pos marked HPe) as F'. fold e in F'. rewrite !Forall_cons_iff in *. tauto.
  - apply (ea_members ls HPa).
  - apply (ea_members ls HPa).
  - apply (ea_members ls HPa).
  - apply (ea_members ls HPa).
  - apply (ea_members ls HPa).
  - apply (em_members marked HPe).
  - intros U. apply (eastasian_lookup _ (recs_proper ls HPa) (ea_up ls U)).
  - intros U. assert (C : Compact e) by (unfold e; rewrite emoji_table_eq; apply shapeup_compact, em_sorted; assumption). split; [exact C|]. intros N r.
    apply inTable_spec; [exact N|apply Compact_Sorted, C].
Qed.
End Whole.

(** ** What goes unnoticed *)
Lemma cut_ea ea early em : ShortLines ea -> script_text early {| bText := ea; bFails := true |} em = script_text early {| bText := ea; bFails := false |} em.
Proof.
  intros HS. destruct (lines_scan ea true HS) as (ls & HL & _). unfold script_text, eastasian_text. rewrite !(scan_short _ _ HS HL). reflexivity.
Qed.
Lemma cut_em em ms ea : ShortLines em -> Lines em ms -> (exists l, In l ms /\ Mentions (lit "Extended_Pictographic ; No") l) ->
  script_text false ea {| bText := em; bFails := true |} = script_text false ea {| bText := em; bFails := false |}.
Proof.
  intros HS HL HM. unfold script_text. rewrite !(emoji_short em ms) by (try assumption; intros E; try discriminate E; auto). reflexivity.
Qed.
Lemma long_ea pre run post fails early em : ShortLines pre -> (pre = [] \/ exists p, pre = p ++ [x0a]) -> ~ In x0a run -> 65536 <= slen run ->
  script_text early {| bText := pre ++ run ++ post; bFails := fails |} em = script_text early {| bText := pre; bFails := false |} em.
Proof.
  intros HS HP HN HL. destruct (long_scan pre run post fails HS HP HN HL) as (ls & HLn & E). unfold script_text, eastasian_text. rewrite E, (scan_short _ _ HS HLn). reflexivity.
Qed.
(** No emoji table at all. *)
Lemma no_marker em ms early : ShortLines em -> Lines em ms -> Forall (fun l => ~ Mentions (lit "Extended_Pictographic ; No") l) ms ->
  emoji_text early {| bText := em; bFails := true |} = ([], true).
Proof.
  intros HS HL HN. unfold emoji_text. rewrite (scan_short _ _ HS HL). destruct (existsb (fun l => Contains l marker) ms) eqn:E; [|reflexivity].
  apply marker_exists in E. destruct E as (l & I & M). rewrite Forall_forall in HN. destruct (HN l I M).
Qed.
Lemma five_declares cmb dbl amb nar neu : Forall Pos [cmb; dbl; amb; nar; neu] ->
  Declares (lit "// Code generated by script/generate.go. DO NOT EDIT." ++ [x0a; x0a] ++ lit "package runewidth" ++ [x0a; x0a]
    ++ (generate (lit "combining") cmb ++ [x0a] ++ generate (lit "doublewidth") dbl ++ [x0a]
        ++ generate (lit "ambiguous") amb ++ generate (lit "narrow") nar ++ [x0a] ++ generate (lit "neutral") neu ++ [x0a])
    ++ []) (combine (firstn 5 script_heads) [cmb; dbl; amb; nar; neu]).
Proof.
  intros HF. exists (combine (firstn 5 script_heads) (map (map row2) [cmb; dbl; amb; nar; neu])). split; [|apply declares_rows; [reflexivity|exact HF]].
  assert (HP : forall t, In t [cmb; dbl; amb; nar; neu] -> Pos t) by (intros t Ht; rewrite Forall_forall in HF; apply HF, Ht).
  apply source_read.
  - unfold script_heads. cbn [map combine firstn].
    repeat (apply Forall_cons; [split; [discriminate|split; [cbn [fst]; rewrite in_existsb; vm_compute; discriminate|cbn [snd]; apply rows_ok, HP; cbn [In]; tauto]]|]). apply Forall_nil.
  - assert (E1 : lit "// Code generated by script/generate.go. DO NOT EDIT." = lit "//" ++ lit " Code generated by script/generate.go. DO NOT EDIT.") by reflexivity.
    rewrite E1, <- !app_assoc. change ([x0a; x0a] ++ ?q) with (x0a :: [x0a] ++ q) at 1.
    rewrite clean_comment by (rewrite in_existsb; vm_compute; discriminate).
    rewrite (clean_lit [x0a]) by reflexivity. rewrite (clean_lit (lit "package runewidth")) by reflexivity. rewrite (clean_lit [x0a; x0a]) by reflexivity.
    rewrite generate_text; [|apply lit_plain; reflexivity|apply HP; cbn [In]; tauto]. rewrite (clean_lit [x0a]) by reflexivity.
    rewrite generate_text; [|apply lit_plain; reflexivity|apply HP; cbn [In]; tauto]. rewrite (clean_lit [x0a]) by reflexivity.
    rewrite generate_text; [|apply lit_plain; reflexivity|apply HP; cbn [In]; tauto].
    rewrite generate_text; [|apply lit_plain; reflexivity|apply HP; cbn [In]; tauto]. rewrite (clean_lit [x0a]) by reflexivity.
    rewrite generate_text; [|apply lit_plain; reflexivity|apply HP; cbn [In]; tauto]. rewrite (clean_lit [x0a]) by reflexivity.
    unfold script_heads. cbn [map combine List.concat firstn]. unfold render_decl. cbn [fst snd]. rewrite <- !app_assoc. reflexivity.
Qed.
Lemma no_emoji ea ls em ms early fa : ShortLines ea -> Lines ea ls -> ProperLines EaRange ls -> ShortLines em -> Lines em ms ->
  Forall (fun l => ~ Mentions (lit "Extended_Pictographic ; No") l) ms ->
  exists cmb dbl amb nar neu, Declares (script_text early {| bText := ea; bFails := fa |} {| bText := em; bFails := true |})
    [(lit "packagerunewidthvarcombining=table", cmb); (lit "vardoublewidth=table", dbl); (lit "varambiguous=table", amb);
     (lit "varnarrow=table", nar); (lit "varneutral=table", neu)].
Proof.
  intros HSa HLa HPa HSe HLe HN. unfold script_text. rewrite (no_marker _ _ _ HSe HLe HN). cbn [fst]. unfold eastasian_text. rewrite (scan_short _ _ HSa HLa). cbn [fst]. cbv zeta.
  eexists _, _, _, _, _. refine (five_declares _ _ _ _ _ _). exact (ea_pos ls HPa).
Qed.
Lemma newer_line line s1 a s tail : Gap s1 -> Gap s -> s <> [] ->
  (forall v, Signed a v -> runes line = s1 ++ a ++ s ++ 59 :: tail -> forall lo hi c, ~ EaSays line lo hi c)
  /\ (forall s2 b u v, Signed a u -> Gap s2 -> Signed b v -> runes line = s1 ++ a ++ [46; 46] ++ s2 ++ b ++ s ++ 59 :: tail -> forall lo hi c, ~ EaSays line lo hi c).
Proof.
  intros G1 G N. split.
  - intros v S E. apply (gap_before_class line s1 a s tail v); assumption.
  - intros s2 b u v S1 G2 S2 E. apply (gap_before_class_range line s1 a s2 b s tail u v); assumption.
Qed.
Lemma script_line line :
  (forall lo hi c, EaSays line lo hi c <-> exists l, read_ea line = Some l /\ eaLo l = lo /\ match eaHi l with Some h => h | None => eaLo l end = hi /\ eaClass l = c)
  /\ (forall lo hi, EmSays line lo hi <-> exists p, read_em line = Some p /\ fst p = lo /\ match snd p with Some h => h | None => fst p end = hi)
  /\ (forall lo hi c lo' hi' c', EaSays line lo hi c -> EaSays line lo' hi' c' -> lo = lo' /\ hi = hi' /\ c = c')
  /\ forall lo hi lo' hi', EmSays line lo hi -> EmSays line lo' hi' -> lo = lo' /\ hi = hi'.
Proof.
  split; [intros; apply says_read|]. split; [intros; apply em_read|]. split; [intros *; apply says_fun|intros *; apply em_fun].
Qed.

(** ** Examples *)
Definition ea_example : str :=
  lit "# EastAsianWidth-13.0.0.txt" ++ nl ++ lit "0020;Na          # Zs         SPACE" ++ nl
  ++ lit "0300..036F;A     # Mn   [112] COMBINING GRAVE ACCENT..COMBINING LATIN SMALL LETTER X" ++ nl
  ++ lit "1100..115F;W     # Lo    [96] HANGUL CHOSEONG KIYEOK..HANGUL CHOSEONG FILLER" ++ nl
  ++ lit "1160..11FF;N     # Lo   [160] HANGUL JUNGSEONG FILLER..HANGUL JONGSEONG SSANGNIEUN" ++ nl
  ++ lit "FF01..FF03;F" ++ nl ++ lit "FF04;F" ++ nl.
Definition em_example : str :=
  lit "231A..231B    ; Emoji" ++ nl ++ lit "# All omitted code points have Emoji=No" ++ nl ++ lit "# Extended_Pictographic ; No" ++ nl
  ++ lit "0023          ; Emoji" ++ nl ++ lit "231A..231B    ; Extended_Pictographic# E0.6   [2] watch" ++ nl ++ lit "1F004         ; X" ++ nl.
Definition ea_span (line : str) : option (Z * Z) := match read_ea line with Some l => Some (eaLo l, ea_end l) | None => None end.
Definition em_span (line : str) : option (Z * Z) := match read_em line with Some p => Some (fst p, match snd p with Some h => h | None => fst p end) | None => None end.
Lemma ea_spans line lo hi : EaRange line lo hi -> ea_span line = Some (lo, hi).
Proof. intros [c S]. apply says_read in S. destruct S as (l & E & <- & <- & _). unfold ea_span. rewrite E. reflexivity. Qed.
Lemma em_spans line lo hi : EmSays line lo hi -> em_span line = Some (lo, hi).
Proof. intros S. apply em_read in S. destruct S as (p & E & <- & <-). unfold em_span. rewrite E. reflexivity. Qed.
Definition proper_b (f : str -> option (Z * Z)) (ls : list str) : bool := forallb (fun line => match f line with Some (lo, hi) => (0 <=? lo) && (lo <=? hi) | None => true end) ls.
Fixpoint up_b (f : str -> option (Z * Z)) (ls : list str) : bool :=
  match ls with
  | [] => true
  | x :: rest => forallb (fun y => match f x, f y with Some (_, hi), Some (lo', _) => hi <? lo' | _, _ => true end) rest && up_b f rest
  end.
Lemma proper_ok f (says : str -> Z -> Z -> Prop) ls : (forall line lo hi, says line lo hi -> f line = Some (lo, hi)) -> proper_b f ls = true -> ProperLines says ls.
Proof. intros K H line lo hi I S. apply K in S. unfold proper_b in H. rewrite forallb_forall in H. specialize (H line I). rewrite S in H. lia. Qed.
Lemma up_ok f (says : str -> Z -> Z -> Prop) ls : (forall line lo hi, says line lo hi -> f line = Some (lo, hi)) -> up_b f ls = true -> Up says ls.
Proof.
  intros K. induction ls as [|x ls IH]; [intros _; exact Logic.I|]. cbn [up_b]. intros H. apply andb_prop in H. destruct H as [H1 H2]. split; [|apply IH, H2].
  intros lo hi y lo' hi' Sx I Sy. apply K in Sx, Sy. rewrite forallb_forall in H1. specialize (H1 y I). rewrite Sx, Sy in H1. lia.
Qed.
Lemma short_example text ls : fst (scan {| bText := text; bFails := false |}) = ls -> snd (scan {| bText := text; bFails := false |}) = ScanOk -> ShortLines text /\ Lines text ls.
Proof.
  intros E K. assert (S : ShortLines text).
  { destruct (scan {| bText := text; bFails := false |}) as [l e] eqn:Q. cbn [fst snd] in *. subst. exact (proj2 (scan_complete false text [] _ Q)). }
  split; [exact S|]. destruct (lines_scan text false S) as (ml & L & E' & _). rewrite E' in E. cbn [fst] in E. subst. exact L.
Qed.
Lemma script_example : exists ls ms marked, ShortLines ea_example /\ Lines ea_example ls /\ ShortLines em_example /\ Lines em_example ms /\ Marked ms marked
  /\ ProperLines EaRange ls /\ ProperLines EmSays marked /\ Up EaRange ls /\ Up EmSays marked /\ List.length ls = 7%nat /\ List.length marked = 3%nat.
Proof.
  exists (fst (scan {| bText := ea_example; bFails := false |})), (fst (scan {| bText := em_example; bFails := false |})),
    (after_marker (fst (scan {| bText := em_example; bFails := false |}))).
  destruct (short_example ea_example _ eq_refl eq_refl) as [S1 L1]. destruct (short_example em_example _ eq_refl eq_refl) as [S2 L2].
  split; [exact S1|]. split; [exact L1|]. split; [exact S2|]. split; [exact L2|]. split; [apply marked_iff; reflexivity|].
  split; [apply (proper_ok ea_span _ _ ea_spans); vm_compute; reflexivity|]. split; [apply (proper_ok em_span _ _ em_spans); vm_compute; reflexivity|].
  split; [apply (up_ok ea_span _ _ ea_spans); vm_compute; reflexivity|]. split; [apply (up_ok em_span _ _ em_spans); vm_compute; reflexivity|].
  split; vm_compute; reflexivity.
Qed.
Lemma script_output : script_text false {| bText := ea_example; bFails := false |} {| bText := em_example; bFails := false |} =
  lit "// Code generated by script/generate.go. DO NOT EDIT." ++ nl ++ nl ++ lit "package runewidth" ++ nl ++ nl
  ++ lit "var combining = table{" ++ nl ++ [x09] ++ lit "{0x0300, 0x036F}," ++ nl ++ lit "}" ++ nl ++ nl
  ++ lit "var doublewidth = table{" ++ nl ++ [x09] ++ lit "{0x1100, 0x115F}, {0xFF01, 0xFF04}," ++ nl ++ lit "}" ++ nl ++ nl
  ++ lit "var ambiguous = table{" ++ nl ++ [x09] ++ lit "{0x0300, 0x036F}," ++ nl ++ lit "}" ++ nl
  ++ lit "var narrow = table{" ++ nl ++ [x09] ++ lit "{0x0020, 0x0020}," ++ nl ++ lit "}" ++ nl ++ nl
  ++ lit "var neutral = table{" ++ nl ++ [x09] ++ lit "{0x1160, 0x11FF}," ++ nl ++ lit "}" ++ nl ++ nl
  ++ lit "var emoji = table{" ++ nl ++ [x09] ++ lit "{0x231A, 0x231B}, {0x1F004, 0x1F004}," ++ nl ++ lit "}" ++ nl.
Proof. vm_compute. reflexivity. Qed.
(** Ranges the wrong way round lose members of other lines. *)
Lemma backward_refuted : exists ea ls line dbl rest, ShortLines ea /\ Lines ea ls /\ In line ls /\ EaSays line 0x20 0x2F W
  /\ Declares (script_text false {| bText := ea; bFails := false |} {| bText := []; bFails := false |}) ((lit "packagerunewidthvarcombining=table", []) :: (lit "vardoublewidth=table", dbl) :: rest)
  /\ ~ Member 0x28 dbl.
Proof.
  exists (lit "0020..002F;W" ++ nl ++ lit "0030..0010;W"), [lit "0020..002F;W"; lit "0030..0010;W"], (lit "0020..002F;W"), [(0x20, 0x10)],
    [(lit "varambiguous=table", []); (lit "varnarrow=table", []); (lit "varneutral=table", []); (lit "varemoji=table", [])].
  destruct (short_example (lit "0020..002F;W" ++ nl ++ lit "0030..0010;W") [lit "0020..002F;W"; lit "0030..0010;W"] eq_refl eq_refl) as [S L].
  split; [exact S|]. split; [exact L|]. split; [left; reflexivity|]. split.
  - apply says_read. exists {| eaLo := 0x20; eaHi := Some 0x2F; eaClass := W; eaCombining := false |}. split; [vm_compute; reflexivity|auto].
  - split.
    + exists [(lit "packagerunewidthvarcombining=table", []); (lit "vardoublewidth=table", [[lit "0x0020"; lit "0x0010"]]); (lit "varambiguous=table", []); (lit "varnarrow=table", []); (lit "varneutral=table", []); (lit "varemoji=table", [])].
      split; [vm_compute; reflexivity|]. repeat (constructor; [split; reflexivity|]). constructor.
    + intros (x & y & [E|[]] & R). injection E as <- <-. lia.
Qed.
