(** * GenScript: the tables of script/generate.go. *)
From Coq Require Import Strings.String.
From Verif Require Import GoBase IntervalSpec Utf8 Utf8Proofs Locale LocaleProofs Generate GenerateSpec GenerateProofs.
From Verif Require Import GenText GenTextSpec GenScan GenPattern GenRead GenSource GenScriptSpec GenFormat.
From Coq Require Import ZifyBool ZifyNat.
Local Open Scope Z_scope.

(** ** Words *)
Lemma encode_all_ascii s : Forall (fun b => bv b < 0x80) s -> forall w, encode_all w = s -> w = map bv s.
Proof.
  induction 1 as [|b s Hb F IH]; intros [|r w] E.
  - reflexivity.
  - exfalso. unfold encode_all in E. cbn [map List.concat] in E. apply app_eq_nil in E. destruct E as [E _].
    destruct (encode_cases r) as [(_ & K & _)|(_ & K & _)]; congruence.
  - discriminate.
  - unfold encode_all in E. cbn [map List.concat] in E. destruct (encode_cases r) as [(_ & K & Kb)|(_ & K & KF)].
    + rewrite K in E. cbn [app] in E. injection E as <- E. cbn [map]. f_equal; [symmetry; exact Kb|apply IH, E].
    + exfalso. destruct KF as [|x l Hx _]; [congruence|]. injection E as -> _. lia.
Qed.
Lemma class_iff w c : class_of (encode_all w) = c <-> ClassWord w c.
Proof.
  assert (K : forall s, Forall (fun b => bv b < 0x80) s -> str_eqb (encode_all w) s = true -> w = map bv s).
  { intros s F H. unfold str_eqb in H. destruct (str_eq_dec (encode_all w) s) as [E|]; [|discriminate]. apply encode_all_ascii; assumption. }
  assert (B : forall s, forallb (fun b => bv b <? 0x80) s = true -> Forall (fun b => bv b < 0x80) s).
  { intros s H. rewrite forallb_forall in H. apply Forall_forall. intros b Hb. specialize (H b Hb). lia. }
  split.
  - intros <-. unfold class_of.
    destruct (str_eqb (encode_all w) (lit "W")) eqn:E1; [rewrite (K (lit "W") (B (lit "W") eq_refl) E1); constructor|].
    destruct (str_eqb (encode_all w) (lit "F")) eqn:E2; [rewrite (K (lit "F") (B (lit "F") eq_refl) E2); constructor|].
    destruct (str_eqb (encode_all w) (lit "A")) eqn:E3; [rewrite (K (lit "A") (B (lit "A") eq_refl) E3); constructor|].
    destruct (str_eqb (encode_all w) (lit "Na")) eqn:E4; [rewrite (K (lit "Na") (B (lit "Na") eq_refl) E4); constructor|].
    destruct (str_eqb (encode_all w) (lit "N")) eqn:E5; [rewrite (K (lit "N") (B (lit "N") eq_refl) E5); constructor|].
    constructor. intros H. cbn [In] in H. repeat (destruct H as [<-|H]; [discriminate|]). destruct H.
  - intros [| | | | |v H]; try reflexivity. unfold class_of.
    assert (N : forall s, Forall (fun b => bv b < 0x80) s -> In (map bv s) [[87]; [70]; [65]; [78; 97]; [78]] -> str_eqb (encode_all v) s = false).
    { intros s F Hs. destruct (str_eqb (encode_all v) s) eqn:E; [|reflexivity]. unfold str_eqb in E. destruct (str_eq_dec (encode_all v) s) as [E'|]; [|discriminate].
      apply encode_all_ascii in E'; [|exact F]. subst v. contradiction. }
    rewrite !N; [reflexivity|..]; try (apply B; reflexivity); cbn; tauto.
Qed.

(** ** Lines *)
Lemma not_comment line : HasPrefix line (lit "#") = false <-> forall d, line <> x23 :: d.
Proof.
  split.
  - intros H d ->. rewrite (proj2 (hash_prefix (x23 :: d))) in H; [discriminate|eauto].
  - intros H. destruct (HasPrefix line (lit "#")) eqn:E; [|reflexivity]. apply hash_prefix in E. destruct E as [d E]. destruct (H d E).
Qed.
Lemma signed_uniq s1 a l1 s2 b l2 u v : s1 ++ a ++ l1 = s2 ++ b ++ l2 -> Gap s1 -> Signed a u -> NoHex l1 -> Gap s2 -> Signed b v -> NoHex l2 -> u = v /\ l1 = l2.
Proof.
  intros E G1 S1 N1 G2 S2 N2. assert (E1 : scan_hex (s1 ++ a ++ l1) = Some (u, l1)) by (apply scan_hex_iff; exists s1, a; auto).
  assert (E2 : scan_hex (s1 ++ a ++ l1) = Some (v, l2)) by (rewrite E; apply scan_hex_iff; exists s2, b; auto).
  rewrite E1 in E2. injection E2. auto.
Qed.
Lemma range_not_one l lo hi w lo' w' : RangeClass l lo hi w -> ~ OneClass l lo' w'.
Proof.
  intros (s1 & a & s2 & b & s3 & t & -> & G1 & S1 & _) (s1' & a' & s3' & t' & E & G1' & S1' & _).
  apply signed_uniq with (u := lo) (v := lo') in E; try assumption; try reflexivity. destruct E as [_ E]. discriminate.
Qed.
Lemma range_not_one_only l lo hi lo' : RangeOnly l lo hi -> ~ OneOnly l lo'.
Proof.
  intros (s1 & a & s2 & b & t & -> & G1 & S1 & _) (s1' & a' & t' & E & G1' & S1' & HE).
  apply signed_uniq with (u := lo) (v := lo') in E; try assumption; try reflexivity; [|apply ends_nohex, HE]. destruct E as [_ E].
  destruct HE as [->|(r & rest & -> & Hr)]; [discriminate|]. injection E as <- _. revert Hr. cbn [gaps In]. lia.
Qed.
Lemma read_ea_iff line l : read_ea line = Some l <->
  (forall d, line <> x23 :: d) /\ (eaCombining l = true <-> Mentions (lit "COMBINING") line)
  /\ exists w, ClassWord w (eaClass l) /\ match eaHi l with
       | Some hi => RangeClass (runes line) (eaLo l) hi w
       | None => OneClass (runes line) (eaLo l) w
       end.
Proof.
  unfold read_ea. split.
  - destruct (HasPrefix line (lit "#")) eqn:EP; [discriminate|]. pose proof (proj1 (not_comment line) EP) as EP'. clear EP. rename EP' into EP. cbv zeta. intros H.
    destruct (sscanf fmtRangeClass (runes line)) as [x|] eqn:E1.
    + apply range_class in E1. destruct E1 as (lo & hi & w & -> & HR). injection H as <-. cbn [eaCombining eaClass eaHi eaLo].
      split; [exact EP|]. split; [apply contains_iff|]. exists w. split; [apply class_iff; reflexivity|exact HR].
    + destruct (sscanf fmtOneClass (runes line)) as [x|] eqn:E2; [|discriminate]. apply one_class in E2. destruct E2 as (lo & w & -> & HR). injection H as <-.
      cbn [eaCombining eaClass eaHi eaLo]. split; [exact EP|]. split; [apply contains_iff|]. exists w. split; [apply class_iff; reflexivity|exact HR].
  - intros (HP & HC & w & HW & HR). rewrite (proj2 (not_comment line) HP). cbv zeta. destruct l as [lo hi c cmb]. cbn [eaCombining eaClass eaHi eaLo] in *.
    assert (EC : Contains line (lit "COMBINING") = cmb).
    { destruct (Contains line (lit "COMBINING")) eqn:E; [apply contains_iff in E; apply HC in E; congruence|].
      destruct cmb; [|reflexivity]. rewrite (proj2 (contains_iff _ _)) in E; [discriminate|apply HC; reflexivity]. }
    rewrite EC. apply class_iff in HW. destruct hi as [hi|].
    + rewrite (proj2 (range_class (runes line) _)) by (exists lo, hi, w; split; [reflexivity|exact HR]). cbv iota beta. rewrite HW. reflexivity.
    + destruct (sscanf fmtRangeClass (runes line)) as [x|] eqn:E1.
      * apply range_class in E1. destruct E1 as (lo' & hi' & w' & -> & HR'). destruct (range_not_one _ _ _ _ _ _ HR' HR).
      * rewrite (proj2 (one_class (runes line) _)) by (exists lo, w; split; [reflexivity|exact HR]). cbv iota beta. rewrite HW. reflexivity.
Qed.
Lemma read_em_iff line p : read_em line = Some p <->
  (forall d, line <> x23 :: d) /\ match snd p with Some hi => RangeOnly (runes line) (fst p) hi | None => OneOnly (runes line) (fst p) end.
Proof.
  unfold read_em. split.
  - destruct (HasPrefix line (lit "#")) eqn:EP; [discriminate|]. pose proof (proj1 (not_comment line) EP) as EP'. clear EP. rename EP' into EP. intros H.
    destruct (sscanf fmtRange (runes line)) as [x|] eqn:E1.
    + apply range_only in E1. destruct E1 as (lo & hi & -> & HR). injection H as <-. auto.
    + destruct (sscanf fmtOne (runes line)) as [x|] eqn:E2; [|discriminate]. apply one_only in E2. destruct E2 as (lo & -> & HR). injection H as <-. auto.
  - intros (HP & HR). rewrite (proj2 (not_comment line) HP). destruct p as [lo hi]. cbn [fst snd] in *. destruct hi as [hi|].
    + rewrite (proj2 (range_only (runes line) _)) by (exists lo, hi; split; [reflexivity|exact HR]). reflexivity.
    + destruct (sscanf fmtRange (runes line)) as [x|] eqn:E1.
      * apply range_only in E1. destruct E1 as (lo' & hi' & -> & HR'). destruct (range_not_one_only _ _ _ _ HR' HR).
      * rewrite (proj2 (one_only (runes line) _)) by (exists lo; split; [reflexivity|exact HR]). reflexivity.
Qed.
(** What a line says. *)
Definition ea_end (l : ea_line) : Z := match eaHi l with Some h => h | None => eaLo l end.
Lemma says_read line lo hi c : EaSays line lo hi c <-> exists l, read_ea line = Some l /\ eaLo l = lo /\ ea_end l = hi /\ eaClass l = c.
Proof.
  assert (HB : exists cmb, cmb = true <-> Mentions (lit "COMBINING") line) by (exists (Contains line (lit "COMBINING")); apply contains_iff).
  destruct HB as [cmb HB]. split.
  - intros [w HP HR HW|w HP HR -> HW].
    + exists {| eaLo := lo; eaHi := Some hi; eaClass := c; eaCombining := cmb |}. split; [|auto]. apply read_ea_iff. cbn. eauto.
    + exists {| eaLo := lo; eaHi := None; eaClass := c; eaCombining := cmb |}. split; [|auto]. apply read_ea_iff. cbn. eauto.
  - intros (l & E & <- & <- & <-). apply read_ea_iff in E. destruct E as (HP & _ & w & HW & HR). unfold ea_end. destruct (eaHi l) as [h|].
    + exact (says_range _ _ _ _ w HP HR HW).
    + exact (says_one _ _ _ _ w HP HR eq_refl HW).
Qed.
Lemma em_read line lo hi : EmSays line lo hi <-> exists p, read_em line = Some p /\ fst p = lo /\ match snd p with Some h => h | None => fst p end = hi.
Proof.
  split.
  - intros [HP HR|HP HR ->].
    + exists (lo, Some hi). split; [|auto]. apply read_em_iff. auto.
    + exists (lo, None). split; [|auto]. apply read_em_iff. auto.
  - intros ([a b] & E & <- & <-). apply read_em_iff in E. cbn [fst snd] in *. destruct E as (HP & HR). destruct b as [h|].
    + exact (em_range _ _ _ HP HR).
    + exact (em_one _ _ _ HP HR eq_refl).
Qed.
Lemma filter_map_in {A B} (f : A -> option B) l b : In b (filter_map f l) <-> exists a, In a l /\ f a = Some b.
Proof.
  induction l as [|a l IH]; cbn [filter_map]; [split; [intros []|intros (a & [] & _)]|].
  destruct (f a) as [b'|] eqn:E; cbn [In]; rewrite IH; split.
  - intros [<-|(a' & Ha & E')]; [exists a; auto|exists a'; auto].
  - intros (a' & [<-|Ha] & E'); [left; congruence|right; eauto].
  - intros (a' & Ha & E'). exists a'. auto.
  - intros (a' & [<-|Ha] & E'); [congruence|eauto].
Qed.
Lemma says_fun line lo hi c lo' hi' c' : EaSays line lo hi c -> EaSays line lo' hi' c' -> lo = lo' /\ hi = hi' /\ c = c'.
Proof. rewrite !says_read. intros (l & E & <- & <- & <-) (l' & E' & <- & <- & <-). rewrite E in E'. injection E' as <-. auto. Qed.
Lemma em_fun line lo hi lo' hi' : EmSays line lo hi -> EmSays line lo' hi' -> lo = lo' /\ hi = hi'.
Proof. rewrite !em_read. intros (l & E & <- & <-) (l' & E' & <- & <-). rewrite E in E'. injection E' as <-. auto. Qed.
(** A gap before the semicolon, as in later versions of the file. *)
Lemma gap_before_class line s1 a s tail v : runes line = s1 ++ a ++ s ++ 59 :: tail -> Gap s1 -> Signed a v -> Gap s -> s <> [] ->
  forall lo hi c, ~ EaSays line lo hi c.
Proof.
  intros E G1 S1 Gs N lo hi c. assert (HN : NoHex (s ++ 59 :: tail)).
  { destruct Gs as [|r s Hr Gs]; [congruence|]. cbn [app NoHex]. destruct (is_hex r) eqn:EH; [|reflexivity]. apply hex_gap in EH. tauto. }
  assert (HD : forall r l, s ++ 59 :: tail = r :: l -> In r gaps) by (intros r l K; destruct Gs as [|x s Hx Gs]; [congruence|]; injection K as <- _; exact Hx).
  intros [w _ (t1 & b & t2 & b' & t3 & t & E' & H1 & H2 & _) _|w _ (t1 & b & t3 & t & E' & H1 & H2 & _) _ _]; rewrite E in E';
    apply signed_uniq with (u := v) (v := lo) in E'; try assumption; try reflexivity; destruct E' as [_ E']; apply HD in E'; revert E'; cbn [gaps In]; lia.
Qed.
Lemma gap_before_class_range line s1 a s2 b s tail u v : runes line = s1 ++ a ++ [46; 46] ++ s2 ++ b ++ s ++ 59 :: tail -> Gap s1 -> Signed a u ->
  Gap s2 -> Signed b v -> Gap s -> s <> [] -> forall lo hi c, ~ EaSays line lo hi c.
Proof.
  intros E G1 S1 G2 S2 Gs N lo hi c. assert (HN : NoHex (s ++ 59 :: tail)).
  { destruct Gs as [|r s Hr Gs]; [congruence|]. cbn [app NoHex]. destruct (is_hex r) eqn:EH; [|reflexivity]. apply hex_gap in EH. tauto. }
  assert (HD : forall r l, s ++ 59 :: tail = r :: l -> In r gaps) by (intros r l K; destruct Gs as [|x s Hx Gs]; [congruence|]; injection K as <- _; exact Hx).
  intros [w _ (t1 & b' & t2 & b'' & t3 & t & E' & H1 & H2 & H3 & H4 & _) _|w _ (t1 & b' & t3 & t & E' & H1 & H2 & _) _ _]; rewrite E in E'.
  - apply signed_uniq with (u := u) (v := lo) in E'; try assumption; try reflexivity. destruct E' as [_ E']. apply app_inv_head in E'.
    apply signed_uniq with (u := v) (v := hi) in E'; try assumption; try reflexivity. destruct E' as [_ E']. apply HD in E'. revert E'. cbn [gaps In]. lia.
  - apply signed_uniq with (u := u) (v := lo) in E'; try assumption; try reflexivity. destruct E' as [_ E']. discriminate.
Qed.

(** ** Numbers *)
Lemma hex_char_ok d : 0 <= d < 16 -> position (hex_char d) (lit "0123456789ABCDEF") = Some d /\ In (hex_char d) (lit "0123456789ABCDEF").
Proof.
  intros H. assert (K : d = 0 \/ d = 1 \/ d = 2 \/ d = 3 \/ d = 4 \/ d = 5 \/ d = 6 \/ d = 7 \/ d = 8 \/ d = 9 \/ d = 10 \/ d = 11 \/ d = 12 \/ d = 13 \/ d = 14 \/ d = 15) by lia.
  repeat (destruct K as [->|K]; [split; [reflexivity|apply in_existsb; reflexivity]|]). subst d. split; [reflexivity|apply in_existsb; reflexivity].
Qed.
Lemma hex_loop_ok f : forall n acc, 0 <= n < 2 ^ Z.of_nat f -> (1 <= f)%nat ->
  exists ds, hex_loop f n acc = ds ++ acc /\ ds <> [] /\ Forall (fun b => In b (lit "0123456789ABCDEF")) ds /\ forall t, digits 0 (ds ++ t) = digits n t.
Proof.
  induction f as [|f IH]; intros n acc Hn Hf; [lia|]. cbn [hex_loop]. cbv zeta.
  assert (Hm : 0 <= n mod 16 < 16) by (apply Z.mod_pos_bound; lia). destruct (hex_char_ok _ Hm) as [HP HI].
  destruct (Z.ltb_spec n 16) as [L|L].
  - exists [hex_char (n mod 16)]. split; [reflexivity|]. split; [discriminate|]. split; [constructor; [exact HI|constructor]|].
    intros t. cbn [app digits]. rewrite HP. rewrite Z.mod_small by lia. f_equal; lia.
  - assert (Hf1 : (1 <= f)%nat) by (destruct f; [cbn in Hn; lia|lia]).
    assert (Hd : 0 <= n / 16 < 2 ^ Z.of_nat f).
    { split; [apply Z.div_pos; lia|]. apply Z.div_lt_upper_bound; [lia|]. rewrite Nat2Z.inj_succ, Z.pow_succ_r in Hn by lia. pose proof (Z.pow_nonneg 2 (Z.of_nat f)). lia. }
    destruct (IH (n / 16) (hex_char (n mod 16) :: acc) Hd Hf1) as (ds & E & N & F & V).
    exists (ds ++ [hex_char (n mod 16)]). split; [rewrite E, <- app_assoc; reflexivity|]. split; [destruct ds; discriminate|].
    split; [apply Forall_app; split; [exact F|constructor; [exact HI|constructor]]|]. intros t. rewrite <- app_assoc, V. cbn [app digits]. rewrite HP.
    f_equal. pose proof (Z.div_mod n 16). lia.
Qed.
Lemma hex_text_ok n : 0 <= n -> hex_text n <> [] /\ Forall (fun b => In b (lit "0123456789ABCDEF")) (hex_text n) /\ digits 0 (hex_text n) = Some n.
Proof.
  intros H. unfold hex_text. destruct (hex_loop_ok (S (Z.to_nat (Z.log2 n))) n []) as (ds & E & N & F & V).
  - split; [exact H|]. rewrite Nat2Z.inj_succ, Z2Nat.id by apply Z.log2_nonneg. destruct (Z.eq_dec n 0) as [->|]; [reflexivity|]. apply Z.log2_spec. lia.
  - lia.
  - rewrite E, app_nil_r. specialize (V []). rewrite app_nil_r in V. split; [exact N|]. split; [exact F|exact V].
Qed.
Lemma zeros_digits k s : digits 0 (repeat x30 k ++ s) = digits 0 s.
Proof. induction k as [|k IH]; [reflexivity|]. exact IH. Qed.
Lemma zeros_hex k : Forall (fun b => In b (lit "0123456789ABCDEF")) (repeat x30 k).
Proof. induction k as [|k IH]; [constructor|]. constructor; [apply in_existsb; reflexivity|exact IH]. Qed.
Lemma print_hex_ok n : 0 <= n -> number (lit "0x" ++ print_hex n) = Some n /\ Plain (lit "0x" ++ print_hex n) /\ (4 <= List.length (print_hex n))%nat.
Proof.
  intros H. unfold print_hex. destruct (Z.ltb_spec n 0); [lia|]. destruct (hex_text_ok n H) as (N & F & V). cbv zeta.
  set (d := hex_text n) in *. assert (V' : digits 0 (repeat x30 (4 - List.length d) ++ d) = Some n) by (rewrite zeros_digits; exact V).
  split; [|split].
  - destruct (repeat x30 (4 - List.length d) ++ d) as [|b l] eqn:E; [apply app_eq_nil in E; destruct E; congruence|]. exact V'.
  - apply plain_app. split; [apply lit_plain; reflexivity|]. apply hex_plain, Forall_app. split; [apply zeros_hex|exact F].
  - rewrite app_length, repeat_length. lia.
Qed.

(** ** Declarations *)
Definition row2 (e : Z * Z) : list str := [lit "0x" ++ print_hex (fst e); lit "0x" ++ print_hex (snd e)].
Definition Pos (t : list (Z * Z)) : Prop := Forall (fun e => 0 <= fst e /\ 0 <= snd e) t.
Lemma row2_plain e : 0 <= fst e /\ 0 <= snd e -> Forall Plain (row2 e).
Proof. intros [H1 H2]. constructor; [apply print_hex_ok, H1|]. constructor; [apply print_hex_ok, H2|constructor]. Qed.
Lemma row2_value e : 0 <= fst e /\ 0 <= snd e -> pair_value (row2 e) = Some e.
Proof.
  intros [H1 H2]. unfold pair_value, row2. destruct (print_hex_ok _ H1) as [-> _], (print_hex_ok _ H2) as [-> _]. destruct e; reflexivity.
Qed.
Lemma plain_lit a r : Plain a -> squeeze (strip false (a ++ r)) = a ++ squeeze (strip false r).
Proof. apply clean_plain. Qed.
Lemma loop_text arr : Pos arr -> forall i r, squeeze (strip false (generate_loop i arr ++ r)) = List.concat (map render_row (map row2 arr)) ++ squeeze (strip false r).
Proof.
  induction 1 as [|[lo hi] arr [H1 H2] F IH]; intros i r; [reflexivity|]. cbn [generate_loop fst snd] in *. cbn [map List.concat].
  destruct (print_hex_ok _ H1) as (_ & P1 & _), (print_hex_ok _ H2) as (_ & P2 & _).
  assert (E1 : lit "{0x" = lit "{" ++ lit "0x") by reflexivity. assert (E2 : lit ", 0x" = lit ", " ++ lit "0x") by reflexivity. rewrite E1, E2. rewrite <- !app_assoc.
  rewrite (clean_lit (lit "{")) by reflexivity. rewrite (app_assoc (lit "0x") (print_hex lo)), clean_plain by exact P1.
  rewrite (clean_lit (lit ", ")) by reflexivity. rewrite (app_assoc (lit "0x") (print_hex hi)), clean_plain by exact P2.
  rewrite (clean_lit (lit "},")) by reflexivity.
  assert (E3 : forall q, squeeze (strip false ((match arr with [] => [] | _ => if Nat.eqb (i mod 3) 2 then [x0a; x09] else lit " " end) ++ q)) = squeeze (strip false q)).
  { intros q. destruct arr; [reflexivity|]. destruct (Nat.eqb (i mod 3) 2); rewrite clean_lit by reflexivity; reflexivity. }
  rewrite E3, IH. unfold render_row at 2, row2 at 2. cbn [join fst snd]. rewrite <- !app_assoc. reflexivity.
Qed.
Lemma generate_text v arr r : Plain v -> Pos arr ->
  squeeze (strip false (generate v arr ++ r)) = render_decl (lit "var" ++ v ++ lit "=table", map row2 arr) ++ squeeze (strip false r).
Proof.
  intros Hv Ha. unfold generate. rewrite <- !app_assoc. rewrite (clean_lit (lit "var ")) by reflexivity. rewrite clean_plain by exact Hv.
  rewrite (clean_lit (lit " = table{")) by reflexivity. rewrite (clean_lit [x0a; x09]) by reflexivity. rewrite loop_text by exact Ha.
  rewrite (clean_lit [x0a]) by reflexivity. rewrite (clean_lit (lit "}")) by reflexivity. rewrite (clean_lit [x0a]) by reflexivity.
  unfold render_decl. cbn [fst snd]. rewrite <- !app_assoc. reflexivity.
Qed.
Definition script_heads : list str :=
  [lit "packagerunewidthvarcombining=table"; lit "vardoublewidth=table"; lit "varambiguous=table"; lit "varnarrow=table"; lit "varneutral=table"; lit "varemoji=table"].
Lemma declares_rows heads ts : List.length heads = List.length ts -> Forall Pos ts ->
  Forall2 (fun (g : str * list (list str)) (d : str * list (Z * Z)) => fst g = fst d /\ map pair_value (snd g) = map Some (snd d)) (combine heads (map (map row2) ts)) (combine heads ts).
Proof.
  intros HL F. revert heads HL. induction F as [|t ts Ht F IH]; intros [|h heads] HL; try discriminate; [constructor|]. cbn [combine map]. constructor.
  - cbn [fst snd]. split; [reflexivity|]. rewrite map_map. apply map_ext_in. intros e He. unfold Pos in Ht. rewrite Forall_forall in Ht. apply row2_value, Ht, He.
  - apply IH. cbn in HL. lia.
Qed.
Lemma rows_ok t : Pos t -> Forall Row (map row2 t).
Proof. intros H. apply Forall_map. revert H. apply Forall_impl. intros e He. apply plain_row; [discriminate|apply row2_plain, He]. Qed.
Lemma script_declares cmb dbl amb nar neu emo : Forall Pos [cmb; dbl; amb; nar; neu; emo] ->
  Declares (lit "// Code generated by script/generate.go. DO NOT EDIT." ++ [x0a; x0a] ++ lit "package runewidth" ++ [x0a; x0a]
    ++ (generate (lit "combining") cmb ++ [x0a] ++ generate (lit "doublewidth") dbl ++ [x0a]
        ++ generate (lit "ambiguous") amb ++ generate (lit "narrow") nar ++ [x0a] ++ generate (lit "neutral") neu ++ [x0a])
    ++ generate (lit "emoji") emo)
    (combine script_heads [cmb; dbl; amb; nar; neu; emo]).
Proof.
  intros HF. exists (combine script_heads (map (map row2) [cmb; dbl; amb; nar; neu; emo])). split; [|apply declares_rows; [reflexivity|exact HF]].
  assert (HP : forall t, In t [cmb; dbl; amb; nar; neu; emo] -> Pos t) by (intros t Ht; rewrite Forall_forall in HF; apply HF, Ht).
  apply source_read.
  - unfold script_heads. cbn [map combine].
    repeat (apply Forall_cons; [split; [discriminate|split; [cbn [fst]; rewrite in_existsb; vm_compute; discriminate|cbn [snd]; apply rows_ok, HP; cbn [In]; tauto]]|]). apply Forall_nil.
  - assert (E1 : lit "// Code generated by script/generate.go. DO NOT EDIT." = lit "//" ++ lit " Code generated by script/generate.go. DO NOT EDIT.") by reflexivity.
    rewrite E1, <- !app_assoc. change ([x0a; x0a] ++ ?q) with (x0a :: [x0a] ++ q) at 1.
    rewrite clean_comment by (rewrite in_existsb; vm_compute; discriminate).
    rewrite (clean_lit [x0a]) by reflexivity. rewrite (clean_lit (lit "package runewidth")) by reflexivity. rewrite (clean_lit [x0a; x0a]) by reflexivity.
    rewrite generate_text; [|apply lit_plain; reflexivity|apply HP; cbn [In]; tauto]. rewrite (clean_lit [x0a]) by reflexivity.
    rewrite generate_text; [|apply lit_plain; reflexivity|apply HP; cbn [In]; tauto]. rewrite (clean_lit [x0a]) by reflexivity.
    rewrite generate_text; [|apply lit_plain; reflexivity|apply HP; cbn [In]; tauto].
    rewrite generate_text; [|apply lit_plain; reflexivity|apply HP; cbn [In]; tauto]. rewrite (clean_lit [x0a]) by reflexivity.
    rewrite generate_text; [|apply lit_plain; reflexivity|apply HP; cbn [In]; tauto]. rewrite (clean_lit [x0a]) by reflexivity.
    rewrite <- (app_nil_r (generate (lit "emoji") emo)). rewrite generate_text; [|apply lit_plain; reflexivity|apply HP; cbn [In]; tauto].
    unfold script_heads. cbn [map combine List.concat]. unfold render_decl. cbn [fst snd]. rewrite <- !app_assoc. reflexivity.
Qed.
