(** * GenLookup: from property files to lookups. *)
From Coq Require Import Strings.String Permutation.
From Verif Require Import GoBase Uniseg Generate GenerateSpec GenerateProofs GenText GenTextSpec GenPattern GenRead GenSource.
From Coq Require Import ZifyBool ZifyNat.
Local Open Scope Z_scope.

(** ** Numbers *)
Lemma position_hex b d : position b (lit "0123456789ABCDEF") = Some d -> hexdigit (bv b) = d.
Proof. destruct b; vm_compute; congruence. Qed.
Lemma position_some b : In b (lit "0123456789ABCDEF") -> exists d, position b (lit "0123456789ABCDEF") = Some d.
Proof. rewrite in_existsb. destruct b; try (intros K; discriminate K); intros _; eexists; reflexivity. Qed.
Lemma digits_hex s : Forall (fun b => In b (lit "0123456789ABCDEF")) s -> forall v, digits v s = Some (fold_left (fun v r => v * 16 + hexdigit r) (map bv s) v).
Proof.
  induction 1 as [|b s Hb F IH]; intros v; [reflexivity|]. cbn [digits map fold_left]. destruct (position_some b Hb) as [d E]. rewrite E.
  apply position_hex in E. rewrite IH, E. do 2 f_equal. lia.
Qed.
Lemma hex_number s : HexField s -> number (lit "0x" ++ s) = Some (hexval (map bv s)).
Proof.
  intros [L F]. pose proof (digits_hex s F 0) as D. destruct s as [|b s]; [cbn in L; lia|]. exact D.
Qed.

(** ** Sorting *)
Definition key (e : entry) : Z := sort_key (prop_of e).
Lemma key_number from to_ name comment : HexField from -> number (lit "0x" ++ from) = Some (key (Entry from to_ name comment)).
Proof. exact (hex_number from). Qed.
Lemma ordered_entries es : Forall GoodEntry es -> Ordered (map prop_of es) -> InOrder es.
Proof.
  induction 1 as [|e es HG HF IH]; intros HO; [exact I|]. destruct es as [|e' es]; [destruct e; exact I|].
  destruct e as [from to_ name comment], e' as [from' to_' name' comment']. inversion HO as [| |p q rest K HO']; subst.
  inversion HF as [|? ? HG' _]; subst. destruct HG as (Hf & _), HG' as (Hf' & _). cbn [InOrder]. split; [|apply IH, HO'].
  intros a b. rewrite (hex_number from Hf), (hex_number from' Hf'). intros [= <-] [= <-]. exact K.
Qed.
Fixpoint insert (p : prop4) (l : list prop4) : list prop4 :=
  match l with
  | [] => [p]
  | q :: rest => if sort_key p <=? sort_key q then p :: l else q :: insert p rest
  end.
Lemma insert_perm p l : Permutation (p :: l) (insert p l).
Proof. induction l as [|q l IH]; [reflexivity|]. cbn [insert]. destruct (sort_key p <=? sort_key q); [reflexivity|]. rewrite perm_swap, IH. reflexivity. Qed.
Lemma insert_ordered p l : Ordered l -> Ordered (insert p l).
Proof.
  induction 1 as [|q|q r rest K HO IH]; cbn [insert] in *.
  - constructor.
  - destruct (Z.leb_spec (sort_key p) (sort_key q)); constructor; try lia; constructor.
  - destruct (Z.leb_spec (sort_key p) (sort_key q)); [constructor; [assumption|constructor; assumption]|].
    destruct (Z.leb_spec (sort_key p) (sort_key r)); constructor; try lia; exact IH.
Qed.
Lemma sort_exists l : exists l', Permutation l l' /\ Ordered l'.
Proof.
  induction l as [|p l (l' & HP & HO)]; [exists []; split; constructor|]. exists (insert p l'). split; [rewrite HP; apply insert_perm|apply insert_ordered, HO].
Qed.
Lemma parse_total main property emoji gencat name : exists out, Parse main property emoji gencat name out.
Proof.
  unfold Parse. destruct (read_properties main property emoji) as [ps|e|r]; [|eauto|eauto]. destruct (sort_exists ps) as (qs & HP & HO). exists (print_table name gencat qs), qs. auto.
Qed.

(** ** The source *)
Section Texts.
  Variables (m e : str) (ml el : list str).
  Hypotheses (Sm : ShortLines m) (Lm : Lines m ml) (Se : ShortLines e) (Le : Lines e el).
  Let main := Some (Some {| bText := m; bFails := false |}).
  Let emoji := Some {| bText := e; bFails := false |}.
  Variables (property name : str) (es fs : list entry).
  Hypotheses (HM : MainFile ml es) (HE : EmojiPart property el fs) (Hn : Plain name).
  Lemma all_good : Forall GoodEntry (es ++ fs).
  Proof using HM HE. apply Forall_app. split; [exact (main_good _ _ HM)|]. destruct HE as [[_ ->]|[_ H]]; [constructor|exact (emoji_good _ _ _ H)]. Qed.
  Lemma parse_out gencat out : Parse main property emoji gencat name out ->
    exists gs, Permutation (es ++ fs) gs /\ InOrder gs /\ Forall GoodEntry gs /\ Ordered (map prop_of gs) /\ out = print_table name gencat (map prop_of gs).
  Proof using Sm Lm Se Le HM HE.
    unfold Parse, main, emoji. rewrite (proj2 (both_ok m e ml el Sm Lm Se Le property (map prop_of (es ++ fs)))) by eauto.
    intros (qs & HP & HO & ->). symmetry in HP. apply Permutation_map_inv in HP. destruct HP as (gs & -> & HP).
    assert (HG : Forall GoodEntry gs) by (rewrite <- HP; exact all_good). exists gs. split; [exact HP|]. split; [apply ordered_entries; assumption|]. auto.
  Qed.
  Lemma source3 out : Parse main property emoji false name out ->
    exists gs src, Permutation (es ++ fs) gs /\ InOrder gs /\ out = Ok src /\ read_go src = Some [(table_head name (lit "3"), map row3 gs)].
  Proof using Sm Lm Se Le HM HE Hn.
    intros H. apply parse_out in H. destruct H as (gs & HP & HI & HG & _ & ->).
    destruct (table_text false name row3 gs Hn) as (src & E & ER).
    - revert HG. apply Forall_impl. intros g Hg. split; [apply prop_row, Hg|]. apply plain_row; [destruct g; discriminate|apply row3_plain, Hg].
    - exists gs, src. auto.
  Qed.
  Lemma source4 out : Forall Categorised (es ++ fs) -> Parse main property emoji true name out ->
    exists gs src, Permutation (es ++ fs) gs /\ InOrder gs /\ out = Ok src /\ read_go src = Some [(table_head name (lit "4"), map row4 gs)].
  Proof using Sm Lm Se Le HM HE Hn.
    intros HC H. apply parse_out in H. destruct H as (gs & HP & HI & HG & _ & ->). rewrite HP in HC.
    destruct (table_text true name row4 gs Hn) as (src & E & ER).
    - rewrite Forall_forall in *. intros g Hg. split; [apply prop_row4; auto|]. apply plain_row; [destruct g; discriminate|apply row4_plain; auto].
    - exists gs, src. auto.
  Qed.

  (** ** The table *)
  Variable num : str -> Z.
  Definition value (e : entry) : Z * Z * Z :=
    let 'Entry from _ _ _ := e in (hexval (map bv from), hexval (map bv (the_to e)), num (constant e)).
  Definition as_line (e : entry) : Z * option Z * Z := let '(a, b, c) := value e in (a, Some b, c).
  Lemma about_iff g r : GoodEntry g -> About g r <-> fst (fst (value g)) <= r <= snd (fst (value g)).
  Proof.
    destruct g as [from to_ nm cm]. intros (Hf & Ht & _). cbn [About value fst snd]. split.
    - intros (a & b & E1 & E2 & K). rewrite (hex_number _ Hf) in E1. rewrite (hex_number _ Ht) in E2. injection E1 as <-. injection E2 as <-. exact K.
    - intros K. exists (hexval (map bv from)), (hexval (map bv (the_to (Entry from to_ nm cm)))). rewrite (hex_number _ Hf), (hex_number _ Ht). auto.
  Qed.
  Lemma value_row g row : GoodEntry g -> (exists tl, row = row3 g ++ tl) -> row_value num row = Some (value g).
  Proof. destruct g as [from to_ nm cm]. intros (Hf & Ht & _) [tl ->]. cbn [row3 app row_value]. rewrite (hex_number _ Hf), (hex_number _ Ht). reflexivity. Qed.
  Lemma lookup_entries gs : Permutation (es ++ fs) gs -> Forall GoodEntry gs -> Ordered (map prop_of gs) ->
    (forall g, In g (es ++ fs) -> exists r, About g r) ->
    (forall pre x mid y post r, es ++ fs = pre ++ x :: mid ++ y :: post -> About x r -> ~ About y r) ->
    (forall g r, In g (es ++ fs) -> About g r -> Uniseg.property (map value gs) r = num (constant g))
    /\ forall r, (forall g, In g (es ++ fs) -> ~ About g r) -> Uniseg.property (map value gs) r = 0.
  Proof using Type.
    clear HM HE Hn. intros HP HG HO HN HD. assert (HG' : forall g, In g (es ++ fs) -> GoodEntry g) by (intros g Hg; rewrite Forall_forall in HG; apply HG, (Permutation_in _ HP Hg)).
    assert (HS : SortedEntries (map as_line (es ++ fs)) (map value gs)).
    { split.
      - rewrite map_map. rewrite <- (Permutation_map value HP). apply Permutation_refl'. apply map_ext. intros [from to_ nm cm]. reflexivity.
      - clear - HO. induction gs as [|g gs IH]; [constructor|]. destruct gs as [|g' gs]; [constructor|]. inversion HO as [| |? ? ? K HO']; subst.
        cbn [map]. constructor; [|apply IH, HO']. destruct g, g'. exact K. }
    assert (SP : forall g r p, In g (es ++ fs) -> Speaks (as_line g) r p <-> p = num (constant g) /\ About g r).
    { intros g r p Hg. rewrite (about_iff g r (HG' g Hg)). destruct g as [from to_ nm cm]. cbn [as_line value Speaks fst snd]. intuition. }
    pose proof (properties_lookup (map as_line (es ++ fs)) (map value gs) HS) as K.
    assert (H1 : Forall (fun '(from, to_, _) => match to_ with Some t => from <= t | None => True end) (map as_line (es ++ fs))).
    { apply Forall_map, Forall_forall. intros g Hg. destruct (HN g Hg) as [r Hr]. apply (about_iff g r (HG' g Hg)) in Hr.
      destruct g as [from to_ nm cm]. cbn [as_line value fst snd] in *. lia. }
    specialize (K H1). clear H1.
    assert (H2 : forall r pre mid post x y p q, map as_line (es ++ fs) = pre ++ x :: mid ++ y :: post -> Speaks x r p -> ~ Speaks y r q).
    { intros r pre mid post x y p q E Hx Hy. apply map_eq_app in E. destruct E as (l1 & l2 & E & <- & E2).
      apply map_eq_cons in E2. destruct E2 as (gx & l3 & -> & <- & E3). apply map_eq_app in E3. destruct E3 as (l4 & l5 & -> & <- & E5).
      apply map_eq_cons in E5. destruct E5 as (gy & l6 & -> & <- & <-).
      apply SP in Hx; [|rewrite E; apply in_or_app; right; left; reflexivity]. apply SP in Hy; [|rewrite E; apply in_or_app; right; right; apply in_or_app; right; left; reflexivity].
      exact (HD _ _ _ _ _ r E (proj2 Hx) (proj2 Hy)). }
    specialize (K H2). clear H2. split.
    - intros g r Hg Ha. apply (proj1 (K r)). exists (as_line g). split; [apply in_map, Hg|]. apply SP; auto.
    - intros r Hr. apply (proj2 (K r)). intros l p Hl. apply in_map_iff in Hl. destruct Hl as (g & <- & Hg). rewrite SP by exact Hg. intros [_ Ha]. exact (Hr g Hg Ha).
  Qed.
  Lemma lookup_source gencat out : (gencat = true -> Forall Categorised (es ++ fs)) ->
    (forall g, In g (es ++ fs) -> exists r, About g r) ->
    (forall pre x mid y post r, es ++ fs = pre ++ x :: mid ++ y :: post -> About x r -> ~ About y r) ->
    Parse main property emoji gencat name out ->
    exists src d, out = Ok src /\ Reads num src d
    /\ (forall g r, In g (es ++ fs) -> About g r -> Uniseg.property d r = num (constant g))
    /\ forall r, (forall g, In g (es ++ fs) -> ~ About g r) -> Uniseg.property d r = 0.
  Proof using Sm Lm Se Le HM HE Hn.
    intros HC HN HD H. apply parse_out in H. destruct H as (gs & HP & HI & HG & HO & ->).
    pose (row := if gencat then row4 else row3).
    destruct (table_text gencat name row gs Hn) as (src & E & ER).
    - rewrite Forall_forall in HG. apply Forall_forall. intros g Hg. assert (HC' : gencat = true -> Categorised g).
      { intros Eg. specialize (HC Eg). rewrite HP, Forall_forall in HC. apply HC, Hg. }
      specialize (HG g Hg). unfold row. destruct gencat; split.
      + apply prop_row4; auto.
      + apply plain_row; [destruct g; discriminate|apply row4_plain; auto].
      + apply prop_row, HG.
      + apply plain_row; [destruct g; discriminate|apply row3_plain, HG].
    - exists src, (map value gs). split; [exact E|]. split; [|apply lookup_entries; assumption].
      eexists _, _. split; [exact ER|]. rewrite !map_map. apply map_ext_in. intros g Hg. rewrite Forall_forall in HG. apply value_row; [apply HG, Hg|].
      unfold row. destruct gencat; [destruct g; eexists; reflexivity|exists []; rewrite app_nil_r; reflexivity].
  Qed.
End Texts.
