(** * CostProofs: counting operations. *)
From Verif Require Import GoBase Utf8 Utf8Proofs IntervalSpec TableProofs PropConst GraphemeData EastAsianData EmojiData RuneWidthData Uniseg UnisegProofs
  Runewidth ConditionSpec RunewidthProofs Cost.
From Coq Require Import ZifyBool ZifyNat.
Local Open Scope Z_scope.

Lemma fst_bind {A B} (m : counted A) (f : A -> counted B) : fst (cbind m f) = fst (f (fst m)).
Proof. reflexivity. Qed.
Lemma snd_bind {A B} (m : counted A) (f : A -> counted B) : snd (cbind m f) = snd m + snd (f (fst m)).
Proof. reflexivity. Qed.
Lemma fst_tick {A} (m : counted A) : fst (tick m) = fst m.
Proof. reflexivity. Qed.
Lemma snd_tick {A} (m : counted A) : snd (tick m) = 1 + snd m.
Proof. reflexivity. Qed.

(** ** Searches *)
Lemma searchC_fst d r fuel : forall from to_, fst (propertySearchC_loop fuel d r from to_) = propertySearch_loop fuel d r from to_.
Proof.
  induction fuel as [|f IH]; intros from to_; [reflexivity|]. cbn [propertySearchC_loop propertySearch_loop].
  destruct (to_ >? from); [|reflexivity]. cbn zeta. rewrite fst_tick.
  destruct (at_index d _) as [[[lo hi] p]|]; [|reflexivity].
  destruct (r <? lo); [apply IH|]. destruct (r >? hi); [apply IH|reflexivity].
Qed.
Lemma searchC_snd d r fuel : forall k from to_, to_ - from < 2 ^ Z.of_nat k ->
  0 <= snd (propertySearchC_loop fuel d r from to_) <= Z.of_nat k.
Proof.
  induction fuel as [|f IH]; intros k from to_ K; cbn [propertySearchC_loop]; [cbn [snd cret]; lia|].
  destruct (Z.gtb_spec to_ from) as [G|G]; [|cbn [snd cret]; lia]. cbn zeta. rewrite snd_tick.
  destruct k as [|k]; [change (2 ^ Z.of_nat 0) with 1 in K; lia|]. rewrite Nat2Z.inj_succ, Z.pow_succ_r in K by lia.
  pose proof (Z_div_mod_eq_full (from + to_) 2). pose proof (Z.mod_pos_bound (from + to_) 2 ltac:(lia)).
  set (m := (from + to_) / 2) in *.
  destruct (at_index d m) as [[[lo hi] p]|]; [|cbn [snd cret]; lia].
  destruct (r <? lo); [pose proof (IH k from m ltac:(lia)); lia|].
  destruct (r >? hi); [pose proof (IH k (m + 1) to_ ltac:(lia)); lia|cbn [snd cret]; lia].
Qed.
Lemma propC_fst d r : fst (propertyC d r) = property d r.
Proof. unfold propertyC, property, propertySearch. rewrite fst_bind, searchC_fst. reflexivity. Qed.
Lemma propC_snd d r k : slen d < 2 ^ Z.of_nat k -> 0 <= snd (propertyC d r) <= Z.of_nat k.
Proof.
  intros K. unfold propertyC. rewrite snd_bind. cbn [snd cret].
  pose proof (searchC_snd d r (S (length d)) k 0 (slen d) ltac:(lia)). lia.
Qed.

Lemma inC_fst t r fuel : forall bot top, fst (inTableC_loop fuel t r bot top) = inTable_loop fuel t r bot top.
Proof.
  induction fuel as [|f IH]; intros bot top; [reflexivity|]. cbn [inTableC_loop inTable_loop].
  destruct (top >=? bot); [|reflexivity]. cbn zeta. rewrite fst_tick.
  destruct (at_index t _) as [[lo hi]|]; [|reflexivity].
  destruct (hi <? r); [apply IH|]. destruct (lo >? r); [apply IH|reflexivity].
Qed.
Lemma inC_snd t r fuel : forall k bot top, top - bot + 1 < 2 ^ Z.of_nat k -> 0 <= snd (inTableC_loop fuel t r bot top) <= Z.of_nat k.
Proof.
  induction fuel as [|f IH]; intros k bot top K; cbn [inTableC_loop]; [cbn [snd cret]; lia|].
  destruct (Z.geb_spec top bot) as [G|G]; [|cbn [snd cret]; lia]. cbn zeta. rewrite snd_tick.
  destruct k as [|k]; [change (2 ^ Z.of_nat 0) with 1 in K; lia|]. rewrite Nat2Z.inj_succ, Z.pow_succ_r in K by lia.
  rewrite Z.shiftr_div_pow2 by lia. change (2 ^ 1) with 2.
  pose proof (Z_div_mod_eq_full (bot + top) 2). pose proof (Z.mod_pos_bound (bot + top) 2 ltac:(lia)).
  set (m := (bot + top) / 2) in *.
  destruct (at_index t m) as [[lo hi]|]; [|cbn [snd cret]; lia].
  destruct (hi <? r); [pose proof (IH k (m + 1) top ltac:(lia)); lia|].
  destruct (lo >? r); [pose proof (IH k bot (m - 1) ltac:(lia)); lia|cbn [snd cret]; lia].
Qed.
Lemma inTableC_fst r t : fst (inTableC r t) = inTable r t.
Proof.
  unfold inTableC, inTable, inTable_go. destruct t as [|[a b] t]; [reflexivity|]. rewrite fst_tick.
  destruct (r <? a); [reflexivity|]. rewrite fst_bind, inC_fst. reflexivity.
Qed.
Lemma inTableC_snd r t k : slen t < 2 ^ Z.of_nat k -> 0 <= snd (inTableC r t) <= 1 + Z.of_nat k.
Proof.
  intros K. unfold inTableC. destruct t as [|[a b] t]; [cbn [snd cret]; lia|]. rewrite snd_tick.
  destruct (r <? a); [cbn [snd cret]; lia|]. rewrite snd_bind. cbn [snd cret].
  pose proof (inC_snd ((a, b) :: t) r (S (length ((a, b) :: t))) k 0 (slen ((a, b) :: t) - 1) ltac:(lia)). lia.
Qed.
Lemma inTablesC_fst r ts : fst (inTablesC r ts) = inTables r ts.
Proof.
  induction ts as [|t ts IH]; [reflexivity|]. cbn [inTablesC inTables]. rewrite fst_bind, inTableC_fst.
  destruct (inTable r t); [reflexivity|exact IH].
Qed.

(** ** Sizes of the tables *)
Lemma grapheme_size : slen graphemeCodePoints < 2 ^ Z.of_nat 11.
Proof. vm_compute. reflexivity. Qed.
Lemma eastAsian_size : slen eastAsianWidth < 2 ^ Z.of_nat 12.
Proof. vm_compute. reflexivity. Qed.
Lemma emoji_size : slen emojiPresentation < 2 ^ Z.of_nat 9.
Proof. vm_compute. reflexivity. Qed.
Lemma rw_size : slen tbl_nonprint < 2 ^ Z.of_nat 4 /\ slen tbl_combining < 2 ^ Z.of_nat 6 /\ slen tbl_doublewidth < 2 ^ Z.of_nat 7 /\
  slen tbl_ambiguous < 2 ^ Z.of_nat 8 /\ slen tbl_narrow < 2 ^ Z.of_nat 3 /\ slen tbl_emoji < 2 ^ Z.of_nat 7.
Proof. vm_compute. repeat split. Qed.

Lemma transC_fst st r : fst (transitionC st r) = transitionGraphemeState st r.
Proof.
  unfold transitionC, transitionGraphemeState. rewrite fst_bind, propC_fst. destruct (transition st _). reflexivity.
Qed.
Lemma transC_snd st r : 1 <= snd (transitionC st r) <= 14.
Proof.
  unfold transitionC. rewrite snd_bind. pose proof (propC_snd graphemeCodePoints r 11 grapheme_size).
  set (p := fst (propertyC graphemeCodePoints r)). destruct (transition st p). cbn [snd]. destruct (trans_lookup grTransitions st p); lia.
Qed.
Lemma uniC_fst r g : fst (uniRuneWidthC r g) = uniRuneWidth r g.
Proof.
  unfold uniRuneWidthC, uniRuneWidth. destruct (_ || _); [reflexivity|]. destruct (g =? _); [reflexivity|].
  destruct (g =? _); [rewrite fst_bind, propC_fst; reflexivity|]. destruct (r =? _); [reflexivity|]. destruct (r =? _); [reflexivity|].
  rewrite fst_bind, propC_fst. reflexivity.
Qed.
Lemma uniC_snd r g : 0 <= snd (uniRuneWidthC r g) <= 12.
Proof.
  unfold uniRuneWidthC. destruct (_ || _); [cbn [snd cret]; lia|]. destruct (g =? _); [cbn [snd cret]; lia|].
  destruct (g =? _); [rewrite snd_bind; pose proof (propC_snd emojiPresentation r 9 emoji_size); cbn [snd cret]; lia|].
  destruct (r =? _); [cbn [snd cret]; lia|]. destruct (r =? _); [cbn [snd cret]; lia|].
  rewrite snd_bind. pose proof (propC_snd eastAsianWidth r 12 eastAsian_size). cbn [snd cret]. lia.
Qed.
Lemma step_widthC_fst fp w r p : fst (step_widthC fp w r p) = step_width fp w r p.
Proof.
  unfold step_widthC, step_width. destruct (r =? _); [reflexivity|]. destruct (_ && _); [rewrite fst_bind, uniC_fst; reflexivity|].
  destruct (fp =? _); reflexivity.
Qed.
Lemma step_widthC_snd fp w r p : 0 <= snd (step_widthC fp w r p) <= 12.
Proof.
  unfold step_widthC. destruct (r =? _); [cbn [snd cret]; lia|].
  destruct (_ && _); [rewrite snd_bind; pose proof (uniC_snd r p); cbn [snd cret]; lia|]. destruct (fp =? _); cbn; lia.
Qed.

(** ** StepString *)
Lemma step_loopC_fst fuel : forall s rem len gs fp w, fst (step_loopC fuel s rem len gs fp w) = step_loop fuel s rem len gs fp w.
Proof.
  induction fuel as [|f IH]; intros s rem len gs fp w; [reflexivity|]. cbn [step_loopC step_loop].
  destruct (DecodeRune rem) as [r l]. rewrite fst_tick, fst_bind, transC_fst.
  destruct (transitionGraphemeState gs r) as [[ns p] b]. destruct b; [reflexivity|].
  rewrite fst_bind, step_widthC_fst. cbn zeta. destruct (slen s <=? len + l); [reflexivity|apply IH].
Qed.
Lemma runes_next s : s <> [] -> runes s = fst (DecodeRune s) :: runes (drop (snd (DecodeRune s)) s).
Proof. intros K. unfold runes. rewrite decode_cons by exact K. destruct (DecodeRune s). reflexivity. Qed.

Definition left (e : option (str * str * Z * Z)) : Z := match e with Some (_, rest, _, _) => slen (runes rest) | None => 0 end.

Lemma step_loopC_snd fuel : forall s len gs fp w, 0 <= len < slen s ->
  0 <= snd (step_loopC fuel s (drop len s) len gs fp w) /\
  snd (step_loopC fuel s (drop len s) len gs fp w) + 27 * left (fst (step_loopC fuel s (drop len s) len gs fp w))
    <= 27 * slen (runes (drop len s)) + 15.
Proof.
  induction fuel as [|f IH]; intros s len gs fp w L.
  { cbn [step_loopC fst snd cret left]. pose proof (slen_nonneg (runes (drop len s))). lia. }
  cbn [step_loopC]. assert (N : drop len s <> []).
  { intros e. pose proof (slen_drop len s ltac:(lia)) as K. rewrite e in K. cbn in K. lia. }
  pose proof (DecodeRune_size _ N) as [S1 S2]. pose proof (runes_next _ N) as R. rewrite drop_drop in R by lia.
  destruct (DecodeRune (drop len s)) as [r l]. cbn [fst snd] in R, S1, S2.
  rewrite fst_tick, fst_bind, snd_tick, snd_bind, transC_fst. pose proof (transC_snd gs r) as T.
  destruct (transitionGraphemeState gs r) as [[ns p] b]. destruct b.
  { cbn [fst snd cret left]. lia. }
  rewrite fst_bind, snd_bind, step_widthC_fst. pose proof (step_widthC_snd fp w r p) as W. cbn zeta.
  rewrite R, slen_cons. pose proof (slen_nonneg (runes (drop (len + l) s))).
  destruct (Z.leb_spec (slen s) (len + l)) as [E|E]; cbn [fst snd cret left].
  { change (slen (runes [])) with 0. lia. }
  specialize (IH s (len + l) ns fp (step_width fp w r p) ltac:(lia)). lia.
Qed.

Lemma StepStringC_fst s st : fst (StepStringC s st) = StepString s st.
Proof.
  unfold StepStringC, StepString. destruct s as [|c s]; [reflexivity|]. set (u := c :: s).
  destruct (DecodeRune u) as [r l]. rewrite fst_tick. destruct (slen u <=? l).
  - rewrite fst_bind, fst_bind, uniC_fst, propC_fst. reflexivity.
  - rewrite fst_bind. destruct (st <? 0).
    + rewrite fst_bind, transC_fst. destruct (transitionGraphemeState st r) as [[ns p] b]. cbn [fst cret].
      rewrite fst_bind, uniC_fst, step_loopC_fst. reflexivity.
    + cbn [fst cret]. rewrite fst_bind, uniC_fst, step_loopC_fst. reflexivity.
Qed.
Lemma StepStringC_snd s st : s <> [] ->
  0 <= snd (StepStringC s st) /\ snd (StepStringC s st) + 27 * left (StepString s st) <= 27 * slen (runes s) + 15.
Proof.
  intros N. rewrite <- StepStringC_fst. unfold StepStringC. destruct s as [|c s]; [congruence|]. set (u := c :: s) in *.
  pose proof (DecodeRune_size _ N) as [S1 S2]. pose proof (runes_next _ N) as R.
  destruct (DecodeRune u) as [r l]. cbn [fst snd] in R, S1, S2. rewrite fst_tick, snd_tick.
  rewrite R, slen_cons. pose proof (slen_nonneg (runes (drop l u))).
  destruct (Z.leb_spec (slen u) l) as [E|E].
  - rewrite !fst_bind, !snd_bind. pose proof (propC_snd graphemeCodePoints r 11 grapheme_size) as P.
    pose proof (uniC_snd r (fst (propertyC graphemeCodePoints r))) as U.
    cbn [fst snd cret left]. change (slen (runes [])) with 0. lia.
  - rewrite fst_bind, snd_bind. set (m := if st <? 0 then _ else _).
    assert (M : 0 <= snd m <= 14).
    { subst m. destruct (st <? 0); [|cbn [snd cret]; lia]. rewrite snd_bind. pose proof (transC_snd st r).
      destruct (fst (transitionC st r)) as [[ns p] b]. cbn [snd cret]. lia. }
    clearbody m. destruct (fst m) as [gs fp]. rewrite fst_bind, snd_bind. pose proof (uniC_snd r fp) as U.
    pose proof (step_loopC_snd (length u) u l gs fp (fst (uniRuneWidthC r fp)) ltac:(lia)). lia.
Qed.

(** ** RuneWidth *)
Lemma if_bind {A} (m : counted bool) (x y : counted A) b : fst m = b ->
  fst (cbind m (fun b => if b then x else y)) = if b then fst x else fst y.
Proof. intros <-. rewrite fst_bind. destruct (fst m); reflexivity. Qed.
Lemma RuneWidth_tablesC_fst ea st r : fst (RuneWidth_tablesC ea st r) = RuneWidth_tables ea st r.
Proof.
  unfold RuneWidth_tablesC, RuneWidth_tables. destruct ea; cbn [negb].
  - rewrite (if_bind _ _ _ _ (inTablesC_fst _ _)), (if_bind _ _ _ _ (inTableC_fst _ _)), (if_bind _ _ _ _ (inTablesC_fst _ _)).
    destruct st; cbn [negb andb]; [reflexivity|]. rewrite (if_bind _ _ _ _ (inTablesC_fst _ _)). reflexivity.
  - destruct (r <? 32); [reflexivity|]. destruct (_ || _); [reflexivity|]. destruct (r <? 768); [reflexivity|].
    rewrite (if_bind _ _ _ _ (inTableC_fst _ _)), (if_bind _ _ _ _ (inTablesC_fst _ _)), (if_bind _ _ _ _ (inTableC_fst _ _)). reflexivity.
Qed.
Lemma RuneWidthC_fst c r : fst (RuneWidthC c r) = RuneWidth c r.
Proof.
  unfold RuneWidthC, RuneWidth. destruct (_ || _); [reflexivity|]. destruct (0 <? _); [reflexivity|]. apply RuneWidth_tablesC_fst.
Qed.
Lemma inTablesC_snd r t ts a b : 0 <= snd (inTableC r t) <= a -> 0 <= snd (inTablesC r ts) <= b ->
  0 <= snd (inTablesC r (t :: ts)) <= a + b.
Proof. intros A B. cbn [inTablesC]. rewrite snd_bind. destruct (fst (inTableC r t)); cbn [snd cret]; lia. Qed.
Lemma inTablesC_nil r : 0 <= snd (inTablesC r []) <= 0.
Proof. cbn [inTablesC snd cret]. lia. Qed.
Lemma if_cost {A} (m : counted bool) (x y : counted A) a b : 0 <= snd m <= a -> 0 <= snd x <= b -> 0 <= snd y <= b ->
  0 <= snd (cbind m (fun b => if b then x else y)) <= a + b.
Proof. intros. rewrite snd_bind. destruct (fst m); lia. Qed.
(** Seven tables at most, of up to 256 entries. *)
Lemma RuneWidth_tablesC_snd ea st r : 0 <= snd (RuneWidth_tablesC ea st r) <= 54.
Proof.
  destruct rw_size as (S1 & S2 & S3 & S4 & S5 & S6).
  pose proof (inTableC_snd r _ _ S1) as T1. pose proof (inTableC_snd r _ _ S2) as T2. pose proof (inTableC_snd r _ _ S3) as T3.
  pose proof (inTableC_snd r _ _ S4) as T4. pose proof (inTableC_snd r _ _ S5) as T5. pose proof (inTableC_snd r _ _ S6) as T6.
  pose proof (inTablesC_snd _ _ _ _ _ T1 (inTablesC_snd _ _ _ _ _ T2 (inTablesC_nil r))) as U1.
  pose proof (inTablesC_snd _ _ _ _ _ T4 (inTablesC_snd _ _ _ _ _ T3 (inTablesC_nil r))) as U2.
  pose proof (inTablesC_snd _ _ _ _ _ T4 (inTablesC_snd _ _ _ _ _ T6 (inTablesC_snd _ _ _ _ _ T5 (inTablesC_nil r)))) as U3.
  clear S1 S2 S3 S4 S5 S6.
  assert (R0 : forall x : Z, 0 <= snd (cret x) <= 0) by (intros; cbn [snd cret]; lia).
  assert (W : forall (m : counted Z) a b, 0 <= snd m <= a -> a <= b -> 0 <= snd m <= b) by (intros; lia).
  unfold RuneWidth_tablesC. destruct ea; cbn [negb].
  - eapply W; [apply if_cost; [exact U1|apply (W _ 0 42); [apply R0|lia]|]|cbn; lia].
    eapply W; [apply if_cost; [exact T5|apply (W _ 0 38); [apply R0|lia]|]|cbn; lia].
    eapply W; [apply if_cost; [exact U2|apply (W _ 0 21); [apply R0|lia]|]|cbn; lia].
    destruct st; [apply (W _ 0); [apply R0|lia]|].
    eapply W; [apply if_cost; [exact U3|apply R0|apply R0]|cbn; lia].
  - destruct (r <? 32); [apply (W _ 0); [apply R0|lia]|]. destruct (_ || _); [apply (W _ 0); [apply R0|lia]|].
    destruct (r <? 768); [apply (W _ 0); [apply R0|lia]|].
    eapply W; [apply if_cost; [exact T5|apply (W _ 0 20); [apply R0|lia]|]|cbn; lia].
    eapply W; [apply if_cost; [exact U1|apply (W _ 0 8); [apply R0|lia]|]|cbn; lia].
    eapply W; [apply if_cost; [exact T3|apply R0|apply R0]|cbn; lia].
Qed.
Lemma RuneWidthC_snd c r : 0 <= snd (RuneWidthC c r) <= 54.
Proof.
  unfold RuneWidthC. destruct (_ || _); [cbn [snd cret]; lia|].
  destruct (0 <? _); [rewrite snd_tick; cbn [snd cret]; lia|apply RuneWidth_tablesC_snd].
Qed.
Lemma RuneWidthC_lut c r : combinedLut c <> [] -> 0 <= snd (RuneWidthC c r) <= 1.
Proof.
  intros N. unfold RuneWidthC. destruct (_ || _); [cbn [snd cret]; lia|].
  destruct (Z.ltb_spec 0 (slen (combinedLut c))) as [L|L]; [rewrite snd_tick; cbn [snd cret]; lia|].
  exfalso. apply N. apply slen_0. pose proof (slen_nonneg (combinedLut c)). lia.
Qed.
Lemma cluster_widthC_fst c rs : forall w, fst (cluster_widthC c w rs) = cluster_width_from c w rs.
Proof.
  induction rs as [|r rs IH]; intros w; [reflexivity|]. cbn [cluster_widthC cluster_width_from]. rewrite fst_bind, RuneWidthC_fst.
  destruct (_ >? 0); [reflexivity|apply IH].
Qed.
Lemma cluster_widthC_snd c b rs : (forall r, 0 <= snd (RuneWidthC c r) <= b) -> forall w, 0 <= snd (cluster_widthC c w rs) <= b * slen rs.
Proof.
  intros K. induction rs as [|r rs IH]; intros w; [cbn; lia|]. cbn [cluster_widthC]. rewrite snd_bind, slen_cons.
  specialize (K r). pose proof (slen_nonneg rs). specialize (IH (fst (RuneWidthC c r))).
  destruct (_ >? 0); cbn [snd cret]; nia.
Qed.

(** ** StringWidth *)
Lemma NextC_fst g : fst (NextC g) = Next g.
Proof. unfold NextC, Next. destruct (g_remaining g); [reflexivity|]. rewrite fst_bind, StepStringC_fst. reflexivity. Qed.
Lemma widthC_fst c fuel : forall g w, fst (widthC_loop fuel c g w) =
  match iterate fuel g with Some gs => Some (fold_left (fun width g => width + cluster_width c (Runes g)) gs w) | None => None end.
Proof.
  induction fuel as [|f IH]; intros g w; [reflexivity|]. cbn [widthC_loop iterate]. rewrite fst_bind, NextC_fst.
  destruct (Next g) as [[g' [|]]|]; [|reflexivity|reflexivity].
  rewrite fst_bind, fst_bind, cluster_widthC_fst, IH. cbn [RunesC fst]. destruct (iterate f g'); reflexivity.
Qed.
Lemma StringWidthC_fst c s : fst (StringWidthC c s) = Some (StringWidth c s).
Proof.
  unfold StringWidthC. rewrite widthC_fst. unfold StringWidth, StringWidth_go.
  destruct (iterate_new s (S (length s)) ltac:(lia)) as (gs & -> & _). reflexivity.
Qed.

Lemma widthC_snd c b : (forall r, 0 <= snd (RuneWidthC c r) <= b) -> forall fuel g w, Good (g_state g) (g_remaining g) ->
  0 <= snd (widthC_loop fuel c g w) <= (43 + b) * slen (runes (g_remaining g)).
Proof.
  intros K. assert (B : 0 <= b) by (specialize (K 0); lia).
  induction fuel as [|f IH]; intros g w G; cbn [widthC_loop].
  { cbn [snd cret]. pose proof (slen_nonneg (runes (g_remaining g))). nia. }
  rewrite snd_bind, NextC_fst. destruct (list_eq_dec Byte.byte_eq_dec (g_remaining g) []) as [E|E].
  { unfold NextC, Next. rewrite E. cbn. lia. }
  destruct (StepString_spec _ E) as (p & q & ns & S & Sp & Np & D & _ & G' & _).
  rewrite <- (StepString_Good _ _ G) in S.
  pose proof (StepStringC_snd (g_remaining g) (g_state g) E) as [C0 C1].
  assert (L : slen (runes (g_remaining g)) = slen (runes p) + slen (runes q)).
  { unfold runes. rewrite D, map_app, slen_app. reflexivity. }
  assert (P : 1 <= slen (runes p)).
  { rewrite (runes_next _ Np), slen_cons. pose proof (slen_nonneg (runes (drop (snd (DecodeRune p)) p))). lia. }
  assert (Cn : snd (NextC g) = snd (StepStringC (g_remaining g) (g_state g))).
  { unfold NextC. destruct (g_remaining g); [congruence|]. rewrite snd_bind. cbn [snd cret]. lia. }
  assert (Nx : exists g', Next g = Some (g', true) /\ g_remaining g' = q /\ g_cluster g' = p /\ g_state g' = ns).
  { unfold Next. destruct (g_remaining g); [congruence|]. rewrite S. eexists. split; [reflexivity|]. auto. }
  destruct Nx as (g' & -> & Rq & Rp & Rs). rewrite S in C1. cbn [left] in C1.
  rewrite snd_bind, snd_bind. specialize (IH g' (w + fst (cluster_widthC c 0 (fst (RunesC g'))))).
  rewrite Rq, Rs in IH. specialize (IH G').
  assert (R : 0 <= slen (Runes g') <= slen (runes p)).
  { unfold Runes. rewrite Rp. destruct (g_state g' <? 0); [cbn; lia|]. lia. }
  pose proof (cluster_widthC_snd c b (Runes g') K 0) as W. cbn [RunesC fst snd] in *.
  rewrite Cn, L. nia.
Qed.
Lemma StringWidthC_bound c b s : (forall r, 0 <= snd (RuneWidthC c r) <= b) ->
  0 <= snd (StringWidthC c s) <= (43 + b) * slen (runes s).
Proof. intros K. apply (widthC_snd c b K (S (length s)) (NewGraphemes s) 0). left. cbn. lia. Qed.
Lemma step_cost s st : s <> [] -> fst (StepStringC s st) = StepString s st /\
  forall cluster rest b st', StepString s st = Some (cluster, rest, b, st') ->
  snd (StepStringC s st) <= 27 * (slen (runes s) - slen (runes rest)) + 15.
Proof.
  intros N. split; [apply StepStringC_fst|]. intros cl rest b st' E. pose proof (StepStringC_snd s st N) as [_ K]. rewrite E in K.
  cbn [left] in K. lia.
Qed.
Lemma string_cost c s : fst (StringWidthC c s) = Some (StringWidth c s) /\
  snd (StringWidthC c s) <= 97 * slen (runes s) /\
  (combinedLut c <> [] -> snd (StringWidthC c s) <= 44 * slen (runes s)).
Proof.
  split; [apply StringWidthC_fst|]. split.
  - pose proof (StringWidthC_bound c 54 s (RuneWidthC_snd c)). lia.
  - intros N. pose proof (StringWidthC_bound c 1 s (fun r => RuneWidthC_lut c r N)). lia.
Qed.
