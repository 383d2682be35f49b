(** * BasicProofs: reading FormatItemBasic's result back. *)
From Verif Require Import GoBase Runewidth Width Table TableContract TableOpsProofs BasicSpec.
From Coq Require Import ZifyBool ZifyNat.
Local Open Scope Z_scope.
Notation join := TableContract.join.

Lemma app_len_inj {A} (a a' b b' : list A) : length a = length a' -> a ++ b = a' ++ b' -> a = a' /\ b = b'.
Proof.
  revert a'. induction a as [|x a IH]; intros [|y a'] L E; try discriminate L; [auto|].
  injection E as -> E. injection L as L. destruct (IH a' L E) as [-> ->]. auto.
Qed.

(** A shorter first part of one cut is a first part of the other. *)
Lemma app_prefix {A} (a a' b b' : list A) : (length a <= length a')%nat -> a ++ b = a' ++ b' -> exists m, a' = a ++ m /\ b = m ++ b'.
Proof.
  revert a'. induction a as [|x a IH]; intros a' L E; [exists a'; auto|].
  destruct a' as [|y a']; [cbn in L; lia|]. injection E as -> E. cbn in L.
  destruct (IH a' ltac:(lia) E) as (m & -> & ->). exists m. auto.
Qed.

Lemma Splits_fun sep s ps : sep <> [] -> Splits sep s ps -> forall qs, Splits sep s qs -> ps = qs.
Proof.
  intros Hs. induction 1 as [s HN|a b ps HF HS IH]; intros qs HQ.
  - inversion HQ as [s' HN' E1 E2|a b ps HF HS E1 E2]; subst; [reflexivity|]. exfalso. apply (HN a). exists b. reflexivity.
  - inversion HQ as [s' HN' E1 E2|a' b' ps' HF' HS' E1 E2]; subst.
    + exfalso. apply (HN' a). exists b. reflexivity.
    + assert (La : (length a <= length a')%nat) by (apply HF; exists b'; auto).
      assert (Lb : (length a' <= length a)%nat) by (apply HF'; exists b; auto).
      apply app_len_inj in E1; [|lia]. destruct E1 as [-> E]. apply app_len_inj in E; [|reflexivity].
      destruct E as [_ ->]. f_equal. apply IH. exact HS'.
Qed.

(** What stands in [v ++ sep ++ rest] from within [v] stands in [v ++ sep]. *)
Lemma Stands_within sep v rest a : (length a <= length v)%nat -> Stands sep (v ++ sep ++ rest) a -> Stands sep (v ++ sep) a.
Proof.
  intros L (b & E). rewrite !app_assoc in E. destruct (app_prefix (a ++ sep) (v ++ sep) b rest) as (m & Em & _).
  - rewrite !app_length. lia.
  - symmetry. exact E.
  - exists m. rewrite Em, <- app_assoc. reflexivity.
Qed.

Lemma Ends_first sep v rest : Ends sep v -> forall a, Stands sep (v ++ sep ++ rest) a -> (length v <= length a)%nat.
Proof.
  intros HE a HA. destruct (Nat.le_gt_cases (length v) (length a)) as [L|L]; [exact L|].
  rewrite (HE a (Stands_within sep v rest a ltac:(lia) HA)). lia.
Qed.

Lemma first_Ends sep v rest : (forall a, Stands sep (v ++ sep ++ rest) a -> (length v <= length a)%nat) -> Ends sep v.
Proof.
  intros HF a (b & E). assert (S : Stands sep (v ++ sep ++ rest) a).
  { exists (b ++ rest). rewrite app_assoc, E, !app_assoc. reflexivity. }
  specialize (HF a S). pose proof (f_equal (@length byte) E) as L. rewrite !app_length in L.
  apply app_len_inj in E; [symmetry; tauto|]. lia.
Qed.

Lemma join_two sep v w vs : join sep (v :: w :: vs) = v ++ sep ++ join sep (w :: vs).
Proof. reflexivity. Qed.

Lemma split_join sep vs : sep <> [] -> vs <> [] -> (Splits sep (join sep vs) vs <-> Apart sep vs).
Proof.
  intros Hs. induction vs as [|v vs IH]; [congruence|]. intros _. destruct vs as [|w vs].
  - cbn [join]. split.
    + intros H. inversion H as [s HN E1 E2|a b ps HF HS E1 E2]; subst; [apply apart_last; auto|]. inversion HS.
    + intros H. inversion H; subst. apply splits_end. auto.
  - specialize (IH ltac:(discriminate)). rewrite join_two. split.
    + intros H. inversion H as [s HN E1 E2|a b ps HF HS E1 E2]; subst.
      apply app_len_inj in E1; [|reflexivity]. destruct E1 as [_ E1]. apply app_len_inj in E1; [|reflexivity]. destruct E1 as [_ ->].
      apply apart_more; [eapply first_Ends; exact HF|]. apply IH. exact HS.
    + intros H. inversion H as [|v' w' vs' HE HA]; subst. apply splits_cut; [apply Ends_first; auto|]. apply IH. exact HA.
Qed.

Lemma Splits_total sep s : sep <> [] -> exists ps, Splits sep s ps.
Proof.
  intros Hs. assert (K : forall n s, (length s <= n)%nat -> exists ps, Splits sep s ps).
  { clear s. induction n as [|n IH]; intros s L.
    - exists [s]. apply splits_end. intros a (b & E). apply Hs. destruct s; [|cbn in L; lia].
      symmetry in E. apply app_eq_nil in E. destruct E as [_ E]. apply app_eq_nil in E. tauto.
    - assert (D : (forall a, ~ Stands sep s a) \/ exists a b, s = a ++ sep ++ b /\ forall a', Stands sep s a' -> (length a <= length a')%nat).
      { clear -Hs. induction s as [|x s IH].
        - left. intros a (b & E). symmetry in E. apply app_eq_nil in E. destruct E as [_ E]. apply app_eq_nil in E. tauto.
        - assert (P : forall p l : str, (exists b, l = p ++ b) \/ ~ exists b, l = p ++ b).
          { intros p. induction p as [|y p IHp]; intros l; [left; exists l; reflexivity|].
            destruct l as [|z l]; [right; intros (b & E); discriminate|].
            destruct (Byte.byte_eq_dec z y) as [->|N].
            - destruct (IHp l) as [(b & ->)|N]; [left; exists b; reflexivity|]. right. intros (b & E). injection E as E. apply N. eauto.
            - right. intros (b & E). injection E as E _. congruence. }
          destruct (P sep (x :: s)) as [(b & E)|N].
          { right. exists [], b. split; [exact E|]. intros. cbn. lia. }
          destruct IH as [HN|(a & b & E & HF)].
          + left. intros [|y a] (b & E); [apply N; exists b; exact E|]. injection E as -> E. apply (HN a). exists b. exact E.
          + right. exists (x :: a), b. split; [rewrite E; reflexivity|]. intros [|y a'] (b' & E'); [exfalso; apply N; exists b'; exact E'|].
            injection E' as -> E'. cbn. specialize (HF a' (ex_intro _ b' E')). lia. }
      destruct D as [D|(a & b & -> & HF)]; [exists [s]; apply splits_end; exact D|].
      destruct (IH b) as (ps & HP); [rewrite !app_length in L; destruct sep; [congruence|cbn in L; lia]|].
      exists (a :: ps). apply splits_cut; auto. }
  apply (K (length s) s). lia.
Qed.

Lemma one_way sep s : sep <> [] -> exists ps, Splits sep s ps /\ forall qs, Splits sep s qs -> ps = qs.
Proof.
  intros Hs. destruct (Splits_total sep s Hs) as (ps & H). exists ps. split; [exact H|]. exact (Splits_fun sep s ps Hs H).
Qed.

(** ** FormatItemBasic *)
Section Types.
Context {Item Val E : Type}.

Lemma basic_values (t : Table Item Val E) item sep out vs : AllOk (basic_cell item) (Columns (tSpec t)) vs ->
  FormatItemBasic t item sep = Ok out -> out = join sep vs.
Proof.
  intros HA HO. destruct (FormatItemBasic_spec t item sep) as [(vs' & HA' & E1)|(pre & vs' & a & post & El & HP & Hf)].
  - rewrite E1 in HO. injection HO as <-. f_equal. clear E1. revert vs HA. induction HA' as [|x y l l' Hx HF IH]; intros vs HA;
      inversion HA as [|? z ? l'' Hz HG]; subst; [reflexivity|]. rewrite Hx in Hz. injection Hz as ->. f_equal. apply IH. exact HG.
  - destruct Hf as [(e & _ & K)|(p & _ & K)]; congruence.
Qed.

Lemma basic_split (t : Table Item Val E) item sep out vs : sep <> [] -> Columns (tSpec t) <> [] ->
  AllOk (basic_cell item) (Columns (tSpec t)) vs -> FormatItemBasic t item sep = Ok out ->
  (Splits sep out vs <-> Apart sep vs).
Proof.
  intros Hs Hc HA HO. rewrite (basic_values t item sep out vs HA HO). apply split_join; auto.
  intros ->. inversion HA. congruence.
Qed.
End Types.

Lemma join_inj sep vs ws : sep <> [] -> Apart sep vs -> Apart sep ws -> join sep vs = join sep ws -> vs = ws.
Proof.
  intros Hs HV HW E.
  assert (HV' : vs <> []) by (intros ->; inversion HV). assert (HW' : ws <> []) by (intros ->; inversion HW).
  apply (split_join sep vs Hs HV') in HV. apply (split_join sep ws Hs HW') in HW. rewrite E in HV.
  eapply Splits_fun; eauto.
Qed.

(** ** Separators of one byte *)
Lemma Stands_byte x s a : Stands [x] s a -> In x s.
Proof. intros (b & ->). apply in_or_app. right. left. reflexivity. Qed.

Lemma in_Stands x s : In x s -> exists a, Stands [x] s a /\ ~ In x a.
Proof.
  induction s as [|y s IH]; [intros []|]. intros H. destruct (Byte.byte_eq_dec y x) as [->|N].
  - exists []. split; [exists s; reflexivity|]. intros [].
  - destruct H as [H|H]; [congruence|]. destruct (IH H) as (a & (b & E) & Ha). exists (y :: a). split.
    + exists b. rewrite E. reflexivity.
    + intros [K|K]; [congruence|contradiction].
Qed.

Lemma Ends_byte x v : Ends [x] v <-> ~ In x v.
Proof.
  split.
  - intros HE Hin. destruct (in_Stands x v Hin) as (a & (b & E) & Ha).
    assert (a = v) as <-; [|contradiction]. apply HE. exists (b ++ [x]). rewrite E at 1. rewrite <- !app_assoc. reflexivity.
  - intros HN a (b & E). destruct (Nat.lt_trichotomy (length a) (length v)) as [L|[L|L]].
    + exfalso. destruct (app_prefix a v ([x] ++ b) [x] ltac:(lia) (eq_sym E)) as (m & -> & K).
      destruct m as [|y m]; [rewrite app_nil_r in L; lia|]. injection K as -> _. apply HN, in_or_app. right. left. reflexivity.
    + apply app_len_inj in E; [symmetry; tauto|lia].
    + exfalso. apply (f_equal (@length byte)) in E. rewrite !app_length in E. cbn [length] in E. lia.
Qed.

Lemma Apart_byte x vs : vs <> [] -> (Apart [x] vs <-> Forall (fun v => ~ In x v) vs).
Proof.
  induction vs as [|v vs IH]; [congruence|]. intros _. destruct vs as [|w vs].
  - split.
    + intros H. inversion H as [? HN|]; subst. constructor; [|constructor]. intros K. destruct (in_Stands x v K) as (a & Ha & _).
      exact (HN a Ha).
    + intros H. inversion H; subst. apply apart_last. intros a K. apply Stands_byte in K. auto.
  - specialize (IH ltac:(discriminate)). split.
    + intros H. inversion H; subst. constructor; [apply Ends_byte; auto|]. apply IH; auto.
    + intros H. inversion H; subst. apply apart_more; [apply Ends_byte; auto|]. apply IH; auto.
Qed.

Lemma occurrences_app x a b : occurrences x (a ++ b) = occurrences x a + occurrences x b.
Proof. induction a as [|y a IH]; cbn [app occurrences]; lia. Qed.
Lemma occurrences_nonneg x a : 0 <= occurrences x a.
Proof. induction a as [|y a IH]; cbn [occurrences]; [lia|]. destruct (Byte.eqb y x); lia. Qed.
Lemma occurrences_none x a : ~ In x a <-> occurrences x a = 0.
Proof.
  induction a as [|y a IH]; cbn [occurrences In]; [tauto|]. pose proof (occurrences_nonneg x a).
  destruct (Byte.eqb y x) eqn:Eb.
  - apply Byte.byte_dec_bl in Eb. split; [intros K; exfalso; apply K; auto|lia].
  - split.
    + intros K. cut (occurrences x a = 0); [lia|]. apply IH. tauto.
    + intros K [->|Hi]; [rewrite Byte.byte_dec_lb in Eb by reflexivity; discriminate|]. apply IH in Hi; [auto|lia].
Qed.

Lemma Splits_count x s ps : Splits [x] s ps -> slen ps = 1 + occurrences x s.
Proof.
  induction 1 as [s HN|a b ps HF HS IH].
  - assert (~ In x s) as K by (intros K; destruct (in_Stands x s K) as (a & Ha & _); exact (HN a Ha)).
    apply occurrences_none in K. change (slen [s]) with 1. lia.
  - assert (~ In x a) as K.
    { intros K. destruct (in_Stands x a K) as (a' & (b' & E) & _).
      specialize (HF a'). assert (S : Stands [x] (a ++ [x] ++ b) a').
      { exists (b' ++ [x] ++ b). rewrite E at 1. rewrite <- !app_assoc. reflexivity. }
      specialize (HF S). apply (f_equal (@length byte)) in E. rewrite !app_length in E. cbn [length] in E. lia. }
    apply occurrences_none in K. rewrite !occurrences_app. cbn [occurrences]. rewrite Byte.byte_dec_lb by reflexivity.
    unfold slen in *. cbn [length]. lia.
Qed.

Lemma occurrences_join x vs : vs <> [] -> occurrences x (join [x] vs) = slen vs - 1 + zsum (map (occurrences x) vs).
Proof.
  induction vs as [|v vs IH]; [congruence|]. intros _. destruct vs as [|w vs].
  - cbn [join map]. change (slen [v]) with 1. change (zsum [occurrences x v]) with (occurrences x v + 0). lia.
  - specialize (IH ltac:(discriminate)). rewrite join_two, !occurrences_app, IH. cbn [occurrences].
    rewrite Byte.byte_dec_lb by reflexivity. change (map (occurrences x) (v :: w :: vs)) with (occurrences x v :: map (occurrences x) (w :: vs)).
    change (zsum (occurrences x v :: map (occurrences x) (w :: vs))) with (occurrences x v + zsum (map (occurrences x) (w :: vs))).
    unfold slen. cbn [length]. lia.
Qed.

Section Types2.
Context {Item Val E : Type}.
Lemma basic_count (t : Table Item Val E) item x out vs ps : Columns (tSpec t) <> [] ->
  AllOk (basic_cell item) (Columns (tSpec t)) vs -> FormatItemBasic t item [x] = Ok out -> Splits [x] out ps ->
  slen ps = slen (Columns (tSpec t)) + zsum (map (occurrences x) vs).
Proof.
  intros Hc HA HO HS. apply Splits_count in HS. rewrite HS, (basic_values t item [x] out vs HA HO).
  assert (vs <> []) by (intros ->; inversion HA; congruence). rewrite occurrences_join by auto.
  assert (L : length (Columns (tSpec t)) = length vs) by (clear -HA; induction HA; cbn; congruence).
  unfold slen. lia.
Qed.

Lemma basic_injective (t u : Table Item Val E) i j sep out vs ws : sep <> [] ->
  AllOk (basic_cell i) (Columns (tSpec t)) vs -> AllOk (basic_cell j) (Columns (tSpec u)) ws ->
  FormatItemBasic t i sep = Ok out -> FormatItemBasic u j sep = Ok out -> Apart sep vs -> Apart sep ws -> vs = ws.
Proof.
  intros Hs HA HB H1 H2 PA PB. apply (join_inj sep); auto.
  rewrite <- (basic_values t i sep out vs HA H1). apply (basic_values u j sep out ws HB H2).
Qed.
End Types2.
