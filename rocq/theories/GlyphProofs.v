(** * GlyphProofs: glyphs are clusters. *)
From Coq Require Import ZifyBool ZifyNat.
From Verif Require Import GoBase Utf8 Utf8Spec Utf8Theory Uniseg GraphemeSpec SegmentSpec SegmentTheory UnisegProofs TextSpec Runewidth ConditionSpec StringWidthProofs
  Width WidthProofs AlignSpec Table Merge MergeSpec TemplateSpec TemplateProofs MarkSpec MarkProofs GlyphSpec.
Local Open Scope Z_scope.

(** ** No boundary inside *)
Fixpoint joined (before l : list gcb) : Prop := match l with [] => True | g :: l => breaks before g = false /\ joined (g :: before) l end.
Lemma joined_app l1 : forall before l2, joined before (l1 ++ l2) <-> joined before l1 /\ joined (rev l1 ++ before) l2.
Proof.
  induction l1 as [|g l1 IH]; intros before l2; cbn [app joined rev]; [tauto|]. rewrite IH, <- app_assoc. cbn [app]. tauto.
Qed.
Lemma seg_joined l : forall before cur, joined before (map class l) -> seg before cur l = [cur ++ l].
Proof.
  induction l as [|r l IH]; intros before cur J; cbn [seg]; [rewrite app_nil_r; reflexivity|]. destruct J as [J1 J2]. rewrite J1, (IH _ _ J2), <- app_assoc. reflexivity.
Qed.
Lemma joined_marks ms : Forall Mark ms -> forall g before, solid g = true -> joined (g :: before) (map class ms).
Proof.
  induction 1 as [|m ms Hm _ IH]; intros g before Hg; cbn [map joined]; [exact Logic.I|]. split; [apply mark_joins; assumption|]. apply IH, mark_solid, Hm.
Qed.
Lemma joined_all (g : gcb) l : Forall (fun r => class r = g) l -> forall before, (forall b, breaks (g :: b) g = false) -> breaks before g = false -> joined before (map class l).
Proof.
  induction 1 as [|r l Hr _ IH]; intros before HG HB; cbn [map joined]; [exact Logic.I|]. rewrite Hr. split; [exact HB|]. apply IH; [exact HG|apply HG].
Qed.
Lemma map_all (g : gcb) l : Forall (fun r => class r = g) l -> map class l = repeat g (length l).
Proof. induction 1 as [|r l Hr _ IH]; [reflexivity|]. cbn. rewrite Hr, IH. reflexivity. Qed.
Lemma rev_repeat {A} (a : A) n : rev (repeat a n) = repeat a n.
Proof. induction n as [|n IH]; [reflexivity|]. cbn [repeat rev]. rewrite IH. clear. induction n as [|n IH]; [reflexivity|]. cbn. rewrite IH. reflexivity. Qed.

(** A glyph from its second rune on, and how it ends: not so that what follows
    can join it, unless it is marks. *)
Definition closed (l : list gcb) : Prop := exists g before, l = g :: before /\ match g with Other | Pict | Extend | SpacingMark | HV | HT | HLV | HLVT => True | RI => exists b, before = RI :: b | _ => False end.
Definition opens (g : gcb) : Prop := match g with Other | Pict | RI | HL | HLV | HLVT => True | _ => False end.
Definition whole (l : list gcb) : Prop := match l with [] => False | g :: l' => opens g /\ joined [g] l' /\ closed (rev l) end.

Lemma emoji_whole e : Emoji e -> whole (map class e) /\ pict_extend (rev (map class e)) = true.
Proof.
  assert (X : forall xs before, Forall (fun x => class x = Extend) xs -> pict_extend before = true -> joined before (map class xs) /\ pict_extend (rev (map class xs) ++ before) = true).
  { intros xs before HX HP. split.
    - apply (joined_all Extend); [exact HX|reflexivity|]. destruct before as [|[] before]; try discriminate; reflexivity.
    - rewrite (map_all Extend xs HX), rev_repeat. induction (length xs) as [|n IH]; [exact HP|exact IH]. }
  assert (CL : forall l, pict_extend l = true -> closed l).
  { intros [|g l] HP; [discriminate|]. exists g, l. split; [reflexivity|]. destruct g; try discriminate; exact Logic.I. }
  induction 1 as [p xs HP HX|e z p xs HE [IH1 IH2] HZ HP HX].
  - destruct (X xs [Pict] HX eq_refl) as [J P]. cbn [map rev whole]. rewrite HP. split; [|exact P]. split; [exact Logic.I|]. split; [exact J|]. apply CL, P.
  - rewrite map_app. cbn [map]. rewrite HZ, HP. destruct (X xs (Pict :: ZWJ :: rev (map class e)) HX eq_refl) as [J P].
    destruct (map class e) as [|g l] eqn:El; [destruct IH1|]. destruct IH1 as (O & JE & _).
    assert (PF : pict_extend (rev ((g :: l) ++ ZWJ :: Pict :: map class xs)) = true).
    { rewrite rev_app_distr. cbn [rev]. rewrite <- !app_assoc. cbn [app]. exact P. }
    split; [|exact PF]. cbn [app whole]. split; [exact O|]. split; [|apply CL; exact PF]. apply joined_app. split; [exact JE|]. cbn [rev] in IH2, J. cbn [joined].
    split; [destruct (rev l ++ [g]) as [|[] b]; try discriminate; reflexivity|]. split; [|exact J].
    cbn [breaks is_control]. rewrite IH2. reflexivity.
Qed.
Lemma last_all (g : gcb) l before : l <> [] -> Forall (fun r => class r = g) l -> exists b, rev (map class l) ++ before = g :: b.
Proof. intros HN HF. rewrite (map_all g l HF), rev_repeat. destruct l as [|x l]; [congruence|]. cbn. eauto. Qed.
Lemma hangul_tail vs ts before : Forall (fun r => class r = HV) vs -> Forall (fun r => class r = HT) ts -> (exists g b, before = g :: b /\ (g = HLV \/ g = HV)) ->
  joined before (map class (vs ++ ts)) /\ closed (rev (map class (vs ++ ts)) ++ before).
Proof.
  intros KV KT (g & b & -> & Hg). rewrite map_app, rev_app_distr, <- app_assoc. assert (JV : joined (g :: b) (map class vs)) by (apply (joined_all HV); [exact KV|reflexivity|destruct Hg as [-> | ->]; reflexivity]).
  assert (L : exists g' b', rev (map class vs) ++ g :: b = g' :: b' /\ (g' = HLV \/ g' = HV)).
  { destruct vs as [|v vs]; [exists g, b; auto|]. destruct (last_all HV (v :: vs) (g :: b) ltac:(discriminate) KV) as (b' & E). rewrite E. eauto. }
  destruct L as (g' & b' & E & Hg'). split.
  - apply joined_app. split; [exact JV|]. rewrite E. apply (joined_all HT); [exact KT|reflexivity|destruct Hg' as [-> | ->]; reflexivity].
  - rewrite E. destruct ts as [|t ts].
    + exists g', b'. split; [reflexivity|]. destruct Hg' as [-> | ->]; exact Logic.I.
    + destruct (last_all HT (t :: ts) (g' :: b') ltac:(discriminate) KT) as (b2 & E2). rewrite E2. exists HT, b2. split; [reflexivity|exact Logic.I].
Qed.
Lemma leads_then ls rest : Forall (fun r => class r = HL) ls -> rest <> [] ->
  (match rest with g :: _ => opens g | [] => False end \/ ls <> []) ->
  (match rest with g :: _ => breaks [HL] g = false | [] => True end) ->
  joined (match rest with g :: _ => g :: repeat HL (length ls) | [] => [] end) (tl rest) -> closed (rev rest ++ repeat HL (length ls)) -> whole (map class ls ++ rest).
Proof.
  intros HF HN HO HB HJ HC. destruct rest as [|g rest]; [congruence|]. rewrite (map_all HL ls HF). cbn [tl] in HJ.
  assert (HB' : forall b, breaks (HL :: b) g = false) by (intros b; destruct g; try discriminate HB; reflexivity).
  destruct (length ls) as [|n] eqn:En.
  - cbn [repeat app whole rev] in *. split; [destruct HO as [HO|HO]; [exact HO|destruct ls; [congruence|discriminate]]|]. split; [exact HJ|]. rewrite app_nil_r in HC. exact HC.
  - cbn [repeat app whole]. split; [exact Logic.I|]. split.
    + apply joined_app. split.
      * clear. assert (K : forall b, joined (HL :: b) (repeat HL n)) by (induction n as [|n IH]; intros b; cbn [repeat joined]; [exact Logic.I|]; split; [reflexivity|apply IH]). apply K.
      * rewrite rev_repeat. replace (repeat HL n ++ [HL]) with (HL :: repeat HL n) by (clear; induction n as [|n IH]; [reflexivity|cbn; rewrite <- IH; reflexivity]). cbn [joined]. split; [apply HB'|exact HJ].
    + change (HL :: repeat HL n ++ g :: rest) with (repeat HL (S n) ++ g :: rest). rewrite rev_app_distr, rev_repeat. exact HC.
Qed.
Lemma hangul_whole h : Hangul h -> whole (map class h).
Proof.
  intros [l ls v vs ts HF KV KT|ls x vs ts HF Hx KV KT|ls x ts HF Hx KT].
  - rewrite map_app. apply leads_then; [exact HF|discriminate|right; discriminate| | |]; inversion KV as [|? ? Hv KV']; subst.
    + cbn [app map]. rewrite Hv. reflexivity.
    + cbn [app map tl]. rewrite Hv. apply hangul_tail; [assumption|assumption|eexists _, _; split; [reflexivity|auto]].
    + cbn [app map rev]. rewrite Hv, <- app_assoc. apply hangul_tail; [assumption|assumption|eexists _, _; split; [reflexivity|auto]].
  - rewrite map_app. cbn [map]. rewrite Hx. apply leads_then; [exact HF|discriminate|left; exact Logic.I|reflexivity| |].
    + cbn [tl]. apply hangul_tail; [assumption|assumption|eexists _, _; split; [reflexivity|auto]].
    + cbn [rev]. rewrite <- app_assoc. apply hangul_tail; [assumption|assumption|eexists _, _; split; [reflexivity|auto]].
  - rewrite map_app. cbn [map]. rewrite Hx. apply leads_then; [exact HF|discriminate|left; exact Logic.I|reflexivity| |].
    + cbn [tl]. apply (joined_all HT); [exact KT|reflexivity|reflexivity].
    + cbn [rev]. rewrite <- app_assoc. cbn [app]. destruct ts as [|t ts].
      * eexists _, _. split; [reflexivity|exact Logic.I].
      * destruct (last_all HT (t :: ts) (HLVT :: repeat HL (length ls)) ltac:(discriminate) KT) as (b2 & E2). rewrite E2. exists HT, b2. split; [reflexivity|exact Logic.I].
Qed.
Lemma core_whole l : Core l -> whole (map class l).
Proof.
  intros [r Hr|e He|a b Ha Hb|h Hh].
  - cbn [map]. rewrite Hr. split; [exact Logic.I|]. split; [exact Logic.I|]. exists Other, []. auto.
  - apply emoji_whole, He.
  - cbn [map]. rewrite Ha, Hb. split; [exact Logic.I|]. split; [cbn; auto|]. exists RI, [RI]. split; [reflexivity|]. exists []. reflexivity.
  - apply hangul_whole, Hh.
Qed.
Lemma closed_solid l : closed l -> exists g b, l = g :: b /\ solid g = true.
Proof. intros (g & b & -> & K). exists g, b. split; [reflexivity|]. destruct g; (reflexivity || destruct K). Qed.
Lemma glyph_whole g : Glyph g -> whole (map class g).
Proof.
  intros (core & ms & HC & HM & ->). apply core_whole in HC. rewrite map_app. destruct (map class core) as [|x l] eqn:E; [destruct HC|]. destruct HC as (O & J & C). cbn [app whole].
  split; [exact O|]. destruct (closed_solid _ C) as (y & b & Ey & Hy). cbn [rev] in Ey. split.
  - apply joined_app. split; [exact J|]. rewrite Ey. apply joined_marks; assumption.
  - change (x :: l ++ map class ms) with ((x :: l) ++ map class ms). rewrite rev_app_distr. destruct ms as [|m ms _] using rev_ind; [exact C|]. rewrite map_app, rev_app_distr. cbn [map rev app].
    apply Forall_app in HM. destruct HM as [_ HM]. inversion HM as [|? ? Hm _]; subst. eexists _, _. split; [reflexivity|]. destruct Hm as [-> | ->]; exact Logic.I.
Qed.

(** ** Between glyphs *)
Definition evenly (before : list gcb) : Prop := Nat.even (ri_count before) = true.
Lemma glyph_even g before : Glyph g -> evenly before -> evenly (rev (map class g) ++ before).
Proof.
  intros HG HE. pose proof (glyph_whole g HG) as W. destruct HG as (core & ms & HC & HM & ->).
  destruct ms as [|m ms _] using rev_ind.
  - rewrite app_nil_r in *. destruct HC as [r Hr|e He|a b Ha Hb|h Hh].
    + cbn [map rev app]. rewrite Hr. reflexivity.
    + pose proof (proj2 (emoji_whole e He)) as P. destruct (rev (map class e)) as [|[] l]; try discriminate; reflexivity.
    + cbn [map rev app]. rewrite Ha, Hb. unfold evenly in *. cbn [ri_count]. exact HE.
    + assert (K : exists g b, rev (map class h) = g :: b /\ g <> RI).
      { clear -Hh. destruct h as [|x h _] using rev_ind; [inversion Hh as [? ? ? ? ? ? ? ? E|ls x vs ts ? ? ? ? E|ls x ts ? ? ? E]; try (destruct ls; discriminate); discriminate|].
        rewrite map_app, rev_app_distr. cbn [map rev app]. eexists _, _. split; [reflexivity|]. intros K. assert (HI : In x (h ++ [x])) by (apply in_or_app; right; left; reflexivity). revert HI.
        destruct Hh as [l ls v vs ts HF KV KT|ls y vs ts HF Hx KV KT|ls y ts HF Hx KT]; rewrite Forall_forall in *; intros HI.
        - apply in_app_or in HI. destruct HI as [HI|HI]; [apply HF in HI; congruence|]. apply in_app_or in HI. destruct HI as [HI|HI]; [apply KV in HI; congruence|apply KT in HI; congruence].
        - apply in_app_or in HI. destruct HI as [HI|[-> |HI]]; [apply HF in HI; congruence|congruence|]. apply in_app_or in HI. destruct HI as [HI|HI]; [apply KV in HI; congruence|apply KT in HI; congruence].
        - apply in_app_or in HI. destruct HI as [HI|[-> |HI]]; [apply HF in HI; congruence|congruence|apply KT in HI; congruence]. }
      destruct K as (g & b & -> & K). destruct g; try reflexivity. congruence.
  - rewrite app_assoc, map_app, rev_app_distr. cbn [map rev app]. apply Forall_app in HM. destruct HM as [_ HM]. inversion HM as [|? ? Hm _]; subst. destruct Hm as [-> | ->]; reflexivity.
Qed.
Lemma open_break l before g : closed l -> evenly (l ++ before) -> opens g -> breaks (l ++ before) g = true.
Proof.
  intros (a & b & -> & C) HE HO. cbn [app] in *. destruct a, g; try destruct C; try destruct HO; try reflexivity.
  unfold evenly in HE. unfold breaks. cbn [is_control]. rewrite <- Nat.negb_even, HE. reflexivity.
Qed.
Lemma glyphs_segments gl : Forall Glyph gl -> segments (concat gl) = gl /\ evenly (rev (map class (concat gl))).
Proof.
  induction gl as [|g gl IH] using rev_ind; intros HF; [split; reflexivity|]. apply Forall_app in HF. destruct HF as [HF Hg]. inversion Hg as [|? ? Hg' _]; subst.
  destruct (IH HF) as [S EV]. rewrite concat_app. cbn [concat]. rewrite app_nil_r, map_app, rev_app_distr. split; [|apply glyph_even; assumption].
  pose proof (glyph_whole g Hg') as W. destruct g as [|x g]; [destruct W|]. cbn [map whole] in W. destruct W as (O & J & _).
  rewrite segments_app.
  - rewrite S. f_equal. cbn [segments]. rewrite seg_joined by exact J. reflexivity.
  - clear IH. destruct gl as [|h gl _] using rev_ind; [reflexivity|]. apply Forall_app in HF. destruct HF as [_ Hh]. inversion Hh as [|? ? Hh' _]; subst. apply glyph_whole in Hh'.
    rewrite concat_app in EV |- *. cbn [concat] in EV |- *. rewrite app_nil_r, map_app, rev_app_distr in EV |- *. apply open_break; [|exact EV|exact O].
    destruct (map class h); [destruct Hh'|]. apply Hh'.
Qed.
Lemma glyphs_clusters gl : Forall Glyph gl -> IsSegmentation (concat gl) gl.
Proof. intros HF. destruct (glyphs_segments gl HF) as [S _]. pose proof (segments_IsSegmentation (concat gl)) as K. rewrite S in K. exact K. Qed.
Lemma glyphs_visited gl s gs : Forall Glyph gl -> EncodesText (concat gl) s -> Visits (NewGraphemes s) gs -> map Runes gs = gl.
Proof. intros HF HE HV. apply text_decode in HE. rewrite (Visits_new s gs HV), (proj1 HE). apply glyphs_segments, HF. Qed.

(** ** Width *)
Lemma core_no_intro l : Core l -> Forall (fun r => ~ Introducer r) l.
Proof.
  assert (N : forall r g, class r = g -> g <> Control -> ~ Introducer r) by (intros r g E K HI; apply class_intro in HI; congruence).
  assert (A : forall (g : gcb) l, g <> Control -> Forall (fun r => class r = g) l -> Forall (fun r => ~ Introducer r) l) by (intros g l0 K F; eapply Forall_impl; [|exact F]; intros r Hr; exact (N r g Hr K)).
  assert (EM : forall e, Emoji e -> Forall (fun r => ~ Introducer r) e).
  { induction 1 as [p xs HP HX|e z p xs HE IH HZ HP HX].
    - constructor; [eapply N; [exact HP|discriminate]|]. eapply A; [|exact HX]. discriminate.
    - apply Forall_app. split; [exact IH|]. constructor; [eapply N; [exact HZ|discriminate]|]. constructor; [eapply N; [exact HP|discriminate]|]. eapply A; [|exact HX]. discriminate. }
  intros [r Hr|e He|a b Ha Hb|h Hh].
  - constructor; [eapply N; [exact Hr|discriminate]|constructor].
  - apply EM, He.
  - constructor; [eapply N; [exact Ha|discriminate]|]. constructor; [eapply N; [exact Hb|discriminate]|constructor].
  - destruct Hh as [l0 ls v vs ts HF KV KT|ls x vs ts HF Hx KV KT|ls x ts HF Hx KT].
    + apply Forall_app. split; [eapply A; [|exact HF]; discriminate|]. apply Forall_app. split; [eapply A; [|exact KV]; discriminate|eapply A; [|exact KT]; discriminate].
    + apply Forall_app. split; [eapply A; [|exact HF]; discriminate|]. constructor; [eapply N; [exact Hx|discriminate]|]. apply Forall_app. split; [eapply A; [|exact KV]; discriminate|eapply A; [|exact KT]; discriminate].
    + apply Forall_app. split; [eapply A; [|exact HF]; discriminate|]. constructor; [eapply N; [exact Hx|discriminate]|]. eapply A; [|exact KT]; discriminate.
Qed.
Lemma glyphs_width c gl s : Forall (Shown c) gl -> EncodesText (concat gl) s ->
  StringWidth c s = zsum (map (fun g => RuneWidth c (hd 0 g)) gl) /\ vwidth c s = u16 (zsum (map (fun g => RuneWidth c (hd 0 g)) gl)).
Proof.
  intros HF HE. apply text_decode in HE. destruct HE as [HE _]. assert (HG : Forall Glyph gl) by (eapply Forall_impl; [|exact HF]; intros g [K _]; exact K).
  assert (K : StringWidth c s = zsum (map (fun g => RuneWidth c (hd 0 g)) gl)).
  { rewrite StringWidth_swidth, HE. unfold swidth. rewrite (proj1 (glyphs_segments gl HG)). f_equal. apply map_ext_in. intros g Hg. rewrite Forall_forall in HF. destruct (HF g Hg) as (_ & r & l & -> & Hr).
    unfold cluster_width. cbn [cluster_width_from hd]. destruct (Z.gtb_spec (RuneWidth c r) 0); [reflexivity|lia]. }
  split; [exact K|]. unfold vwidth. rewrite raw_no_intro, K; [reflexivity|].
  rewrite HE. apply Forall_concat. eapply Forall_impl; [|exact HG]. intros g (core & ms & HC & HM & ->). apply Forall_app. split; [apply core_no_intro, HC|].
  eapply Forall_impl; [|exact HM]. exact mark_no_intro.
Qed.

(** ** In tables *)
Section Cells.
Context {Item Val E : Type}.
Lemma same_firsts c s s' : SameFirsts c s s' -> vwidth c s' = vwidth c s.
Proof. intros [|gl gl' t t' HF HF' HE HE' HM]; [reflexivity|]. rewrite (proj2 (glyphs_width c gl t HF HE)), (proj2 (glyphs_width c gl' t' HF' HE')). do 2 f_equal. rewrite <- !(map_map (hd 0) (RuneWidth c)), HM. reflexivity. Qed.
Lemma merge_glyphs c (t : Table Item Val E) m fuel ok items items' maxWidth sep compact :
  Forall (fun mc => match mc with Some col => BuiltIn c col | None => True end) (Columns (tSpec t)) -> SameFirstItems c items items' ->
  exists forms, Forall (Forall (Proper Blank sep items)) forms /\
    written (merge m fuel c t ok items maxWidth sep compact) = map (fill items) forms /\ written (merge m fuel c t ok items' maxWidth sep compact) = map (fill items') forms /\
    stop (merge m fuel c t ok items' maxWidth sep compact) = stop (merge m fuel c t ok items maxWidth sep compact).
Proof.
  intros HB [HL HI]. destruct (merge_template Blank c t m fuel ok items maxWidth sep compact (builtin_columns c t HB)) as (T & st & TP & TE). exists T. split; [exact TP|].
  rewrite (TE items) by (split; [reflexivity|]; intros i; destruct (fiGet items i); reflexivity). rewrite (TE items'); [auto|].
  split; [exact HL|]. intros i. specialize (HI i). destruct (fiGet items i) as [row|e|p], (fiGet items' i) as [row'|e'|p']; auto.
  induction HI as [|s s' row row' Hs _ IH]; [reflexivity|]. cbn [map]. rewrite IH, (same_firsts c s s' Hs). reflexivity.
Qed.
End Cells.
