(** * GlyphCases: emoji, flags, syllables; sequences that are not one character. *)
From Coq Require Import Strings.String.
From Coq Require Import ZifyBool ZifyNat.
From Verif Require Import GoBase Utf8 Utf8Spec Utf8Theory Uniseg GraphemeSpec SegmentSpec UnisegProofs TextSpec Runewidth ConditionSpec Width Locale AlignSpec Table TableContract TableExamples
  Merge MergeSpec MergeExamples TemplateSpec TemplateProofs MarkSpec MarkCases GlyphSpec GlyphProofs.
Local Open Scope Z_scope.

(** Man, ZWJ, woman with a skin tone, ZWJ, girl; the flag of Japan, twice; 각 in
    three jamo; 가 and a final consonant; a keycap; é in two runes. *)
Definition family : list Z := [0x1F468; 0x200D; 0x1F469; 0x1F3FD; 0x200D; 0x1F467].
Definition japan : list Z := [0x1F1EF; 0x1F1F5].
Definition glyphs : list (list Z) := [family; japan; japan; [0x1100; 0x1161; 0x11A8]; [0xAC00; 0x11A8]; [0x31; 0xFE0F; 0x20E3]; [0x65; 0x301]].
Lemma no_marks g : Core g -> Glyph g.
Proof. intros HC. exists g, []. split; [exact HC|]. split; [constructor|]. symmetry. apply app_nil_r. Qed.
Lemma family_glyph : Glyph family.
Proof.
  apply no_marks, co_emoji. change family with (([0x1F468] ++ 0x200D :: 0x1F469 :: [0x1F3FD]) ++ 0x200D :: 0x1F467 :: []).
  assert (X : class 0x1F3FD = Extend) by (vm_compute; reflexivity).
  apply em_join; [|vm_compute; reflexivity|vm_compute; reflexivity|constructor]. apply em_join; [|vm_compute; reflexivity|vm_compute; reflexivity|constructor; [exact X|constructor]].
  apply em_one; [vm_compute; reflexivity|constructor].
Qed.
Lemma glyphs_shown : Forall (Shown exC) glyphs.
Proof.
  assert (S : forall r l, Glyph (r :: l) -> (0 <? RuneWidth exC r) = true -> Shown exC (r :: l)) by (intros r l G K; split; [exact G|]; exists r, l; split; [reflexivity|lia]).
  assert (A : forall (g : gcb) r, class r = g -> Forall (fun r => class r = g) [r]) by (intros; repeat constructor; assumption).
  assert (F : Glyph japan) by (apply no_marks, co_flag; vm_compute; reflexivity).
  assert (M : forall r, (match class r with Extend | SpacingMark => true | _ => false end) = true -> Mark r) by (intros r K; unfold Mark; destruct (class r); auto; discriminate).
  unfold glyphs. constructor; [apply S; [exact family_glyph|vm_compute; reflexivity]|]. constructor; [apply S; [exact F|vm_compute; reflexivity]|]. constructor; [apply S; [exact F|vm_compute; reflexivity]|].
  constructor; [apply S; [|vm_compute; reflexivity]|constructor; [apply S; [|vm_compute; reflexivity]|constructor; [apply S; [|vm_compute; reflexivity]|constructor; [apply S; [|vm_compute; reflexivity]|constructor]]]].
  - apply no_marks, co_hangul. apply (ha_parts 0x1100 [] 0x1161 [] [0x11A8]); apply A; vm_compute; reflexivity.
  - apply no_marks, co_hangul. apply (ha_lv [] 0xAC00 [] [0x11A8]); [constructor|vm_compute; reflexivity|constructor|apply A; vm_compute; reflexivity].
  - exists [0x31], [0xFE0F; 0x20E3]. split; [apply co_char; vm_compute; reflexivity|]. split; [|reflexivity]. constructor; [apply M; vm_compute; reflexivity|]. constructor; [apply M; vm_compute; reflexivity|constructor].
  - exists [0x65], [0x301]. split; [apply co_char; vm_compute; reflexivity|]. split; [|reflexivity]. constructor; [apply M; vm_compute; reflexivity|constructor].
Qed.
Lemma scalars rs : forallb (fun r => (0 <=? r) && (r <? 0xD800) || (0xE000 <=? r) && (r <=? 0x10FFFF)) rs = true -> Forall Scalar rs.
Proof. intros K. apply Forall_forall. intros r Hr. rewrite forallb_forall in K. specialize (K r Hr). unfold Scalar. lia. Qed.
Lemma glyphs_example : Forall (Shown exC) glyphs /\ EncodesText (List.concat glyphs) (List.concat (map EncodeRune (List.concat glyphs)))
  /\ zsum (map (fun g => RuneWidth exC (hd 0 g)) glyphs) = 10 /\ StringWidth exC (List.concat (map EncodeRune family)) = 2.
Proof. split; [exact glyphs_shown|]. split; [|vm_compute; auto]. apply encoded; [apply scalars; vm_compute; reflexivity|reflexivity]. Qed.
Definition familyText : str := List.concat (map EncodeRune family).
Definition manText : str := EncodeRune 0x1F468.
Definition gRows : list (list str) := [[lit "a"%string; familyText]; [lit "bc"%string; lit "3"%string]].
Definition gRows' : list (list str) := [[lit "a"%string; manText]; [lit "bc"%string; lit "3"%string]].
Lemma glyph_rows_example : SameFirstItems exC (listOf gRows) (listOf gRows')
  /\ Forall (fun mc => match mc with Some col => BuiltIn exC col | None => True end) (Columns (tSpec mTable))
  /\ written (merge H 40 exC mTable (fun _ => true) (listOf gRows) 8 mSep true) = [lit "a      "%string ++ familyText ++ [x0a]; lit "bc      3"%string ++ [x0a]]
  /\ written (merge H 40 exC mTable (fun _ => true) (listOf gRows') 8 mSep true) = [lit "a      "%string ++ manText ++ [x0a]; lit "bc      3"%string ++ [x0a]].
Proof.
  split; [|split; [apply merged_example|vm_compute; auto]]. split; [reflexivity|]. intros i. unfold listOf, fiGet, at_index. destruct (i <? 0); [reflexivity|].
  destruct (Z.to_nat i) as [|[|n]]; cbn [nth_error gRows gRows'].
  - constructor; [apply sf_same|]. constructor; [|constructor]. apply (sf_glyphs exC [family] [[0x1F468]]).
    + constructor; [|constructor]. pose proof glyphs_shown as K. inversion K; assumption.
    + constructor; [|constructor]. split; [apply no_marks, co_emoji, em_one; [vm_compute; reflexivity|constructor]|]. exists 0x1F468, []. split; [reflexivity|]. vm_compute. reflexivity.
    + apply encoded; [apply scalars; vm_compute; reflexivity|reflexivity].
    + apply encoded; [apply scalars; vm_compute; reflexivity|reflexivity].
    + reflexivity.
  - repeat (constructor; [apply sf_same|]). constructor.
  - destruct n; reflexivity.
Qed.

(** ** What is not one character *)
(** Half flags, put side by side, pair up: the pieces of a text cut between two
    regional indicators are not its clusters. *)
Lemma half_flags_refuted : exists gl, Forall (fun g => exists a, g = [a] /\ class a = RI) gl /\ ~ IsSegmentation (List.concat gl) gl.
Proof.
  exists [[0x1F1EF]; [0x1F1F5]]. split; [constructor; [|constructor; [|constructor]]; eexists; (split; [reflexivity|vm_compute; reflexivity])|].
  intros K. pose proof (IsSegmentation_unique _ _ _ K (segments_IsSegmentation _)) as E. vm_compute in E. discriminate.
Qed.
(** ZWJ does not join letters, nor pictographs after a spacing mark. *)
Lemma zwj_refuted : (exists a z b, class z = ZWJ /\ class a = Other /\ class b = Other /\ ~ IsSegmentation [a; z; b] [[a; z; b]])
  /\ (exists p m z q, class p = Pict /\ Mark m /\ class z = ZWJ /\ class q = Pict /\ ~ IsSegmentation [p; m; z; q] [[p; m; z; q]]).
Proof.
  split.
  - exists 0x61, 0x200D, 0x62. repeat (split; [vm_compute; reflexivity|]). intros K. pose proof (IsSegmentation_unique _ _ _ K (segments_IsSegmentation _)) as E. vm_compute in E. discriminate.
  - exists 0x1F468, 0x903, 0x200D, 0x1F469. split; [vm_compute; reflexivity|]. split; [right; vm_compute; reflexivity|]. repeat (split; [vm_compute; reflexivity|]).
    intros K. pose proof (IsSegmentation_unique _ _ _ K (segments_IsSegmentation _)) as E. vm_compute in E. discriminate.
Qed.
(** The width is the first rune's, whatever the others ask for: a heart takes one
    cell with the selector for emoji presentation too, and a flag takes one. *)
Lemma presentation_refuted : exists c g g', Reachable c /\ Shown c g /\ Shown c g' /\ In 0xFE0F g /\ (forall r, In r g' -> class r = RI) /\
  StringWidth c (List.concat (map EncodeRune g)) <> 2 /\ StringWidth c (List.concat (map EncodeRune g')) <> 2.
Proof.
  exists exC, [0x2764; 0xFE0F], japan. split; [apply r_fresh|]. split; [|split; [|split; [|split; [|split]]]].
  - split; [apply no_marks, co_emoji, em_one; [vm_compute; reflexivity|constructor; [vm_compute; reflexivity|constructor]]|]. exists 0x2764, [0xFE0F]. split; [reflexivity|]. vm_compute. reflexivity.
  - pose proof glyphs_shown as K. inversion K as [|? ? _ K2]; subst. inversion K2; assumption.
  - right. left. reflexivity.
  - intros r [<-|[<-|[]]]; vm_compute; reflexivity.
  - vm_compute. discriminate.
  - vm_compute. discriminate.
Qed.
