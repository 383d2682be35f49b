(** * PropRune: properties of runes, tables and conditions (C14-C19, C21). *)
From Verif Require Import GoBase IntervalSpec Uniseg Runewidth RuneWidthData GraphemeData
  EastAsianData EmojiData PropConst RunewidthSpec ConditionSpec RuneTheory RunewidthProofs
  StringWidthProofs EnvProofs.
Local Open Scope Z_scope.

(** ** C14: property lookup equals table membership *)

Theorem C14_property_lookup : forall d r, Sorted (spans d) ->
  (exists e, propertySearch d r = Some e) /\ forall p, property d r = p <-> HasProperty d r p.
Proof. exact lookup_total. Qed.
Print Assumptions C14_property_lookup.

Theorem C14_package_tables_sorted : Forall (fun d => Sorted (spans d))
  [graphemeCodePoints; eastAsianWidth; emojiPresentation].
Proof. exact package_dicts_sorted. Qed.
Print Assumptions C14_package_tables_sorted.

Example C14_example : property graphemeCodePoints 0x1F1E6 = prRegionalIndicator
  /\ property graphemeCodePoints 0x41 = 0.
Proof. vm_compute. auto. Qed.

(** ** C15: inTable equals interval membership *)

Theorem C15_inTable : forall t r, t <> [] -> Sorted t ->
  (exists b, inTable_go r t = Some b) /\ (inTable r t = true <-> Member r t).
Proof. exact inTable_total. Qed.
Print Assumptions C15_inTable.

Theorem C15_package_tables_compact : Forall (fun t => t <> [] /\ Compact t)
  [tbl_private; tbl_nonprint; tbl_combining; tbl_doublewidth;
   tbl_ambiguous; tbl_narrow; tbl_neutral; tbl_emoji].
Proof. exact package_tables_compact. Qed.
Print Assumptions C15_package_tables_compact.

Example C15_example : inTable 0x3042 tbl_doublewidth = true /\ inTable 0x41 tbl_doublewidth = false.
Proof. vm_compute. auto. Qed.

(** ** C16: RuneWidth is total with values 0, 1 or 2 *)

Theorem C16_RuneWidth_total : forall c r, Reachable c ->
  (RuneWidth c r = 0 \/ RuneWidth c r = 1 \/ RuneWidth c r = 2)
  /\ (r < 0 \/ 0x10FFFF < r -> RuneWidth c r = 0)
  /\ (combinedLut c <> [] -> 0 <= r <= 0x10FFFF ->
      (Z.to_nat (Z.shiftr r 1) < length (combinedLut c))%nat).
Proof. exact RuneWidth_total. Qed.
Print Assumptions C16_RuneWidth_total.

Example C16_example : Reachable
  {| combinedLut := combinedLut (CreateLUT (plainCondition true false));
     EastAsianWidth := false; StrictEmojiNeutral := true |}
  /\ map (RuneWidth (plainCondition false true)) [0x41; 0x300; 0x4E00; -5] = [1; 0; 2; 0].
Proof. split; [apply r_flags, r_lut, r_fresh | vm_compute; reflexivity]. Qed.

(** ** C17: the fast path of RuneWidth agrees with the tables *)

Theorem C17_RuneWidth_by_tables : forall st r, 0 <= r <= 0x10FFFF ->
  (forall w, RuneWidth (plainCondition false st) r = w <-> WidthPlain r w)
  /\ (forall w, RuneWidth (plainCondition true st) r = w <-> WidthEastAsian st r w).
Proof. exact RuneWidth_by_tables. Qed.
Print Assumptions C17_RuneWidth_by_tables.

Example C17_example :
  RuneWidth (plainCondition false true) 0xA1 = 1 /\ RuneWidth (plainCondition true true) 0xA1 = 2
  /\ RuneWidth (plainCondition true true) 0x1F170 = 2 /\ RuneWidth (plainCondition false true) 0x1F600 = 2
  /\ RuneWidth (plainCondition true true) 0x203C = 1 /\ RuneWidth (plainCondition true false) 0x203C = 2.
Proof. vm_compute. repeat split. Qed.

(** ** C18: the lookup table never changes a width *)

Theorem C18_LUT_RuneWidth : forall c r, Reachable c ->
  RuneWidth (CreateLUT c) r =
  RuneWidth (plainCondition (EastAsianWidth c) (StrictEmojiNeutral c)) r.
Proof. exact CreateLUT_transparent. Qed.
Print Assumptions C18_LUT_RuneWidth.

Theorem C18_LUT_StringWidth : forall c s, Reachable c ->
  StringWidth (CreateLUT c) s =
  StringWidth (plainCondition (EastAsianWidth c) (StrictEmojiNeutral c)) s.
Proof. exact CreateLUT_StringWidth. Qed.
Print Assumptions C18_LUT_StringWidth.

(** A condition whose table was built under other flags: rebuilding repairs it. *)
Example C18_example : Reachable
  {| combinedLut := combinedLut (CreateLUT (plainCondition false true));
     EastAsianWidth := true; StrictEmojiNeutral := true |}.
Proof. apply r_flags, r_lut, r_fresh. Qed.

(** ** C19: environment handling keeps the default condition consistent *)

Theorem C19_environment : forall ops r,
  let g := fold_left env_step ops globals0 in
  gEastAsianWidth g = last_choice ops /\
  EastAsianWidth (DefaultCondition g) = last_choice ops /\
  RuneWidth (DefaultCondition g) r =
  RuneWidth {| combinedLut := []; EastAsianWidth := last_choice ops;
               StrictEmojiNeutral := true |} r.
Proof. exact env_history. Qed.
Print Assumptions C19_environment.

(** Conditions made by NewCondition measure as the default one. *)
Theorem C19_new_condition : forall ops r,
  let g := fold_left env_step ops globals0 in
  NewCondition g = plainCondition (last_choice ops) true /\ RuneWidth (NewCondition g) r = RuneWidth (DefaultCondition g) r.
Proof. exact new_condition. Qed.
Print Assumptions C19_new_condition.

(** handleEnv from any state, however the client has changed the variables of
    the package. *)
Theorem C19_any_state : forall g env loc r,
  let g' := handleEnv env loc g in
  gEastAsianWidth g' = env_choice env loc /\ EastAsianWidth (DefaultCondition g') = env_choice env loc
  /\ StrictEmojiNeutral (DefaultCondition g') = StrictEmojiNeutral (DefaultCondition g)
  /\ gStrictEmojiNeutral g' = gStrictEmojiNeutral g
  /\ (EastAsianWidth (DefaultCondition g) = env_choice env loc -> DefaultCondition g' = DefaultCondition g)
  /\ (EastAsianWidth (DefaultCondition g) <> env_choice env loc ->
      RuneWidth (DefaultCondition g') r = RuneWidth (plainCondition (env_choice env loc) (StrictEmojiNeutral (DefaultCondition g))) r).
Proof. exact any_state. Qed.
Print Assumptions C19_any_state.

Example C19_example :
  last_choice [OpEnv [x31] false; OpLUT; OpEnv [] true; OpEnv [x30] true; OpLUT] = false
  /\ last_choice [OpLUT; OpEnv [x30] true; OpLUT; OpEnv [] true] = true.
Proof. vm_compute. auto. Qed.

(** ** C21: East Asian mode never makes a rune or string narrower *)

Theorem C21_rune : forall st st' r,
  RuneWidth (plainCondition false st) r <= RuneWidth (plainCondition true st') r.
Proof. exact RuneWidth_mono. Qed.
Print Assumptions C21_rune.

Theorem C21_string : forall st st' s,
  StringWidth (plainCondition false st) s <= StringWidth (plainCondition true st') s.
Proof. exact StringWidth_mono. Qed.
Print Assumptions C21_string.

(** The bytes of U+00A1 U+00A1: wider by two. *)
Example C21_example :
  StringWidth (plainCondition false true) [xc2; xa1; xc2; xa1] = 2
  /\ StringWidth (plainCondition true true) [xc2; xa1; xc2; xa1] = 4.
Proof. vm_compute. auto. Qed.
