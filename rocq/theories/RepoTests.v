(** * RepoTests: the unit tests of the repository, evaluated in the model.

    Not properties: a check that the model computes what the repository's own
    tests expect (table_test.go, runewidth/runewidth_test.go,
    runewidth/runewidth_posix_test.go).  The sums over all code points are
    compared by tools/checksums.py. *)
From Coq Require Import Strings.String.
From Verif Require Import GoBase Utf8 RuneWidthData Uniseg Runewidth ConditionSpec Width Locale Table.
Local Open Scope Z_scope.

(** The state the tests run in: no environment variable, no East Asian locale. *)
Definition testGlobals : Globals := handleEnv [] false globals0.
Definition testC : Condition := DefaultCondition testGlobals.

(** table_test.go:22-57. *)
Definition visualWidth_tests : list (Z * str) := [
  (8, [xe3; x81; x95; xe3; x81; xae; x2e; x70; x6e; x67]);
  (8, [x1b; x5b; x33; x38; x3b; x35; x3b; x31; x6d; xe3; x81; x95; xe3; x81; xae; x1b; x5b; x33; x38; x3b; x35; x3b; x32; x6d; x2e; x70; x6e; x67; x1b; x5b; x30; x6d]);
  (8, [xe3; x81; x9f; xe3; x81; x8d; x2e; x70; x6e; x67]);
  (10, [xe3; x81; x84; xe3; x81; x96; xe3; x82; x8f; x2e; x70; x6e; x67]);
  (10, [x1b; x5b; x33; x38; x3b; x35; x3b; x31; x35; x6d; xe3; x81; x84; xe3; x81; x96; xe3; x82; x8f; x2e; x70; x6e; x67; x1b; x5b; x30; x6d]);
  (10, [xe3; x81; x86; xe3; x82; x89; xe3; x81; xb9; x2e; x70; x6e; x67]);
  (10, [xe3; x81; x8b; xe3; x81; x9a; xe3; x81; x8a; x2e; x70; x6e; x67]);
  (10, [xe3; x81; x8d; xe3; x81; x99; xe3; x81; x8e; x2e; x70; x6e; x67]);
  (10, [xe3; x81; x95; xe3; x82; x8f; xe3; x81; xa0; x2e; x70; x6e; x67]);
  (10, [xe3; x81; x98; xe3; x81; xa8; xe3; x81; x86; x2e; x70; x6e; x67]);
  (10, [xe3; x81; x9d; xe3; x81; x86; xe3; x81; xa0; x2e; x70; x6e; x67]);
  (10, [xe3; x81; xa4; xe3; x81; xb0; xe3; x81; x95; x2e; x70; x6e; x67]);
  (10, [xe3; x81; xab; xe3; x81; xa3; xe3; x81; x9f; x2e; x70; x6e; x67]);
  (10, [xe3; x81; xbe; xe3; x81; x95; xe3; x81; x8a; x2e; x70; x6e; x67]);
  (10, [xe3; x81; xbf; xe3; x81; x95; xe3; x81; x8d; x2e; x70; x6e; x67]);
  (10, [xe3; x81; xbf; xe3; x81; x99; xe3; x81; x8e; x2e; x70; x6e; x67]);
  (12, [xe3; x81; x84; xe3; x81; x97; xe3; x81; x96; xe3; x81; x8d; x2e; x70; x6e; x67]);
  (12, [x1b; x5b; x33; x38; x3b; x35; x3b; x33; x6d; xe3; x81; x84; xe3; x81; x97; xe3; x81; x96; xe3; x81; x8d; x1b; x5b; x34; x38; x3b; x35; x3b; x34; x6d; x2e; x70; x6e; x67; x1b; x5b; x30; x6d]);
  (12, [xe3; x81; x9d; xe3; x82; x8a; xe3; x81; xbe; xe3; x81; xa1; x2e; x70; x6e; x67]);
  (12, [xe3; x81; x9f; xe3; x81; x8b; xe3; x81; x99; xe3; x81; x8e; x2e; x70; x6e; x67]);
  (12, [xe3; x81; xb2; xe3; x82; x85; xe3; x81; x86; xe3; x81; x8c; x2e; x70; x6e; x67]);
  (12, [xe3; x81; xbe; xe3; x81; xa4; xe3; x82; x84; xe3; x81; xbe; x2e; x70; x6e; x67]);
  (12, [xe3; x82; x82; xe3; x83; xaa; xe3; x81; x95; xe3; x81; x8d; x2e; x70; x6e; x67]);
  (14, [xe3; x82; x8f; xe3; x81; x8b; xe3; x81; x97; xe3; x81; xbe; xe3; x81; xa5; x2e; x70; x6e; x67]);
  (14, [xe3; x82; x8f; xe3; x81; x8b; xe3; x81; xb0; xe3; x82; x84; xe3; x81; x97; x2e; x70; x6e; x67])].
Example Test_visualWidth : map (fun x => vwidth testC (snd x)) visualWidth_tests = map fst visualWidth_tests.
Proof. vm_compute. reflexivity. Qed.

(** table_test.go:59-84. *)
Definition align_tests : list ((Condition -> str -> Z -> str) * Z * str * str) := [
  (AlignmentLeft, 11, [xe3; x81; x95; xe3; x81; xae; x2e; x70; x6e; x67],
    [xe3; x81; x95; xe3; x81; xae; x2e; x70; x6e; x67; x20; x20; x20]);
  (AlignmentLeft, 11, [x1b; x5b; x33; x38; x3b; x35; x3b; x31; x6d; xe3; x81; x95; xe3; x81; xae; x1b; x5b; x33; x38; x3b; x35; x3b; x32; x6d; x1b; x5b; x33; x38; x3b; x35; x3b; x33; x6d; x1b; x5b; x33; x38; x3b; x35; x3b; x34; x6d; x2e; x70; x6e; x67; x1b; x5b; x30; x6d],
    [x1b; x5b; x33; x38; x3b; x35; x3b; x31; x6d; xe3; x81; x95; xe3; x81; xae; x1b; x5b; x33; x38; x3b; x35; x3b; x32; x6d; x1b; x5b; x33; x38; x3b; x35; x3b; x33; x6d; x1b; x5b; x33; x38; x3b; x35; x3b; x34; x6d; x2e; x70; x6e; x67; x1b; x5b; x30; x6d; x20; x20; x20]);
  (AlignmentRight, 11, [xe3; x81; x95; xe3; x81; xae; x2e; x70; x6e; x67],
    [x20; x20; x20; xe3; x81; x95; xe3; x81; xae; x2e; x70; x6e; x67]);
  (AlignmentRight, 11, [x1b; x5b; x33; x38; x3b; x35; x3b; x31; x6d; xe3; x81; x95; xe3; x81; xae; x1b; x5b; x33; x38; x3b; x35; x3b; x32; x6d; x1b; x5b; x33; x38; x3b; x35; x3b; x33; x6d; x1b; x5b; x33; x38; x3b; x35; x3b; x34; x6d; x2e; x70; x6e; x67; x1b; x5b; x30; x6d],
    [x20; x20; x20; x1b; x5b; x33; x38; x3b; x35; x3b; x31; x6d; xe3; x81; x95; xe3; x81; xae; x1b; x5b; x33; x38; x3b; x35; x3b; x32; x6d; x1b; x5b; x33; x38; x3b; x35; x3b; x33; x6d; x1b; x5b; x33; x38; x3b; x35; x3b; x34; x6d; x2e; x70; x6e; x67; x1b; x5b; x30; x6d]);
  (AlignmentCenter, 11, [xe3; x81; x95; xe3; x81; xae; x2e; x70; x6e; x67],
    [x20; x20; xe3; x81; x95; xe3; x81; xae; x2e; x70; x6e; x67; x20]);
  (AlignmentCenter, 11, [x1b; x5b; x33; x38; x3b; x35; x3b; x31; x6d; xe3; x81; x95; xe3; x81; xae; x1b; x5b; x33; x38; x3b; x35; x3b; x32; x6d; x1b; x5b; x33; x38; x3b; x35; x3b; x33; x6d; x1b; x5b; x33; x38; x3b; x35; x3b; x34; x6d; x2e; x70; x6e; x67; x1b; x5b; x30; x6d],
    [x20; x20; x1b; x5b; x33; x38; x3b; x35; x3b; x31; x6d; xe3; x81; x95; xe3; x81; xae; x1b; x5b; x33; x38; x3b; x35; x3b; x32; x6d; x1b; x5b; x33; x38; x3b; x35; x3b; x33; x6d; x1b; x5b; x33; x38; x3b; x35; x3b; x34; x6d; x2e; x70; x6e; x67; x1b; x5b; x30; x6d; x20])].
Example TestAlign : map (fun x => let '(f, w, s, _) := x in f testC s w) align_tests = map snd align_tests.
Proof. vm_compute. reflexivity. Qed.

(** runewidth/runewidth_test.go:41-67: how many runes a table holds. *)
Definition held (t : list (Z * Z)) : Z := zsum (map (fun e => snd e - fst e + 1) t).
Example TestTableCounts : map held [tbl_private; tbl_nonprint; tbl_combining; tbl_doublewidth; tbl_ambiguous; tbl_emoji; tbl_narrow; tbl_neutral] = [137468; 2143; 465; 182440; 138739; 3535; 111; 27333].
Proof. vm_compute. reflexivity. Qed.

(** runewidth/runewidth_test.go:143-174, TestSorted. *)
Fixpoint compact (t : list (Z * Z)) : bool :=
  match t with
  | [] => true
  | (a, b) :: rest => (0 <=? a) && (a <=? b) && (b <=? 0x10FFFF)
      && match rest with [] => true | (a', _) :: _ => b + 1 <? a' end && compact rest
  end.
Example TestSorted : forallb compact [tbl_private; tbl_nonprint; tbl_combining; tbl_doublewidth; tbl_ambiguous; tbl_emoji; tbl_narrow; tbl_neutral] = true.
Proof. vm_compute. reflexivity. Qed.

(** runewidth/runewidth_test.go:176-232. *)
Definition runewidth_tests : list (Z * Z * Z * Z) := [
  (0x4e16, 2, 2, 2);
  (0x754c, 2, 2, 2);
  (0xff7e, 1, 1, 1);
  (0xff76, 1, 1, 1);
  (0xff72, 1, 1, 1);
  (0x2606, 1, 2, 2);
  (0x263a, 1, 1, 2);
  (0x263b, 1, 1, 2);
  (0x2665, 1, 2, 2);
  (0x2666, 1, 1, 2);
  (0x2663, 1, 2, 2);
  (0x2660, 1, 2, 2);
  (0x2642, 1, 2, 2);
  (0x2640, 1, 2, 2);
  (0x266a, 1, 2, 2);
  (0x266b, 1, 1, 2);
  (0x263c, 1, 1, 2);
  (0x2195, 1, 2, 2);
  (0x203c, 1, 1, 2);
  (0x2194, 1, 2, 2);
  (0x0, 0, 0, 0);
  (0x1, 0, 0, 0);
  (0x300, 0, 0, 0);
  (0x2028, 0, 0, 0);
  (0x2029, 0, 0, 0);
  (0x61, 1, 1, 1);
  (0x27e6, 1, 1, 1);
  (0x1f441, 1, 1, 2)].
Example TestRuneWidth :
  forallb (fun x => let '(r, out, ea, nse) := x in
    (RuneWidth (plainCondition false true) r =? out) && (RuneWidth (plainCondition true true) r =? ea)
    && (RuneWidth (plainCondition true false) r =? nse)) runewidth_tests = true.
Proof. vm_compute. reflexivity. Qed.

(** runewidth/runewidth_test.go:234-258. *)
Definition stringwidth_tests : list (str * Z * Z) := [
  ([xe2; x96; xa0; xe3; x88; xb1; xe3; x81; xae; xe4; xb8; x96; xe7; x95; x8c; xe2; x91; xa0], 10, 12);
  ([xe3; x82; xb9; xe3; x82; xbf; xe3; x83; xbc; xe2; x98; x86], 7, 8);
  ([xe3; x81; xa4; xe3; x81; xae; xe3; x81; xa0; xe2; x98; x86; x48; x49; x52; x4f], 11, 12)].
Example TestStringWidth :
  map (fun x => let '(s, _, _) := x in (StringWidth (plainCondition false true) s, StringWidth (plainCondition true true) s)) stringwidth_tests
  = map (fun x => let '(_, out, ea) := x in (out, ea)) stringwidth_tests.
Proof. vm_compute. reflexivity. Qed.

(** runewidth/runewidth_test.go:260-265 and :267-277. *)
Example TestStringWidthInvalid : StringWidth_default testGlobals [xe3; x81; x93; xe3; x82; x93; xe3; x81; xab; xe3; x81; xa1; xe3; x82; x8f; x00; xe4; xb8; x96; xe7; x95; x8c] = 14.
Proof. vm_compute. reflexivity. Qed.
Example TestEnv : StringWidth_default (handleEnv (lit "0"%string) true testGlobals) [xe2; x94; x82] = 1.
Proof. vm_compute. reflexivity. Qed.

(** runewidth/runewidth_test.go:279-302. *)
Definition joiner_tests : list (str * Z) := [
  ([xf0; x9f; x91; xa9], 2);
  ([xf0; x9f; x91; xa9; xe2; x80; x8d], 2);
  ([xf0; x9f; x91; xa9; xe2; x80; x8d; xf0; x9f; x8d; xb3], 2);
  ([xe2; x80; x8d; xf0; x9f; x8d; xb3], 2);
  ([xf0; x9f; x91; xa8; xe2; x80; x8d; xf0; x9f; x91; xa8], 2);
  ([xf0; x9f; x91; xa8; xe2; x80; x8d; xf0; x9f; x91; xa8; xe2; x80; x8d; xf0; x9f; x91; xa7], 2);
  ([xe3; x81; x82; xf0; x9f; x91; xa9; xe2; x80; x8d; xf0; x9f; x8d; xb3; xe3; x81; x84], 6);
  ([xe3; x81; x82; xe2; x80; x8d; xf0; x9f; x8d; xb3; xe3; x81; x84], 6);
  ([xe3; x81; x82; xe2; x80; x8d; xe3; x81; x84], 4)].
Example TestZeroWidthJoiner : map (fun x => StringWidth (NewCondition testGlobals) (fst x)) joiner_tests = map snd joiner_tests.
Proof. vm_compute. reflexivity. Qed.

(** runewidth/runewidth_posix_test.go:31-48, :50-72 and :74-98. *)
Example TestIsEastAsian : forall lower, map (fun s => isEastAsian lower s)
  [lit "foo@cjk_narrow"; lit "foo@cjk"; lit "utf-8@cjk"; lit "ja_JP.CP932"]%string
  = [false; false; false; true].
Proof. intros lower. vm_compute. reflexivity. Qed.
Example TestIsEastAsianLCCTYPE : forall lower, map (fun s => IsEastAsian lower [] s [])
  [lit "ja_JP.UTF-8"; lit "C"; lit "POSIX"; lit "en_US.UTF-8"]%string
  = [true; false; false; false].
Proof. intros lower. vm_compute. reflexivity. Qed.
Example TestIsEastAsianLANG : forall lower, map (fun s => IsEastAsian lower [] [] s)
  [lit "ja_JP.UTF-8"; lit "C"; lit "POSIX"; lit "en_US.UTF-8"; lit "C.UTF-8"]%string
  = [true; false; false; false; false].
Proof. intros lower. vm_compute. reflexivity. Qed.
