(** * PropLocale: which environments select East Asian mode (C22). *)
From Coq Require Import Strings.String.
From Verif Require Import GoBase Utf8 Runewidth ConditionSpec Locale LocaleSpec LocaleProofs EnvSpec EnvProofs.
Local Open Scope Z_scope.

(** C22.  [lowerOther] is unicode.ToLower on the non-ASCII runes other than
    U+0130 and U+212A, of which only this is used: it returns no ASCII. *)
Theorem C22_locale : forall (lowerOther : Z -> Z), (forall r, 0x80 <= r -> 0x80 <= lowerOther r) ->
  forall lc_all lc_ctype lang locale, Effective lc_all lc_ctype lang locale ->
  (IsEastAsian lowerOther lc_all lc_ctype lang = true <-> ~ CLocale locale /\ EastAsianLocale locale).
Proof. exact IsEastAsian_spec. Qed.
Print Assumptions C22_locale.

(** The charset is determined by the locale. *)
Theorem C22_charset_unique : forall locale cs cs', Charset locale cs -> Charset locale cs' -> cs = cs'.
Proof. exact Charset_unique. Qed.
Print Assumptions C22_charset_unique.

(** The mode the package starts in. *)
Theorem C22_startup : forall (lowerOther : Z -> Z), (forall r, 0x80 <= r -> 0x80 <= lowerOther r) ->
  forall env lc_all lc_ctype lang locale, Effective lc_all lc_ctype lang locale ->
  let g := handleEnv env (IsEastAsian lowerOther lc_all lc_ctype lang) globals0 in
  (gEastAsianWidth g = true <-> env = lit "1" \/ env = [] /\ ~ CLocale locale /\ EastAsianLocale locale)
  /\ forall s, StringWidth_default g s = StringWidth (plainCondition (gEastAsianWidth g) true) s.
Proof. exact startup. Qed.
Print Assumptions C22_startup.

(** Windows code page n selects East Asian mode exactly when the locale "cpn"
    does elsewhere. *)
Theorem C22_code_pages : forall (lowerOther : Z -> Z), (forall r, 0x80 <= r -> 0x80 <= lowerOther r) -> forall n,
  IsEastAsian lowerOther (lit ("cp" ++ decimal n)) [] [] = IsEastAsian_windows (Z.of_N n).
Proof. exact code_pages. Qed.
Print Assumptions C22_code_pages.

(** On Windows the console's code page has the say when the variable is unset or
    empty; in a browser and on App Engine only the variable has. *)
Theorem C22_platforms : forall env page,
  let windows := handleEnv env (IsEastAsian_windows page) globals0 in
  let js := handleEnv env IsEastAsian_js globals0 in
  let appengine := handleEnv env IsEastAsian_appengine globals0 in
  (gEastAsianWidth windows = true <-> env = lit "1" \/ env = [] /\ In page [932; 936; 949; 950; 51932])
  /\ (gEastAsianWidth js = true <-> env = lit "1") /\ (gEastAsianWidth appengine = true <-> env = lit "1")
  /\ forall g, In g [windows; js; appengine] -> forall s, StringWidth_default g s = StringWidth (plainCondition (gEastAsianWidth g) true) s.
Proof. exact startup_others. Qed.
Print Assumptions C22_platforms.

Example C22_example :
  Effective [] (lit "ja_JP.UTF-8") (lit "C") (lit "ja_JP.UTF-8") /\ decimal 932 = "932"%string /\ IsEastAsian_windows 932 = true
  /\ IsEastAsian_windows 1252 = false /\
  IsEastAsian (fun r => r) [] (lit "ja_JP.UTF-8") (lit "C") = true
  /\ IsEastAsian (fun r => r) (lit "en_US.UTF-8") (lit "ja_JP.UTF-8") [] = false
  /\ IsEastAsian (fun r => r) [] [] (lit "en_US.EUCJP@cjk") = true
  /\ IsEastAsian (fun r => r) [] [] (lit "ko_KR.utf8@cjk_narrow") = false
  /\ IsEastAsian (fun r => r) [] [] (lit "C.UTF-8") = false.
Proof. split; [right; left; repeat split; discriminate|]. repeat split; vm_compute; reflexivity. Qed.
