(** * LocaleSpec: which locales are East Asian. *)
From Coq Require Import Strings.String.
From Verif Require Import GoBase Utf8.
Local Open Scope Z_scope.

Definition ascii (s : string) : list Z := map bv (lit s).

(** A locale of the form ll[l][_TT].charset: [g] is the charset, as far as
    the end of the line. *)
Inductive Named : list Z -> list Z -> Prop :=
| named lang terr g rest :
    Forall (fun r => 97 <= r <= 122) lang -> (List.length lang = 2 \/ List.length lang = 3)%nat ->
    (terr = [] \/ exists a b, terr = [95; a; b] /\ 65 <= a <= 90 /\ 65 <= b <= 90) ->
    g <> [] -> ~ In 10 g -> (rest = [] \/ exists r, rest = 10 :: r) ->
    Named (lang ++ terr ++ 46 :: g ++ rest) g.

(** The charset: the part after the dot of a locale of that form, else all of it. *)
Definition Charset (locale : str) (cs : list Z) : Prop :=
  Named (runes locale) cs \/ ((forall g, ~ Named (runes locale) g) /\ cs = runes locale).

(** Case folding, as far as it matters for comparing with ASCII names. *)
Definition fold_rune (r : Z) : Z :=
  if (65 <=? r) && (r <=? 90) then r + 32
  else if r =? 0x130 then 105      (* dotted capital I *)
  else if r =? 0x212A then 107     (* Kelvin sign *)
  else r.
Definition folded (cs : list Z) : list Z := map fold_rune cs.

(** Charset modifiers: everything from the first at sign on. *)
Definition Narrow (cs : list Z) : Prop := exists pre, folded cs = pre ++ ascii "@cjk_narrow".
Definition Base (cs : list Z) (name : string) : Prop :=
  exists modifier, folded cs = ascii name ++ modifier /\ ~ In 64 (ascii name)
    /\ (modifier = [] \/ exists m, modifier = 64 :: m).

Definition unicode_charsets : list string := ["utf-8"; "utf8"]%string.
Definition legacy_charsets : list string :=
  ["jis"; "eucjp"; "euckr"; "euccn"; "sjis"; "cp932"; "cp51932"; "cp936"; "cp949"; "cp950";
   "big5"; "gbk"; "gb2312"]%string.

Definition StartsWith (s : str) (p : string) : Prop := exists rest, s = lit p ++ rest.

(** The rule for a locale name. *)
Definition EastAsianLocale (locale : str) : Prop :=
  exists cs, Charset locale cs /\ ~ Narrow cs
    /\ ((exists name, In name legacy_charsets /\ Base cs name)
        \/ ((exists name, In name unicode_charsets /\ Base cs name)
            /\ (StartsWith locale "ja" \/ StartsWith locale "ko" \/ StartsWith locale "zh"))).

(** The first of LC_ALL, LC_CTYPE, LANG that is set. *)
Definition Effective (lc_all lc_ctype lang locale : str) : Prop :=
  (lc_all <> [] /\ locale = lc_all)
  \/ (lc_all = [] /\ lc_ctype <> [] /\ locale = lc_ctype)
  \/ (lc_all = [] /\ lc_ctype = [] /\ locale = lang).

(** The C locale. *)
Definition CLocale (locale : str) : Prop :=
  locale = lit "POSIX" \/ locale = lit "C"
  \/ StartsWith locale "C." \/ StartsWith locale "C-".
