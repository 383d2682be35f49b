(** * Locale: model of runewidth_posix.go (and of the three other
    platform-specific [IsEastAsian]). *)
From Coq Require Import Strings.String.
From Verif Require Import GoBase Utf8 Regex.
Local Open Scope Z_scope.

(** UTF-8 encoding of one rune ([strings.Builder.WriteRune], used by
    [strings.ToLower]); surrogates and out-of-range values encode U+FFFD. *)
Definition zb (x : Z) : byte :=
  match Byte.of_N (Z.to_N x) with Some b => b | None => x00 end.
Definition encode_valid (r : Z) : str :=
  if r <? 0x80 then [zb r]
  else if r <? 0x800 then [zb (0xC0 + r / 64); zb (0x80 + r mod 64)]
  else if r <? 0x10000 then
    [zb (0xE0 + r / 4096); zb (0x80 + r / 64 mod 64); zb (0x80 + r mod 64)]
  else [zb (0xF0 + r / 262144); zb (0x80 + r / 4096 mod 64);
        zb (0x80 + r / 64 mod 64); zb (0x80 + r mod 64)].
Definition EncodeRune (r : Z) : str :=
  if (r <? 0) || (r >? 0x10FFFF) || inb 0xD800 0xDFFF r
  then encode_valid RuneError else encode_valid r.

Section Lower.
(** [unicode.ToLower] on the runes >= 0x80 other than U+0130 and U+212A.
    Kept abstract; theorems assume only that it never returns an ASCII rune
    for these (true of the Unicode tables: U+0130 -> 'i' and U+212A -> 'k'
    are the only two non-ASCII runes with an ASCII lower case). *)
Variable lowerOther : Z -> Z.

(** [unicode.ToLower(r)]. *)
Definition ToLowerRune (r : Z) : Z :=
  if r <? 0x80 then (if inb 65 90 r then r + 32 else r)
  else if r =? 0x130 then 0x69
  else if r =? 0x212A then 0x6B
  else lowerOther r.

(** [strings.ToLower(s)]: the ASCII-only fast path and the [strings.Map]
    path agree with lower-casing each decoded rune and re-encoding it. *)
Definition ToLower (s : str) : str :=
  concat (map (fun r => EncodeRune (ToLowerRune r)) (runes s)).

(** ** The pattern [reLoc], runewidth_posix.go:12:
    ^[a-z][a-z][a-z]?(?:_[A-Z][A-Z])?\.(.+)
    split at the capture group: everything up to and including the dot, then
    the group [(.+)] ([.] is any rune except newline). *)
Definition is_az (r : Z) : bool := inb 97 122 r.
Definition is_AZ (r : Z) : bool := inb 65 90 r.
Definition reLoc_prefix : re :=
  Seq (Cls is_az) (Seq (Cls is_az) (Seq (Opt (Cls is_az))
  (Seq (Opt (Seq (Cls (Z.eqb 95)) (Seq (Cls is_AZ) (Cls is_AZ))))
       (Cls (Z.eqb 46))))).
Definition reLoc_group : re :=
  let dot := Cls (fun r => negb (r =? 10)) in Seq dot (Star dot).

(** [reLoc.FindStringSubmatch(locale)]: [Some r[1]] when it matches (the
    result then has length 2), [None] for nil.  Anchored at the start. *)
Definition reLoc_submatch (locale : str) : option str :=
  let l := decode locale in
  match flat_map (fun l1 => map (fun l2 => (l1, l2)) (rests reLoc_group l1))
                 (rests reLoc_prefix l) with
  | [] => None
  | (l1, l2) :: _ =>
    let start := nbytes l - nbytes l1 in
    Some (take (nbytes l1 - nbytes l2) (drop start locale))
  end.

(** runewidth_posix.go:14-30, [mblenTable]. *)
Definition mblenTable : list (str * Z) := [
  (lit "utf-8", 6); (lit "utf8", 6); (lit "jis", 8); (lit "eucjp", 3);
  (lit "euckr", 2); (lit "euccn", 2); (lit "sjis", 2); (lit "cp932", 2);
  (lit "cp51932", 2); (lit "cp936", 2); (lit "cp949", 2); (lit "cp950", 2);
  (lit "big5", 2); (lit "gbk", 2); (lit "gb2312", 2) ].

(** runewidth/runewidth_posix.go:50, [mblenTable[charset]] and whether it is there. *)
Fixpoint mblen (m : list (str * Z)) (k : str) : option Z :=
  match m with
  | [] => None
  | (k', v) :: rest => if str_eqb k k' then Some v else mblen rest k
  end.

(** [strings.HasPrefix], [strings.HasSuffix]. *)
Definition HasPrefix (s p : str) : bool := str_eqb (firstn (length p) s) p.
Definition HasSuffix (s p : str) : bool :=
  (Nat.leb (length p) (length s)) && str_eqb (skipn (length s - length p) s) p.

(** runewidth_posix.go:43-48: cut at the first '@'. *)
Fixpoint cut_at (s : str) : str :=
  match s with
  | [] => []
  | b :: rest => if bv b =? 64 then [] else b :: cut_at rest
  end.

(** runewidth_posix.go:32-60, [isEastAsian].  [charset[0]] is only read when
    the charset is a key of [mblenTable], hence non-empty. *)
Definition isEastAsian (locale : str) : bool :=
  let charset := match reLoc_submatch locale with
                 | Some g => ToLower g
                 | None => ToLower locale
                 end in
  if HasSuffix charset (lit "@cjk_narrow") then false
  else
    let charset := cut_at charset in
    let max := match mblen mblenTable charset with Some m => m | None => 1 end in
    if (max >? 1)
       && (negb (match charset with b :: _ => bv b =? 117 | [] => false end)
           || HasPrefix locale (lit "ja")
           || HasPrefix locale (lit "ko")
           || HasPrefix locale (lit "zh"))
    then true else false.

(** runewidth_posix.go:63-81, [IsEastAsian]; the arguments are the values of
    LC_ALL, LC_CTYPE and LANG ("" when unset). *)
Definition IsEastAsian (lc_all lc_ctype lang : str) : bool :=
  let locale := lc_all in
  let locale := match locale with [] => lc_ctype | _ => locale end in
  let locale := match locale with [] => lang | _ => locale end in
  if str_eqb locale (lit "POSIX") || str_eqb locale (lit "C") then false
  else
    match locale with
    | c0 :: c1 :: _ =>
      if (bv c0 =? 67) && ((bv c1 =? 46) || (bv c1 =? 45)) then false
      else isEastAsian locale
    | _ => isEastAsian locale
    end.
End Lower.

(** runewidth_windows.go:16-28: [r1] is the console output code page. *)
Definition IsEastAsian_windows (r1 : Z) : bool :=
  if r1 =? 0 then false
  else existsb (Z.eqb r1) [932; 51932; 936; 949; 950].

(** runewidth_js.go:6-9 and runewidth_appengine.go:7-9. *)
Definition IsEastAsian_js : bool := false.
Definition IsEastAsian_appengine : bool := false.
