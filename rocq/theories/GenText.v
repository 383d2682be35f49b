(** * GenText: the text side of the table generators,
    runewidth/uniseg/gen_properties.go and runewidth/script/generate.go: lines,
    patterns, formats and printing.  Not modelled: downloading (a download is
    given by the bytes read, and whether reading then fails), the file header (GenMain.v),
    go/format and writing the file. *)
From Coq Require Import Strings.String Permutation.
From Verif Require Import GoBase Utf8 Regex Locale Generate.
Local Open Scope Z_scope.
Notation length := List.length.
Notation concat := List.concat.

(** ** Packages used *)

(** What reading a response body gives: bytes, then EOF or an error. *)
Record Body := { bText : str; bFails : bool }.
Inductive scan_error := ScanOk | ScanTooLong | ScanRead.

(** [bufio.Scanner] with [ScanLines] (gen_properties.go:125-145,
    script/generate.go:54-62): the lines delivered, without their newline and
    one carriage return before it, and [Err()] at the end.  A buffer of 65536
    bytes without a newline ends the scan.  (For exactly 65536 bytes before EOF
    that depends on how the reader reports EOF: taken to be reported by a read
    of its own.)  [cur] is the line so far. *)
Definition maxToken : Z := 65536.
Definition dropCR (s : str) : str :=
  match rev s with
  | b :: r => if Byte.eqb b x0d then rev r else s
  | [] => s
  end.
Fixpoint scan_from (fails : bool) (cur s : str) : list str * scan_error :=
  match s with
  | [] =>
    if maxToken <=? slen cur then ([], ScanTooLong)
    else ((match cur with [] => [] | _ => [dropCR cur] end), if fails then ScanRead else ScanOk)
  | b :: rest =>
    if Byte.eqb b x0a then
      if maxToken <=? slen cur then ([], ScanTooLong)
      else let '(ls, e) := scan_from fails [] rest in (dropCR cur :: ls, e)
    else scan_from fails (cur ++ [b]) rest
  end.
Definition scan (b : Body) : list str * scan_error := scan_from (bFails b) [] (bText b).

(** [unicode.IsSpace]; package fmt uses the same set (its [isSpace]). *)
Definition IsSpace (r : Z) : bool :=
  inb 0x09 0x0D r || (r =? 0x20) || (r =? 0x85) || (r =? 0xA0) || (r =? 0x1680) || inb 0x2000 0x200A r
  || inb 0x2028 0x2029 r || (r =? 0x202F) || (r =? 0x205F) || (r =? 0x3000).

(** [utf8.DecodeLastRuneInString]. *)
Definition rune_start (b : byte) : bool := negb (inb 0x80 0xBF (bv b)).
(** The number of bytes from the last start byte on, at most 4 and at most
    the string; [r] is the reversed string, [n] the bytes before it. *)
Fixpoint back (k : nat) (n : Z) (r : str) : Z :=
  match k, r with
  | S k', b :: r' => if rune_start b then n + 1 else back k' (n + 1) r'
  | S _, [] => n
  | O, [] => n
  | O, _ => n + 1
  end.
Definition DecodeLastRune (s : str) : Z * Z :=
  match rev s with
  | [] => (RuneError, 0)
  | b :: r =>
    if bv b <? 0x80 then (bv b, 1)
    else
      let n := back 3 1 r in
      let '(c, size) := DecodeRune (drop (slen s - n) s) in
      if size =? n then (c, size) else (RuneError, 1)
  end.

(** [strings.TrimSpace]. *)
Fixpoint trim_left (fuel : nat) (s : str) : str :=
  match fuel with
  | O => s
  | S f => match s with
           | [] => []
           | _ => let '(r, n) := DecodeRune s in if IsSpace r then trim_left f (drop n s) else s
           end
  end.
Fixpoint trim_right (fuel : nat) (s : str) : str :=
  match fuel with
  | O => s
  | S f => match s with
           | [] => []
           | _ => let '(r, n) := DecodeLastRune s in if IsSpace r then trim_right f (take (slen s - n) s) else s
           end
  end.
Definition TrimSpace (s : str) : str := let s := trim_left (length s) s in trim_right (length s) s.

(** [strings.Contains], and [strings.Index(s, sub) != -1]. *)
Fixpoint Contains (s sub : str) : bool :=
  HasPrefix s sub || match s with [] => false | _ :: rest => Contains rest sub end.

(** A hexadecimal number ([strconv.ParseUint] of digits, base 16). *)
Definition hexdigit (r : Z) : Z := if r <=? 57 then r - 48 else if r <=? 70 then r - 55 else r - 87.
Definition hexval (rs : list Z) : Z := fold_left (fun v r => v * 16 + hexdigit r) rs 0.

(** ** Patterns with groups *)

(** A pattern of package regexp with groups and [$], on the decoded input, as
    in [Regex]: all ways to match, in the order of a backtracking matcher. *)
Inductive cre : Type :=
| CCls (p : Z -> bool)
| CSeq (a b : cre)
| COpt (a : cre)
| CStar (a : cre)
| CGroup (n : nat) (a : cre)
| CEnd.
Record mstate := { mPos : Z; mIn : input; mCaps : list (nat * (Z * Z)) }.

(** [x*], preferring more; an iteration that consumes nothing ends it (package regexp). *)
Fixpoint cstar (step : mstate -> list mstate) (fuel : nat) (st : mstate) : list mstate :=
  match fuel with
  | O => [st]
  | S f => flat_map (fun st' => if Nat.ltb (length (mIn st')) (length (mIn st)) then cstar step f st' else []) (step st) ++ [st]
  end.
(** All ways to match, the preferred first (package regexp, not in /repo). *)
Fixpoint cmatch (r : cre) (st : mstate) : list mstate :=
  match r with
  | CCls p => match mIn st with
              | (c, n) :: l => if p c then [{| mPos := mPos st + n; mIn := l; mCaps := mCaps st |}] else []
              | [] => []
              end
  | CSeq a b => flat_map (cmatch b) (cmatch a st)
  | COpt a => cmatch a st ++ [st]
  | CStar a => cstar (cmatch a) (length (mIn st)) st
  | CGroup n a => map (fun st' => {| mPos := mPos st'; mIn := mIn st'; mCaps := (n, (mPos st, mPos st')) :: mCaps st' |}) (cmatch a st)
  | CEnd => match mIn st with [] => [st] | _ => [] end
  end.
(** [FindStringSubmatch] of a pattern beginning with [^]: the groups. *)
Definition submatch (r : cre) (s : str) : option (list (nat * (Z * Z))) :=
  match cmatch r {| mPos := 0; mIn := decode s; mCaps := [] |} with
  | [] => None
  | st :: _ => Some (mCaps st)
  end.
(** [fields[n]]: empty for a group that took no part. *)
Fixpoint group (s : str) (caps : list (nat * (Z * Z))) (n : nat) : str :=
  match caps with
  | [] => []
  | (k, (a, b)) :: rest => if Nat.eqb k n then take (b - a) (drop a s) else group s rest n
  end.

(** ** gen_properties.go *)

(** gen_properties.go:47, [propertyPattern]:
    ^([0-9A-F]{4,6})(\.\.([0-9A-F]{4,6}))?\s*;\s*([A-Za-z0-9_]+)\s*#\s(.+)$ *)
Definition is_upper_hex (r : Z) : bool := inb 48 57 r || inb 65 70 r.
Definition is_blank (r : Z) : bool := (r =? 9) || (r =? 10) || (r =? 12) || (r =? 13) || (r =? 32).
Definition is_word (r : Z) : bool := inb 65 90 r || inb 97 122 r || inb 48 57 r || (r =? 95).
Definition is_dot (r : Z) : bool := negb (r =? 10).
Definition hex46 : cre :=
  let x := CCls is_upper_hex in CSeq x (CSeq x (CSeq x (CSeq x (COpt (CSeq x (COpt x)))))).
Definition cplus (a : cre) : cre := CSeq a (CStar a).
Definition propertyPattern : cre :=
  CSeq (CGroup 1 hex46)
 (CSeq (COpt (CGroup 2 (CSeq (CCls (Z.eqb 46)) (CSeq (CCls (Z.eqb 46)) (CGroup 3 hex46)))))
 (CSeq (CStar (CCls is_blank)) (CSeq (CCls (Z.eqb 59)) (CSeq (CStar (CCls is_blank))
 (CSeq (CGroup 4 (cplus (CCls is_word)))
 (CSeq (CStar (CCls is_blank)) (CSeq (CCls (Z.eqb 35)) (CSeq (CCls is_blank)
 (CSeq (CGroup 5 (cplus (CCls is_dot))) CEnd))))))))).

(** gen_properties.go:112, an element of [properties]. *)
Record prop4 := { pFrom : str; pTo : str; pProp : str; pComment : str }.

(** gen_properties.go:238-252, [parseProperty]; [None] is the error. *)
Definition parseProperty (line : str) : option prop4 :=
  match submatch propertyPattern line with
  | None => None
  | Some caps =>
    let from := group line caps 1 in
    let to_ := group line caps 3 in
    Some {| pFrom := from; pTo := match to_ with [] => from | _ => to_ end;
            pProp := group line caps 4; pComment := group line caps 5 |}
  end.

(** gen_properties.go:256-258, [translateProperty]. *)
Definition translateProperty (prefix property : str) : str := prefix ++ filter (fun b => negb (Byte.eqb b x5f)) property.

(** The errors of gen_properties.go:108, :119, :139, :173 and of its scanner. *)
Inductive gen_error := NoProperties | GetFailed | MainLine (num : Z) | EmojiLine (num : Z) | ScanFailed (e : scan_error).

(** gen_properties.go:127-142 and :161-177, the loops over the lines; [keep]
    gives the text to parse, or [None] for a line to skip; [num] lines precede. *)
Fixpoint read_lines (keep : str -> option str) (bad : Z -> gen_error) (num : Z) (lines : list str) : outcome gen_error (list prop4) :=
  match lines with
  | [] => Ok []
  | line :: rest =>
    match keep line with
    | None => read_lines keep bad (num + 1) rest
    | Some text =>
      match parseProperty text with
      | None => Err (bad (num + 1))
      | Some p => obind (read_lines keep bad (num + 1) rest) (fun ps => Ok (p :: ps))
      end
    end
  end.
Definition keep_main (line : str) : option str :=
  let line := TrimSpace line in
  if HasPrefix line (lit "#") || str_eqb line [] then None else Some line.
Definition keep_emoji (property : str) (line : str) : option str :=
  if HasPrefix line (lit "#") || str_eqb line [] || negb (Contains line property) then None else Some line.
Definition read_body (keep : str -> option str) (bad : Z -> gen_error) (b : option Body) : outcome gen_error (list prop4) :=
  match b with
  | None => Err GetFailed
  | Some b =>
    let '(lines, e) := scan b in
    obind (read_lines keep bad 0 lines) (fun ps => match e with ScanOk => Ok ps | _ => Err (ScanFailed e) end)
  end.

(** gen_properties.go:106-181, [parse] up to the sorting: [main] is [None] for
    an empty URL; a download that fails at once is [Some None]. *)
Definition read_properties (main : option (option Body)) (property : str) (emoji : option Body) : outcome gen_error (list prop4) :=
  match main, property with
  | None, [] => Err NoProperties
  | _, _ =>
    obind (match main with None => Ok [] | Some b => read_body keep_main MainLine b end) (fun ps =>
    obind (match property with [] => Ok [] | _ => read_body (keep_emoji property) EmojiLine emoji end) (fun qs =>
    Ok (ps ++ qs)))
  end.

(** gen_properties.go:217-228, one line of the table. *)
Definition print_prop (gencat : bool) (p : prop4) : outcome gen_error str :=
  let front := lit "{0x" ++ pFrom p ++ lit ",0x" ++ pTo p ++ lit "," ++ translateProperty (lit "pr") (pProp p) in
  if gencat then
    if slen (pComment p) <? 3 then Panic IndexOutOfRange (* slice bounds *)
    else
      let gc := lit "gc" ++ take 2 (pComment p) in
      let gc := if str_eqb gc (lit "gcL&") then lit "gcLC" else gc in
      Ok (front ++ lit "," ++ gc ++ lit "}, // " ++ drop 3 (pComment p) ++ [x0a])
  else Ok (front ++ lit "}, // " ++ pComment p ++ [x0a]).
(** gen_properties.go:213-231, from the declaration on. *)
Definition print_table (name : str) (gencat : bool) (ps : list prop4) : outcome gen_error str :=
  obind (omap (print_prop gencat) ps) (fun rows =>
  Ok (lit "var " ++ name ++ lit " = [][" ++ (if gencat then lit "4" else lit "3") ++ lit "]int{" ++ [x0a; x09] ++ concat rows ++ lit "}")).

(** gen_properties.go:183-188: what [sort.Slice] may leave (it is not stable);
    the keys are the numbers of the first field. *)
Definition sort_key (p : prop4) : Z := hexval (map bv (pFrom p)).
Inductive Ordered : list prop4 -> Prop :=
| ord_nil : Ordered []
| ord_one p : Ordered [p]
| ord_cons p q rest : sort_key p <= sort_key q -> Ordered (q :: rest) -> Ordered (p :: q :: rest).

(** gen_properties.go:106-234, [parse]: what it may return. *)
Definition Parse (main : option (option Body)) (property : str) (emoji : option Body) (gencat : bool) (name : str)
    (out : outcome gen_error str) : Prop :=
  match read_properties main property emoji with
  | Ok ps => exists qs, Permutation ps qs /\ Ordered qs /\ out = print_table name gencat qs
  | Err e => out = Err e
  | Panic r => out = Panic r
  end.

(** ** script/generate.go *)

(** [fmt.Sscanf]: a format as the list of its parts. *)
Inductive fitem := FHex | FStr | FLit (r : Z) | FSpace.
Inductive fval := VInt (z : Z) | VStr (s : str).

(** [SkipSpace]: [None] for the error "unexpected newline". *)
Fixpoint skip_space (l : list Z) : option (list Z) :=
  match l with
  | [] => Some []
  | r :: rest => if r =? 10 then None else if IsSpace r then skip_space rest else Some l
  end.
Fixpoint span (p : Z -> bool) (l : list Z) : list Z * list Z :=
  match l with
  | [] => ([], [])
  | r :: rest => if p r then let '(a, b) := span p rest in (r :: a, b) else ([], l)
  end.
Definition is_hex (r : Z) : bool := inb 48 57 r || inb 65 70 r || inb 97 102 r.
(** [%x] into a [rune]: an optional sign, digits, a value of 32 bits. *)
Definition scan_hex (l : list Z) : option (Z * list Z) :=
  match skip_space l with
  | None => None
  | Some l =>
    let '(neg, l) := match l with
                     | r :: rest => if r =? 43 then (false, rest) else if r =? 45 then (true, rest) else (false, l)
                     | [] => (false, l)
                     end in
    let '(ds, rest) := span is_hex l in
    match ds with
    | [] => None
    | _ => let v := if neg then - hexval ds else hexval ds in
           if inb (-2147483648) 2147483647 v then Some (v, rest) else None
    end
  end.
(** [%s]: the next word. *)
Definition scan_str (l : list Z) : option (str * list Z) :=
  match skip_space l with
  | None => None
  | Some [] => None
  | Some l => let '(w, rest) := span (fun r => negb (IsSpace r)) l in Some (concat (map EncodeRune w), rest)
  end.
(** A space in the format: EOF, or spaces (no newline). *)
Fixpoint skip_blank (l : list Z) : list Z :=
  match l with
  | r :: rest => if IsSpace r && negb (r =? 10) then skip_blank rest else l
  | [] => []
  end.
Definition scan_space (l : list Z) : option (list Z) :=
  match l with
  | [] => Some []
  | r :: rest => if IsSpace r && negb (r =? 10) then Some (skip_blank rest) else None
  end.
Fixpoint sscanf (f : list fitem) (l : list Z) : option (list fval) :=
  match f with
  | [] => Some []
  | FHex :: f => match scan_hex l with
                 | Some (v, l) => option_map (cons (VInt v)) (sscanf f l)
                 | None => None
                 end
  | FStr :: f => match scan_str l with
                 | Some (s, l) => option_map (cons (VStr s)) (sscanf f l)
                 | None => None
                 end
  | FLit r :: f => match l with
                   | r' :: l => if r =? r' then sscanf f l else None
                   | [] => None
                   end
  | FSpace :: f => match scan_space l with Some l => sscanf f l | None => None end
  end.

(** The formats of script/generate.go:68,70,152,154. *)
Definition fmtRangeClass : list fitem := [FHex; FLit 46; FLit 46; FHex; FLit 59; FStr; FSpace].
Definition fmtOneClass : list fitem := [FHex; FLit 59; FStr; FSpace].
Definition fmtRange : list fitem := [FHex; FLit 46; FLit 46; FHex; FSpace].
Definition fmtOne : list fitem := [FHex; FSpace].

(** script/generate.go:84-105, the switch. *)
Definition class_of (ss : str) : class :=
  if str_eqb ss (lit "W") then W else if str_eqb ss (lit "F") then F
  else if str_eqb ss (lit "A") then A else if str_eqb ss (lit "Na") then Na
  else if str_eqb ss (lit "N") then N else Other.

(** script/generate.go:62-82: [None] for a line that is skipped. *)
Definition read_ea (line : str) : option ea_line :=
  if HasPrefix line (lit "#") then None
  else
    let make lo hi ss := {| eaLo := lo; eaHi := hi; eaClass := class_of ss; eaCombining := Contains line (lit "COMBINING") |} in
    match sscanf fmtRangeClass (runes line) with
    | Some [VInt a; VInt b; VStr ss] => Some (make a (Some b) ss)
    | _ => match sscanf fmtOneClass (runes line) with
           | Some [VInt a; VStr ss] => Some (make a None ss)
           | _ => None
           end
    end.
(** script/generate.go:146-158. *)
Definition read_em (line : str) : option (Z * option Z) :=
  if HasPrefix line (lit "#") then None
  else
    match sscanf fmtRange (runes line) with
    | Some [VInt a; VInt b] => Some (a, Some b)
    | _ => match sscanf fmtOne (runes line) with
           | Some [VInt a] => Some (a, None)
           | _ => None
           end
    end.

(** Keeping what [f] gives for the elements it accepts. *)
Fixpoint filter_map {A B} (f : A -> option B) (l : list A) : list B :=
  match l with
  | [] => []
  | a :: rest => match f a with Some b => b :: filter_map f rest | None => filter_map f rest end
  end.

(** [%04X]. *)
Definition hex_char (d : Z) : byte := if d <? 10 then zb (48 + d) else zb (55 + d).
Fixpoint hex_loop (fuel : nat) (n : Z) (acc : str) : str :=
  match fuel with
  | O => acc
  | S f => let acc := hex_char (n mod 16) :: acc in if n <? 16 then acc else hex_loop f (n / 16) acc
  end.
Definition hex_text (n : Z) : str := hex_loop (S (Z.to_nat (Z.log2 n))) n [].
Definition print_hex (n : Z) : str :=
  if n <? 0 then let d := hex_text (- n) in x2d :: repeat x30 (3 - length d) ++ d
  else let d := hex_text n in repeat x30 (4 - length d) ++ d.

(** script/generate.go:27-36, the loop of [generate] from element [i] on. *)
Fixpoint generate_loop (i : nat) (arr : list (Z * Z)) : str :=
  match arr with
  | [] => []
  | (lo, hi) :: rest =>
    lit "{0x" ++ print_hex lo ++ lit ", 0x" ++ print_hex hi ++ lit "},"
    ++ (match rest with [] => [] | _ => if Nat.eqb (i mod 3) 2 then [x0a; x09] else lit " " end)
    ++ generate_loop (S i) rest
  end.
(** script/generate.go:25-38, [generate]. *)
Definition generate (v : str) (arr : list (Z * Z)) : str :=
  lit "var " ++ v ++ lit " = table{" ++ [x0a; x09] ++ generate_loop 0 arr ++ [x0a] ++ lit "}" ++ [x0a].

(** script/generate.go:53-129, [eastasian]: what is written; an error of the
    scanner is not looked at. *)
Definition eastasian_text (b : Body) : str :=
  let t := eastasian (filter_map read_ea (fst (scan b))) in
  generate (lit "combining") (eaCmb t) ++ [x0a] ++ generate (lit "doublewidth") (eaDbl t) ++ [x0a]
  ++ generate (lit "ambiguous") (eaAmb t) ++ generate (lit "narrow") (eaNar t) ++ [x0a]
  ++ generate (lit "neutral") (eaNeu t) ++ [x0a].

(** script/generate.go:134-139: the lines after the marker. *)
Definition marker : str := lit "Extended_Pictographic ; No".
Fixpoint after_marker (lines : list str) : list str :=
  match lines with
  | [] => []
  | line :: rest => if Contains line marker then rest else after_marker rest
  end.
(** script/generate.go:131-174, [emoji]: what is written, and whether an error
    is returned.  After the marker [scanner.Err()] is set if reading has failed
    already although lines are left, which depends on the reads ([early]); if
    there is no marker, it is what ended the scan. *)
Definition emoji_text (early : bool) (b : Body) : str * bool :=
  let '(lines, e) := scan b in
  let failed := match e with
                | ScanOk => false
                | _ => if existsb (fun l => Contains l marker) lines
                       then (match e with ScanRead => early | _ => false end) else true
                end in
  if failed then ([], true)
  else (generate (lit "emoji") (emoji_table (filter_map read_em (after_marker lines))), false).

(** script/generate.go:176-197, [main] up to formatting: both errors are
    ignored. *)
Definition script_text (early : bool) (ea em : Body) : str :=
  lit "// Code generated by script/generate.go. DO NOT EDIT." ++ [x0a; x0a] ++ lit "package runewidth" ++ [x0a; x0a]
  ++ eastasian_text ea ++ fst (emoji_text early em).
