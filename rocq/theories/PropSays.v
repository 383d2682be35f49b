(** * PropSays: what is printed, and the texts of errors (C103). *)
From Coq Require Import Strings.String.
From Verif Require Import GoBase GenText GenTextSpec GenMain GenMainSpec GenMainProofs ScriptMain ReadSpec Table TableExamples Says SaysSpec SaysProofs SaysCases.
Local Open Scope Z_scope.

(** ** C103: messages *)

(** Standard error names the requests made, then how the command ended. *)
Theorem C103_said : forall T w prog a1 a2 a3 a4 rest out err status file,
  Saying T w (prog :: a1 :: a2 :: a3 :: a4 :: rest) out err status file ->
  exists reqs res last text, Ran w (prog :: a1 :: a2 :: a3 :: a4 :: rest) reqs res /\ Ended res status file /\ LastWords T w a2 a4 reqs res last
    /\ Log (lit "gen_properties (" ++ a4 ++ lit "): ") (map (fun u => lit "Parsing " ++ u) reqs ++ last) text
    /\ out = [] /\ err = text ++ match res with Crashed _ => trace T | _ => [] end.
Proof. exact said. Qed.
Print Assumptions C103_said.

(** And whatever can happen is said. *)
Theorem C103_all : forall T w args reqs res, Ran w args reqs res -> exists out err status file, Saying T w args out err status file /\ Ended res status file.
Proof. exact all_said. Qed.
Print Assumptions C103_all.

Theorem C103_few : forall T w args out err status file, (List.length args < 5)%nat ->
  (Saying T w args out err status file <-> out = lit "Not enough arguments, see code for details" ++ [x0a] /\ err = [] /\ status = 1 /\ file = None).
Proof. exact few_said. Qed.
Print Assumptions C103_few.

(** A log is one text, and its lines are the messages. *)
Theorem C103_one : forall p ms err err', Log p ms err -> Log p ms err' -> err = err'.
Proof. exact log_one. Qed.
Print Assumptions C103_one.
Theorem C103_lines : forall p ms err, ~ In x0a p -> Forall (fun m => ~ In x0a m) ms -> Log p ms err ->
  split [x0a] 0 err = map (fun m => p ++ m) ms ++ [[]].
Proof. exact log_lines. Qed.
Print Assumptions C103_lines.

(** The first line at fault is named, and named by its number. *)
Theorem C103_main_fault : forall T w prog a1 a2 a3 a4 rest out err status file text fails ls k, a1 <> lit "-" ->
  web w (main_url a1) = Some {| bText := text; bFails := fails |} -> ShortLines text -> Lines text ls -> MainFault ls k ->
  Saying T w (prog :: a1 :: a2 :: a3 :: a4 :: rest) out err status file ->
  out = [] /\ status = 1 /\ file = None /\ exists d, Numeral d k /\
    Log (lit "gen_properties (" ++ a4 ++ lit "): ") [lit "Parsing " ++ main_url a1; a4 ++ lit " line " ++ d ++ lit ": no property found"] err.
Proof. exact main_fault_said. Qed.
Print Assumptions C103_main_fault.
Theorem C103_emoji_fault : forall T w prog a1 a2 a3 a4 rest p out err status file text fails ls k es, EmojisAsked rest p -> p <> [] -> FromMain w a1 es ->
  web w emoji_url = Some {| bText := text; bFails := fails |} -> ShortLines text -> Lines text ls -> EmojiFault p ls k ->
  Saying T w (prog :: a1 :: a2 :: a3 :: a4 :: rest) out err status file ->
  out = [] /\ status = 1 /\ file = None /\ exists d first, Numeral d k /\ (a1 = lit "-" -> first = []) /\ (a1 <> lit "-" -> first = [lit "Parsing " ++ main_url a1]) /\
    Log (lit "gen_properties (" ++ a4 ++ lit "): ") (first ++ [lit "Parsing " ++ emoji_url; lit "emojis line " ++ d ++ lit ": no property found"]) err.
Proof. exact emoji_fault_said. Qed.
Print Assumptions C103_emoji_fault.

(** script/generate.go is silent just if it writes its file. *)
Theorem C103_script : forall T stamp w early err status file, ScriptSaying T stamp w early = (err, status, file) ->
  (status = 0 /\ err = [] /\ exists out, file = Some (lit "runewidth_table.go", out) /\ snd (Script w early) = Written (lit "runewidth_table.go") out)
  \/ (status = 1 /\ file = None /\ (forall path out, snd (Script w early) <> Written path out) /\
      exists t, Log stamp [t] err /\ ((exists u us, fst (Script w early) = us ++ [u] /\ web w u = None /\ t = getText T u)
        \/ (exists src, gofmt w src = None /\ t = fmtText T src) \/ (writable w = false /\ t = writeText T (lit "runewidth_table.go")))).
Proof. exact script_says. Qed.
Print Assumptions C103_script.

(** The error of AlignFormattedItem tells both numbers. *)
Theorem C103_columns : forall (Item Val E : Type) (t : Table Item Val E) row e, snd (AlignFormattedItem t row) = Err e ->
  exists a b, AlignErrorText e = lit "bad number of columns: " ++ a ++ lit ", must be " ++ b
    /\ Numeral a (slen row) /\ Numeral b (slen (Columns (tSpec t))) /\ slen row <> slen (Columns (tSpec t)).
Proof. exact @align_text. Qed.
Print Assumptions C103_columns.
Theorem C103_columns_told : forall e e' : Z * Z, 0 <= fst e -> 0 <= snd e -> 0 <= fst e' -> 0 <= snd e' ->
  AlignErrorText e = AlignErrorText e' -> e = e'.
Proof. exact align_told. Qed.
Print Assumptions C103_columns_told.

(** A download that breaks off is reported as such: false, if it does in a line. *)
Theorem C103_broken_refuted : exists T w args b err, web w (main_url (lit "EastAsianWidth")) = Some b /\ bFails b = true
  /\ args = [lit "gen_properties"; lit "EastAsianWidth"; lit "eastasianwidth.go"; lit "eastAsianWidth"; lit "eastasianwidth"]
  /\ (forall out err' status file, Saying T w args out err' status file -> err' = err /\ status = 1)
  /\ Saying T w args [] err 1 None
  /\ Mentions (lit "line 2: no property found") err /\ ~ Mentions (readText T (main_url (lit "EastAsianWidth"))) err.
Proof. exact broken_said. Qed.
Print Assumptions C103_broken_refuted.
(** By script/generate.go: false. *)
Theorem C103_silent_refuted : exists T stamp w b b', web w ea_url = Some b /\ bFails b = true /\ web w em_url = Some b' /\ bFails b' = true
  /\ forall early, exists file, ScriptSaying T stamp w early = ([], 0, Some file).
Proof. exact script_silent. Qed.
Print Assumptions C103_silent_refuted.
(** Where the log names a file, it was written: false. *)
Theorem C103_writing_refuted : exists T w args err, Saying T w args [] err 1 None /\ Mentions (lit "Writing to eastasianwidth.go") err.
Proof. exact unwritten_said. Qed.
Print Assumptions C103_writing_refuted.
(** Every line of the log says what it is about: false. *)
Theorem C103_prefix_refuted : exists T w args err, Saying T w args [] err 1 None
  /\ exists l, In l (split [x0a] 0 err) /\ l <> [] /\ ~ Mentions (lit "gen_properties") l.
Proof. exact second_line. Qed.
Print Assumptions C103_prefix_refuted.

Example C103_example : Saying texts one_file wide_args [] (wide_log [parsing; lit "Writing to eastasianwidth.go"]) 0 (Some (lit "eastasianwidth.go", wide_file)).
Proof. exact wide_said. Qed.
Example C103_example_texts : Numeral (lit "0") 0 /\ Numeral (lit "65536") 65536 /\ dec_text 0 = lit "0" /\ dec_text 10 = lit "10" /\ dec_text 65536 = lit "65536"
  /\ snd (AlignFormattedItem exTable [lit "x"]) = Err (1, 2) /\ AlignErrorText (1, 2) = lit "bad number of columns: 1, must be 2"
  /\ web broken (main_url (lit "EastAsianWidth")) = Some {| bText := broken_text; bFails := true |} /\ ShortLines broken_text
  /\ exists ls, Lines broken_text ls /\ MainFault ls 2.
Proof. exact numerals. Qed.
Example C103_example_emojis : EmojisAsked [lit "emojis=Extended_Pictographic"] (lit "Extended_Pictographic") /\ FromMain half (lit "-") []
  /\ EmojiFault (lit "Extended_Pictographic") [lit "x Extended_Pictographic"] 1
  /\ Saying texts half [lit "gen_properties"; lit "-"; lit "emoji.go"; lit "emoji"; lit "emoji"; lit "emojis=Extended_Pictographic"] []
       (lit "gen_properties (emoji): Parsing https://unicode.org/Public/14.0.0/ucd/emoji/emoji-data.txt" ++ [x0a]
        ++ lit "gen_properties (emoji): emojis line 1: no property found" ++ [x0a]) 1 None.
Proof. exact half_said. Qed.
