(** * PropGenText: from property files to tables (C59). *)
From Coq Require Import Strings.String Permutation.
From Verif Require Import GoBase Uniseg GenText GenTextSpec GenRead GenLookup GenCases.
Local Open Scope Z_scope.

(** ** C59: property files read and tables printed *)

Theorem C59_lines : forall text fails, ShortLines text -> exists ls, Lines text ls
  /\ scan {| bText := text; bFails := fails |} = (ls, if fails then ScanRead else ScanOk) /\ forall ls', Lines text ls' -> ls' = ls.
Proof. exact lines_scan. Qed.
Print Assumptions C59_lines.

Theorem C59_long : forall pre run post fails, ShortLines pre -> (pre = [] \/ exists p, pre = p ++ [x0a]) -> ~ In x0a run -> 65536 <= slen run ->
  exists ls, Lines pre ls /\ scan {| bText := pre ++ run ++ post; bFails := fails |} = (ls, ScanTooLong).
Proof. exact long_scan. Qed.
Print Assumptions C59_long.

Theorem C59_trim : forall s c, TrimSpace s = c <-> Stripped s c.
Proof. exact trim_iff. Qed.
Print Assumptions C59_trim.

Theorem C59_line : forall line,
  (forall p, parseProperty line = Some p <-> exists from to_ name comment, PropertyLine line from to_ name comment /\ p = the_prop from to_ name comment)
  /\ forall from to_ name comment from' to_' name' comment', PropertyLine line from to_ name comment -> PropertyLine line from' to_' name' comment' ->
     Entry from to_ name comment = Entry from' to_' name' comment'.
Proof. exact parse_unique. Qed.
Print Assumptions C59_line.

Theorem C59_files : forall m e ml el, ShortLines m -> Lines m ml -> ShortLines e -> Lines e el -> forall property ps,
  read_properties (Some (Some {| bText := m; bFails := false |})) property (Some {| bText := e; bFails := false |}) = Ok ps <->
  exists es fs, MainFile ml es /\ EmojiPart property el fs /\ ps = map prop_of (es ++ fs).
Proof. exact both_ok. Qed.
Print Assumptions C59_files.

Theorem C59_fault : forall m e ml el, ShortLines m -> Lines m ml -> ShortLines e -> Lines e el -> forall property err,
  read_properties (Some (Some {| bText := m; bFails := false |})) property (Some {| bText := e; bFails := false |}) = Err err <->
  (exists k, MainFault ml k /\ err = MainLine k)
  \/ (property <> [] /\ exists es k, MainFile ml es /\ EmojiFault property el k /\ err = EmojiLine k).
Proof. exact both_err. Qed.
Print Assumptions C59_fault.

Theorem C59_whole : forall main property emoji ps, read_properties main property emoji = Ok ps ->
  (forall b, main = Some b -> exists text, b = Some {| bText := text; bFails := false |} /\ ShortLines text)
  /\ (property <> [] -> exists text, emoji = Some {| bText := text; bFails := false |} /\ ShortLines text)
  /\ (main = None -> property <> []).
Proof. exact whole_files. Qed.
Print Assumptions C59_whole.

Theorem C59_source : forall m e ml el, ShortLines m -> Lines m ml -> ShortLines e -> Lines e el -> forall property name es fs,
  MainFile ml es -> EmojiPart property el fs -> Plain name -> forall out,
  Parse (Some (Some {| bText := m; bFails := false |})) property (Some {| bText := e; bFails := false |}) false name out ->
  exists gs src, Permutation (es ++ fs) gs /\ InOrder gs /\ out = Ok src /\ read_go src = Some [(table_head name (lit "3"), map row3 gs)].
Proof. exact source3. Qed.
Print Assumptions C59_source.

Theorem C59_category : forall m e ml el, ShortLines m -> Lines m ml -> ShortLines e -> Lines e el -> forall property name es fs,
  MainFile ml es -> EmojiPart property el fs -> Plain name -> forall out, Forall Categorised (es ++ fs) ->
  Parse (Some (Some {| bText := m; bFails := false |})) property (Some {| bText := e; bFails := false |}) true name out ->
  exists gs src, Permutation (es ++ fs) gs /\ InOrder gs /\ out = Ok src /\ read_go src = Some [(table_head name (lit "4"), map row4 gs)].
Proof. exact source4. Qed.
Print Assumptions C59_category.

Theorem C59_lookup : forall m e ml el, ShortLines m -> Lines m ml -> ShortLines e -> Lines e el -> forall property name es fs,
  MainFile ml es -> EmojiPart property el fs -> Plain name -> forall num gencat out,
  (gencat = true -> Forall Categorised (es ++ fs)) ->
  (forall g, In g (es ++ fs) -> exists r, About g r) ->
  (forall pre x mid y post r, es ++ fs = pre ++ x :: mid ++ y :: post -> About x r -> ~ About y r) ->
  Parse (Some (Some {| bText := m; bFails := false |})) property (Some {| bText := e; bFails := false |}) gencat name out ->
  exists src d, out = Ok src /\ Reads num src d
  /\ (forall g r, In g (es ++ fs) -> About g r -> Uniseg.property d r = num (constant g))
  /\ forall r, (forall g, In g (es ++ fs) -> ~ About g r) -> Uniseg.property d r = 0.
Proof. exact lookup_source. Qed.
Print Assumptions C59_lookup.

Theorem C59_output : forall main property emoji gencat name, exists out, Parse main property emoji gencat name out.
Proof. exact parse_total. Qed.
Print Assumptions C59_output.

(** A short comment stops the generator; a mention is enough to be read. *)
Theorem C59_category_refuted : exists m ml es, ShortLines m /\ Lines m ml /\ MainFile ml es
  /\ forall out, Parse (Some (Some {| bText := m; bFails := false |})) [] None true (lit "t") out -> out = Panic IndexOutOfRange.
Proof. exact category_refuted. Qed.
Print Assumptions C59_category_refuted.

Theorem C59_mention_refuted : exists e el from to_ name comment, ShortLines e /\ Lines e el
  /\ EmojiFile (lit "Extended_Pictographic") el [Entry from to_ name comment] /\ name <> lit "Extended_Pictographic".
Proof. exact mention_refuted. Qed.
Print Assumptions C59_mention_refuted.

Example C59_files_example : exists ml el es fs,
  ShortLines main_example /\ Lines main_example ml /\ ShortLines emoji_example /\ Lines emoji_example el
  /\ MainFile ml es /\ EmojiPart (lit "Extended_Pictographic") el fs
  /\ es = [Entry (lit "0600") (Some (lit "0605")) (lit "Prepend") (lit "Cf   [6] ARABIC NUMBER SIGN");
           Entry (lit "000D") None (lit "CR") (lit "Cc       <control-000D>");
           Entry (lit "1F1E6") (Some (lit "1F1FF")) (lit "Regional_Indicator") (lit "So  [26] LETTERS")]
  /\ fs = [Entry (lit "00A9") None (lit "Extended_Pictographic") (lit "E0.6   [1] copyright")].
Proof. exact files_example. Qed.

Example C59_source_example : exists src, Parse (Some (Some {| bText := main_example; bFails := false |})) (lit "Extended_Pictographic")
    (Some {| bText := emoji_example; bFails := false |}) false (lit "graphemeCodePoints") (Ok src)
  /\ src = lit "var graphemeCodePoints = [][3]int{" ++ [x0a; x09]
    ++ lit "{0x000D,0x000D,prCR}, // Cc       <control-000D>" ++ nl
    ++ lit "{0x00A9,0x00A9,prExtendedPictographic}, // E0.6   [1] copyright" ++ nl
    ++ lit "{0x0600,0x0605,prPrepend}, // Cf   [6] ARABIC NUMBER SIGN" ++ nl
    ++ lit "{0x1F1E6,0x1F1FF,prRegionalIndicator}, // So  [26] LETTERS" ++ nl ++ lit "}"
  /\ exists d, Reads num_example src d /\ Uniseg.property d 0x603 = 9 /\ Uniseg.property d 0x606 = 0.
Proof. exact source_example. Qed.

Example C59_fault_example :
  read_properties (Some (Some {| bText := lit "# ok" ++ nl ++ lit "0041..42 ; X # short"; bFails := false |})) [] None = Err (MainLine 2)
  /\ TrimSpace ([x20; x09] ++ lit "a b" ++ [xe2; x80; xa8; x0d]) = lit "a b".
Proof. split; vm_compute; reflexivity. Qed.
