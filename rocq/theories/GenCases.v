(** * GenCases: generated property tables, examples. *)
From Coq Require Import Strings.String.
From Verif Require Import GoBase Uniseg GenText GenTextSpec GenScan GenPattern GenRead GenSource GenLookup.
From Coq Require Import ZifyBool ZifyNat.
Local Open Scope Z_scope.

Lemma lines_scan text fails : ShortLines text -> exists ls, Lines text ls
  /\ scan {| bText := text; bFails := fails |} = (ls, if fails then ScanRead else ScanOk) /\ forall ls', Lines text ls' -> ls' = ls.
Proof.
  intros HS. destruct (scan_ok fails text [] (fun x => x) HS) as (ls & HL & E). exists ls. split; [exact HL|]. split; [exact E|].
  intros ls' HL'. exact (lines_fun _ _ _ HL' HL).
Qed.
Lemma long_scan pre run post fails : ShortLines pre -> (pre = [] \/ exists p, pre = p ++ [x0a]) -> ~ In x0a run -> 65536 <= slen run ->
  exists ls, Lines pre ls /\ scan {| bText := pre ++ run ++ post; bFails := fails |} = (ls, ScanTooLong).
Proof. intros HS Hp Hr HL. apply (scan_long fails run post Hr HL (pre ++ run ++ post) [] pre); auto. Qed.
Lemma trim_iff s c : TrimSpace s = c <-> Stripped s c.
Proof. split; [intros <-; apply trim_stripped|]. intros H. exact (stripped_fun _ _ _ (trim_stripped s) H). Qed.
Lemma parse_unique line : (forall p, parseProperty line = Some p <-> exists from to_ name comment, PropertyLine line from to_ name comment /\ p = the_prop from to_ name comment)
  /\ forall from to_ name comment from' to_' name' comment', PropertyLine line from to_ name comment -> PropertyLine line from' to_' name' comment' ->
     Entry from to_ name comment = Entry from' to_' name' comment'.
Proof.
  split; [intros p; apply parse_iff|]. intros. destruct (property_line_fun _ _ _ _ _ _ _ _ _ H H0) as (-> & -> & -> & ->). reflexivity.
Qed.

Definition nl : str := [x0a].
Definition main_example : str :=
  lit "# GraphemeBreakProperty" ++ nl ++ nl
  ++ lit "0600..0605    ; Prepend # Cf   [6] ARABIC NUMBER SIGN" ++ [x0d; x0a]
  ++ lit "  000D          ; CR # Cc       <control-000D>" ++ nl
  ++ lit "1F1E6..1F1FF;Regional_Indicator # So  [26] LETTERS".
Definition emoji_example : str :=
  lit "# emoji-data.txt" ++ nl
  ++ lit "0023          ; Emoji                # E0.0   [1] (#)       hash sign" ++ nl
  ++ lit "00A9          ; Extended_Pictographic# E0.6   [1] copyright" ++ nl.
Definition num_example (s : str) : Z := slen s.
Lemma all_in l s : forallb (fun b => existsb (Byte.eqb b) l) s = true -> Forall (fun b => In b l) s.
Proof. rewrite forallb_forall, Forall_forall. intros H b Hb. apply in_existsb, H, Hb. Qed.
Ltac hexfield := split; [cbn; lia|apply all_in; vm_compute; reflexivity].
Ltac property_line w1 w2 w3 :=
  exists w1, w2, w3, x20; split; [vm_compute; reflexivity|]; split; [hexfield|];
  split; [first [discriminate|intros t [= <-]; hexfield]|]; split; [apply all_in; vm_compute; reflexivity|]; split; [apply all_in; vm_compute; reflexivity|];
  split; [apply all_in; vm_compute; reflexivity|]; split; [apply in_existsb; reflexivity|];
  split; [split; [discriminate|apply all_in; vm_compute; reflexivity]|]; split; [discriminate|rewrite in_existsb; vm_compute; discriminate].
Example files_example : exists ml el es fs,
  ShortLines main_example /\ Lines main_example ml /\ ShortLines emoji_example /\ Lines emoji_example el
  /\ MainFile ml es /\ EmojiPart (lit "Extended_Pictographic") el fs
  /\ es = [Entry (lit "0600") (Some (lit "0605")) (lit "Prepend") (lit "Cf   [6] ARABIC NUMBER SIGN");
           Entry (lit "000D") None (lit "CR") (lit "Cc       <control-000D>");
           Entry (lit "1F1E6") (Some (lit "1F1FF")) (lit "Regional_Indicator") (lit "So  [26] LETTERS")]
  /\ fs = [Entry (lit "00A9") None (lit "Extended_Pictographic") (lit "E0.6   [1] copyright")].
Proof.
  exists (fst (scan {| bText := main_example; bFails := false |})), (fst (scan {| bText := emoji_example; bFails := false |})).
  eexists _, _.
  assert (S1 : ShortLines main_example) by (apply (scan_complete false main_example [] (fst (scan {| bText := main_example; bFails := false |}))); vm_compute; reflexivity).
  assert (S2 : ShortLines emoji_example) by (apply (scan_complete false emoji_example [] (fst (scan {| bText := emoji_example; bFails := false |}))); vm_compute; reflexivity).
  split; [exact S1|]. split; [destruct (lines_scan main_example false S1) as (ml & L & E & _); rewrite E; exact L|].
  split; [exact S2|]. split; [destruct (lines_scan emoji_example false S2) as (el & L & E & _); rewrite E; exact L|].
  split; [|split; [|split; reflexivity]].
  - eapply main_comment; [apply trim_iff; vm_compute; reflexivity|].
    eapply main_blank; [apply trim_iff; vm_compute; reflexivity|].
    eapply main_entry; [apply trim_iff; vm_compute; reflexivity|property_line (lit "    ") (lit " ") (lit " ")|].
    eapply main_entry; [apply trim_iff; vm_compute; reflexivity|property_line (lit "          ") (lit " ") (lit " ")|].
    eapply main_entry; [apply trim_iff; vm_compute; reflexivity|property_line (lit "") (lit "") (lit " ")|].
    apply main_nil.
  - right. split; [discriminate|]. apply em_comment. apply em_other; [rewrite <- contains_iff; vm_compute; discriminate|].
    apply em_entry; [apply contains_iff; vm_compute; reflexivity|property_line (lit "          ") (lit " ") (lit "")|]. apply em_nil.
Qed.

Example source_example : exists src, Parse (Some (Some {| bText := main_example; bFails := false |})) (lit "Extended_Pictographic")
    (Some {| bText := emoji_example; bFails := false |}) false (lit "graphemeCodePoints") (Ok src)
  /\ src = lit "var graphemeCodePoints = [][3]int{" ++ [x0a; x09]
    ++ lit "{0x000D,0x000D,prCR}, // Cc       <control-000D>" ++ nl
    ++ lit "{0x00A9,0x00A9,prExtendedPictographic}, // E0.6   [1] copyright" ++ nl
    ++ lit "{0x0600,0x0605,prPrepend}, // Cf   [6] ARABIC NUMBER SIGN" ++ nl
    ++ lit "{0x1F1E6,0x1F1FF,prRegionalIndicator}, // So  [26] LETTERS" ++ nl ++ lit "}"
  /\ exists d, Reads num_example src d /\ Uniseg.property d 0x603 = 9 /\ Uniseg.property d 0x606 = 0.
Proof.
  eexists. split; [|split; [reflexivity|]].
  - unfold Parse. remember (read_properties _ _ _) as r eqn:Er. vm_compute in Er. subst r.
    match goal with |- exists qs, Permutation.Permutation [?a; ?b; ?c; ?d] qs /\ _ => exists [b; d; a; c] end. split.
    + match goal with |- Permutation.Permutation [?a; ?b; ?c; ?d] _ => transitivity [b; a; c; d]; [apply Permutation.perm_swap|]; apply Permutation.perm_skip;
        transitivity [a; d; c]; [apply Permutation.perm_skip, Permutation.perm_swap|apply Permutation.perm_swap] end.
    + split; [repeat constructor; vm_compute; discriminate|vm_compute; reflexivity].
  - exists [(13, 13, 4); (169, 169, 22); (1536, 1541, 9); (127462, 127487, 19)]. split; [eexists _, _; split; [vm_compute; reflexivity|vm_compute; reflexivity]|]. split; vm_compute; reflexivity.
Qed.

(** A comment of fewer than three bytes stops the generator when it is to
    take general categories from the comments. *)
Definition short_comment : str := lit "0041 ; Lu # L".
Lemma parse_ok main property emoji gencat name out ps : read_properties main property emoji = Ok ps ->
  Parse main property emoji gencat name out ->
  exists qs, Permutation.Permutation ps qs /\ Ordered qs /\ out = print_table name gencat qs.
Proof. intros E H. unfold Parse in H. rewrite E in H. exact H. Qed.
Lemma category_refuted : exists m ml es, ShortLines m /\ Lines m ml /\ MainFile ml es
  /\ forall out, Parse (Some (Some {| bText := m; bFails := false |})) [] None true (lit "t") out -> out = Panic IndexOutOfRange.
Proof.
  exists short_comment, [short_comment], [Entry (lit "0041") None (lit "Lu") (lit "L")].
  assert (S1 : ShortLines short_comment) by (apply (scan_complete false short_comment [] [short_comment]); vm_compute; reflexivity).
  split; [exact S1|]. split; [destruct (lines_scan short_comment false S1) as (ml & L & E & _); vm_compute in E; injection E as <-; exact L|].
  split; [eapply main_entry; [apply trim_iff; vm_compute; reflexivity|property_line (lit " ") (lit " ") (lit " ")|apply main_nil]|].
  intros out H. eapply parse_ok in H; [|vm_compute; reflexivity].
  destruct H as (qs & HP & _ & ->). apply Permutation.Permutation_length_1_inv in HP. subst qs. vm_compute. reflexivity.
Qed.
(** A line is taken for the mention of the property anywhere in it. *)
Definition other_line : str := lit "0023 ; Emoji # not Extended_Pictographic".
Lemma mention_refuted : exists e el from to_ name comment, ShortLines e /\ Lines e el
  /\ EmojiFile (lit "Extended_Pictographic") el [Entry from to_ name comment] /\ name <> lit "Extended_Pictographic".
Proof.
  exists other_line, [other_line], (lit "0023"), None, (lit "Emoji"), (lit "not Extended_Pictographic").
  assert (S1 : ShortLines other_line) by (apply (scan_complete false other_line [] [other_line]); vm_compute; reflexivity).
  split; [exact S1|]. split; [destruct (lines_scan other_line false S1) as (ml & L & E & _); vm_compute in E; injection E as <-; exact L|].
  split; [apply em_entry; [apply contains_iff; vm_compute; reflexivity|property_line (lit " ") (lit " ") (lit " ")|apply em_nil]|discriminate].
Qed.
