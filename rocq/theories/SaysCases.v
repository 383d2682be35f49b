(** * SaysCases: examples of what is printed (C103). *)
From Coq Require Import Strings.String Permutation ZifyNat.
From Verif Require Import GoBase GenText GenTextSpec GenScan GenRead GenCases GenMain GenMainSpec GenMainProofs ScriptMain ReadSpec Table TableExamples Says SaysSpec SaysProofs.
Local Open Scope Z_scope.

Definition texts : Texts :=
  {| getText := fun u => lit "Get " ++ u ++ lit ": no such host"; readText := fun _ => lit "unexpected EOF";
     fmtText := fun _ => lit "1:1: expected 'package'" ++ [x0a] ++ lit "2:1: expected declaration"; writeText := fun p => lit "open " ++ p ++ lit ": permission denied";
     trace := lit "panic: runtime error" ++ [x0a] |}.
Definition with_text (t : str) (fails : bool) (fmt : str -> option str) (ok : bool) : World :=
  {| web := fun u => if str_eqb u (main_url (lit "EastAsianWidth")) then Some {| bText := t; bFails := fails |} else None;
     gofmt := fmt; writable := ok; today := lit "September 10, 2022" |}.
Definition wide_log (ms : list str) : str := List.concat (map (fun m => lit "gen_properties (eastasianwidth): " ++ m ++ [x0a]) ms).
Definition parsing : str := lit "Parsing https://www.unicode.org/Public/14.0.0/ucd/EastAsianWidth.txt".

Definition wide_prop := {| pFrom := lit "3000"; pTo := lit "3000"; pProp := lit "F"; pComment := lit "Zs IDEOGRAPHIC SPACE" |}.
Lemma wide_parse fails fmt ok : fails = false ->
  parse_said texts (with_text wide_text fails fmt ok) (lit "eastasianwidth") (mainURL (lit "EastAsianWidth")) (emoji_flag []) = ([parsing], Ok [wide_prop]).
Proof. intros ->. vm_compute. reflexivity. Qed.

Lemma wide_said : Saying texts one_file wide_args [] (wide_log [parsing; lit "Writing to eastasianwidth.go"]) 0 (Some (lit "eastasianwidth.go", wide_file)).
Proof.
  change one_file with (with_text wide_text false (fun src => Some src) true). unfold Saying, wide_args. rewrite wide_parse by reflexivity.
  split; [reflexivity|]. exists [wide_prop]. split; [reflexivity|]. split; [constructor|].
  replace (print_table _ _ _) with (Ok (lit "var eastAsianWidth = [][3]int{" ++ [x0a; x09] ++ lit "{0x3000,0x3000,prF}, // Zs IDEOGRAPHIC SPACE" ++ [x0a] ++ lit "}") : outcome gen_error str)
    by (vm_compute; reflexivity).
  cbn [gofmt with_text writable]. split; [vm_compute; reflexivity|]. split; [reflexivity|]. vm_compute. reflexivity.
Qed.

(** A download that breaks off in a line is reported as a bad line. *)
Definition broken : World := with_text (lit "3000 ; F # Zs IDEOGRAPHIC SPACE" ++ [x0a] ++ lit "30") true (fun src => Some src) true.
Lemma broken_said : exists T w args b err, web w (main_url (lit "EastAsianWidth")) = Some b /\ bFails b = true
  /\ args = [lit "gen_properties"; lit "EastAsianWidth"; lit "eastasianwidth.go"; lit "eastAsianWidth"; lit "eastasianwidth"]
  /\ (forall out err' status file, Saying T w args out err' status file -> err' = err /\ status = 1)
  /\ Saying T w args [] err 1 None
  /\ Mentions (lit "line 2: no property found") err /\ ~ Mentions (readText T (main_url (lit "EastAsianWidth"))) err.
Proof.
  assert (K : parse_said texts broken (lit "eastasianwidth") (mainURL (lit "EastAsianWidth")) (emoji_flag [])
     = ([parsing], Err (lit "eastasianwidth line 2: no property found"))) by (vm_compute; reflexivity).
  exists texts, broken, wide_args. eexists. exists (wide_log [parsing; lit "eastasianwidth line 2: no property found"]).
  split; [reflexivity|]. split; [reflexivity|]. split; [reflexivity|].
  split; [|split; [|split]].
  - intros out err' status file H. unfold Saying, wide_args in H. rewrite K in H. destruct H as (_ & -> & -> & _). split; [vm_compute; reflexivity|reflexivity].
  - unfold Saying, wide_args. rewrite K. split; [reflexivity|]. split; [vm_compute; reflexivity|]. split; reflexivity.
  - exists (lit "gen_properties (eastasianwidth): " ++ parsing ++ [x0a] ++ lit "gen_properties (eastasianwidth): eastasianwidth "), [x0a]. vm_compute. reflexivity.
  - intros M. apply contains_iff in M. vm_compute in M. discriminate.
Qed.

(** Saying so is not writing. *)
Lemma unwritten_said : exists T w args err, Saying T w args [] err 1 None /\ Mentions (lit "Writing to eastasianwidth.go") err.
Proof.
  exists texts, (with_text wide_text false (fun src => Some src) false), wide_args, (wide_log [parsing; lit "Writing to eastasianwidth.go"; lit "open eastasianwidth.go: permission denied"]).
  split.
  - unfold Saying, wide_args. rewrite wide_parse by reflexivity. split; [reflexivity|]. exists [wide_prop]. split; [reflexivity|]. split; [constructor|].
    replace (print_table _ _ _) with (Ok (lit "var eastAsianWidth = [][3]int{" ++ [x0a; x09] ++ lit "{0x3000,0x3000,prF}, // Zs IDEOGRAPHIC SPACE" ++ [x0a] ++ lit "}") : outcome gen_error str)
      by (vm_compute; reflexivity).
    cbn [gofmt with_text writable]. split; [vm_compute; reflexivity|]. split; reflexivity.
  - apply contains_iff. vm_compute. reflexivity.
Qed.

(** Not every line has the prefix. *)
Lemma second_line : exists T w args err, Saying T w args [] err 1 None
  /\ exists l, In l (split [x0a] 0 err) /\ l <> [] /\ ~ Mentions (lit "gen_properties") l.
Proof.
  exists texts, (with_text wide_text false (fun _ => None) true), wide_args, (wide_log [parsing; lit "gofmt:1:1: expected 'package'" ++ [x0a] ++ lit "2:1: expected declaration"]).
  split.
  - unfold Saying, wide_args. rewrite wide_parse by reflexivity. split; [reflexivity|]. exists [wide_prop]. split; [reflexivity|]. split; [constructor|].
    replace (print_table _ _ _) with (Ok (lit "var eastAsianWidth = [][3]int{" ++ [x0a; x09] ++ lit "{0x3000,0x3000,prF}, // Zs IDEOGRAPHIC SPACE" ++ [x0a] ++ lit "}") : outcome gen_error str)
      by (vm_compute; reflexivity).
    cbn [gofmt with_text]. split; [vm_compute; reflexivity|]. split; reflexivity.
  - exists (lit "2:1: expected declaration"). split; [|split; [discriminate|]].
    + replace (split _ _ _) with [lit "gen_properties (eastasianwidth): " ++ parsing; lit "gen_properties (eastasianwidth): gofmt:1:1: expected 'package'"; lit "2:1: expected declaration"; []]
        by (vm_compute; reflexivity). right. right. left. reflexivity.
    + intros M. apply contains_iff in M. vm_compute in M. discriminate.
Qed.

(** script/generate.go says nothing of downloads that break off. *)
Lemma script_silent : exists T stamp w b b', web w ea_url = Some b /\ bFails b = true /\ web w em_url = Some b' /\ bFails b' = true
  /\ forall early, exists file, ScriptSaying T stamp w early = ([], 0, Some file).
Proof.
  exists texts, (lit "2022/09/10 12:00:00 "), {| web := fun _ => Some {| bText := []; bFails := true |}; gofmt := fun src => Some src; writable := true; today := [] |}.
  eexists. eexists. split; [reflexivity|]. split; [reflexivity|]. split; [reflexivity|]. split; [reflexivity|]. intros early. eexists. reflexivity.
Qed.

Definition broken_text : str := lit "3000 ; F # Zs IDEOGRAPHIC SPACE" ++ [x0a] ++ lit "30".
Lemma numerals : Numeral (lit "0") 0 /\ Numeral (lit "65536") 65536 /\ dec_text 0 = lit "0" /\ dec_text 10 = lit "10" /\ dec_text 65536 = lit "65536"
  /\ snd (AlignFormattedItem exTable [lit "x"]) = Err (1, 2) /\ AlignErrorText (1, 2) = lit "bad number of columns: 1, must be 2"
  /\ web broken (main_url (lit "EastAsianWidth")) = Some {| bText := broken_text; bFails := true |} /\ ShortLines broken_text
  /\ exists ls, Lines broken_text ls /\ MainFault ls 2.
Proof.
  assert (D0 : dec_text 0 = lit "0") by (vm_compute; reflexivity).
  assert (D1 : dec_text 65536 = lit "65536") by (vm_compute; reflexivity).
  split; [rewrite <- D0; apply dec_text_ok; discriminate|]. split; [rewrite <- D1; apply dec_text_ok; discriminate|].
  split; [exact D0|]. split; [vm_compute; reflexivity|]. split; [exact D1|].
  split; [vm_compute; reflexivity|]. split; [vm_compute; reflexivity|]. split; [reflexivity|].
  assert (HS : ShortLines broken_text).
  { intros pre run post K _. assert (L : slen broken_text = 34) by (vm_compute; reflexivity).
    rewrite K in L. unfold slen in *. rewrite !app_length in L. lia. }
  split; [exact HS|]. destruct (lines_scan broken_text true HS) as (ls & HL & SC & _). exists ls. split; [exact HL|].
  destruct (proj1 (main_err ls 0 (MainLine 2))) as (k & [= <-] & HF); [|exact HF].
  assert (Q : fst (scan {| bText := broken_text; bFails := true |}) = [lit "3000 ; F # Zs IDEOGRAPHIC SPACE"; lit "30"]) by (vm_compute; reflexivity).
  rewrite SC in Q. cbn [fst] in Q. subst ls. vm_compute. reflexivity.
Qed.

(** Data for which the emojis are at fault. *)
Definition half : World :=
  {| web := fun u => if str_eqb u emoji_url then Some {| bText := lit "x Extended_Pictographic"; bFails := false |} else None;
     gofmt := fun src => Some src; writable := true; today := [] |}.
Lemma half_said : EmojisAsked [lit "emojis=Extended_Pictographic"] (lit "Extended_Pictographic") /\ FromMain half (lit "-") []
  /\ EmojiFault (lit "Extended_Pictographic") [lit "x Extended_Pictographic"] 1
  /\ Saying texts half [lit "gen_properties"; lit "-"; lit "emoji.go"; lit "emoji"; lit "emoji"; lit "emojis=Extended_Pictographic"] []
       (lit "gen_properties (emoji): Parsing https://unicode.org/Public/14.0.0/ucd/emoji/emoji-data.txt" ++ [x0a]
        ++ lit "gen_properties (emoji): emojis line 1: no property found" ++ [x0a]) 1 None.
Proof.
  split; [apply emojis_asked; vm_compute; reflexivity|]. split; [left; split; reflexivity|]. split.
  - destruct (proj1 (emoji_err (lit "Extended_Pictographic") ltac:(discriminate) [lit "x Extended_Pictographic"] 0 (EmojiLine 1))) as (k & [= <-] & HF); [|exact HF].
    vm_compute. reflexivity.
  - unfold Saying.
    replace (parse_said _ _ _ _ _) with ([lit "Parsing https://unicode.org/Public/14.0.0/ucd/emoji/emoji-data.txt"], Err (lit "emojis line 1: no property found") : outcome str (list prop4)) by (vm_compute; reflexivity).
    split; [reflexivity|]. split; [vm_compute; reflexivity|]. split; reflexivity.
Qed.
