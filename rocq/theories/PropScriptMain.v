(** * PropScriptMain: the command script/generate.go and the widths its files
    give (C70). *)
From Coq Require Import Strings.String.
From Verif Require Import GoBase IntervalSpec Runewidth ConditionSpec Generate GenText GenTextSpec GenScriptSpec GenScriptTables GenMain ScriptMain ScriptMainSpec ScriptMainProofs.
Local Open Scope Z_scope.

(** ** C70: from the data files to RuneWidth *)

(** The file written declares tables with which RuneWidth gives the widths the lines say. *)
Theorem C70_widths : forall w ls ms marked fa early, Response w url_of_ea fa ls -> Response w url_of_em false ms -> Marked ms marked ->
  ProperLines EaRange ls -> ProperLines EmSays marked -> Up EaRange ls -> Up EmSays marked -> AllThere ls marked ->
  exists src T, Source src T
  /\ Script w early = ([url_of_ea; url_of_em],
       match gofmt w src with
       | None => Unformatted
       | Some out => if writable w then Written (lit "runewidth_table.go") out else Unwritten
       end)
  /\ forall st r, 0 <= r <= 0x10FFFF ->
     (forall x, RuneWidth_on T false st r = Some x <-> FileWidth ls r x)
     /\ (forall x, RuneWidth_on T true st r = Some x <-> FileWidthEastAsian ls marked st r x).
Proof. exact script_widths. Qed.
Print Assumptions C70_widths.

(** Lines of a class are missing, say because a page with an error came instead: the
    file is written all the same, and RuneWidth panics. *)
Theorem C70_missing : forall w ls ms marked fa early, Response w url_of_ea fa ls -> Response w url_of_em false ms -> Marked ms marked ->
  ProperLines EaRange ls -> ProperLines EmSays marked -> Up EaRange ls -> Up EmSays marked ->
  exists src T, Source src T
  /\ Script w early = ([url_of_ea; url_of_em],
       match gofmt w src with
       | None => Unformatted
       | Some out => if writable w then Written (lit "runewidth_table.go") out else Unwritten
       end)
  /\ ((forall r, ~ Has ls Na r) -> forall st r, 0x300 <= r <= 0x10FFFF -> RuneWidth_on T false st r = None)
  /\ ((forall r, ~ Combines ls r) -> forall st r, 0 <= r <= 0x10FFFF -> ~ Control r -> RuneWidth_on T true st r = None).
Proof. exact script_missing. Qed.
Print Assumptions C70_missing.

(** The second response fails before the marker: the file is written without the
    emoji table. *)
Theorem C70_no_emoji : forall w ls ms fa early, Response w url_of_ea fa ls -> Response w url_of_em true ms -> ProperLines EaRange ls ->
  Forall (fun l => ~ Mentions (lit "Extended_Pictographic ; No") l) ms ->
  exists src cmb dbl amb nar neu,
  Declares src [(lit "packagerunewidthvarcombining=table", cmb); (lit "vardoublewidth=table", dbl); (lit "varambiguous=table", amb);
     (lit "varnarrow=table", nar); (lit "varneutral=table", neu)]
  /\ Script w early = ([url_of_ea; url_of_em],
       match gofmt w src with
       | None => Unformatted
       | Some out => if writable w then Written (lit "runewidth_table.go") out else Unwritten
       end).
Proof. exact script_no_emoji. Qed.
Print Assumptions C70_no_emoji.

Theorem C70_responses : forall w early,
  (snd (Script w early) = NoResponse <-> web w url_of_ea = None \/ web w url_of_em = None)
  /\ (fst (Script w early) = [url_of_ea] \/ fst (Script w early) = [url_of_ea; url_of_em])
  /\ (In url_of_em (fst (Script w early)) <-> web w url_of_ea <> None).
Proof. exact script_responses. Qed.
Print Assumptions C70_responses.

(** A source declares one set of tables. *)
Theorem C70_one_meaning : forall src T T', Source src T -> Source src T' -> T = T'.
Proof. exact source_unique. Qed.
Print Assumptions C70_one_meaning.

(** With the tables in /repo nothing panics. *)
Theorem C70_repo : forall ea st r, RuneWidth_on repo_tables ea st r = Some (RuneWidth (plainCondition ea st) r).
Proof. exact repo_widths. Qed.
Print Assumptions C70_repo.

Example C70_example :
  Response (script_world ea_example em_example) url_of_ea false ea_lines /\ Response (script_world ea_example em_example) url_of_em false em_lines
  /\ Marked em_lines (after_marker em_lines)
  /\ ProperLines EaRange ea_lines /\ ProperLines EmSays (after_marker em_lines) /\ Up EaRange ea_lines /\ Up EmSays (after_marker em_lines)
  /\ AllThere ea_lines (after_marker em_lines)
  /\ FileWidth ea_lines 0x41 1 /\ FileWidth ea_lines 0x301 0
  /\ exists out, Script (script_world ea_example em_example) false = ([url_of_ea; url_of_em], Written (lit "runewidth_table.go") out).
Proof. exact script_example70. Qed.

Example C70_missing_example : Response (script_world page em_example) url_of_ea false [page] /\ Response (script_world page em_example) url_of_em false em_lines
  /\ Marked em_lines (after_marker em_lines)
  /\ ProperLines EaRange [page] /\ ProperLines EmSays (after_marker em_lines) /\ Up EaRange [page] /\ Up EmSays (after_marker em_lines)
  /\ (forall r, ~ Has [page] Na r) /\ (forall r, ~ Combines [page] r)
  /\ exists out, Script (script_world page em_example) false = ([url_of_ea; url_of_em], Written (lit "runewidth_table.go") out).
Proof. exact page_missing. Qed.
