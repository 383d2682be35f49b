(** * PropGenMain: the command gen_properties (C63). *)
From Coq Require Import Strings.String Permutation.
From Verif Require Import GoBase GenText GenTextSpec GenMain GenMainSpec GenMainProofs.
Local Open Scope Z_scope.

(** C63: what the fifth argument asks for. *)
Theorem C63_flags : forall rest p,
  (emoji_flag rest = p <-> EmojisAsked rest p) /\ (gencat_flag rest = true <-> CategoryAsked rest).
Proof. exact (fun rest p => conj (emojis_asked rest p) (gencat_asked rest)). Qed.
Print Assumptions C63_flags.

(** The requests made, in order. *)
Theorem C63_requests : forall w prog a1 a2 a3 a4 rest reqs res p,
  Ran w (prog :: a1 :: a2 :: a3 :: a4 :: rest) reqs res -> EmojisAsked rest p ->
  exists first second, reqs = first ++ second /\ (a1 = lit "-" -> first = []) /\ (a1 <> lit "-" -> first = [main_url a1]) /\
    ((second = [emoji_url] /\ p <> [] /\ exists es, FromMain w a1 es) \/ (second = [] /\ (p = [] \/ forall es, ~ FromMain w a1 es))).
Proof. exact ran_requests. Qed.
Print Assumptions C63_requests.

(** A file is written only if everything asked for was read completely. *)
Theorem C63_written : forall w args reqs path out, Ran w args reqs (Wrote path out) ->
  exists prog a1 a3 a4 rest p es, args = prog :: a1 :: path :: a3 :: a4 :: rest /\ EmojisAsked rest p /\ Entries w a1 p es /\
    writable w = true /\ (exists src, gofmt w src = Some out) /\ reqs <> [] /\ forall u, In u reqs -> exists ls, Served w u ls.
Proof. exact ran_wrote. Qed.
Print Assumptions C63_written.

(** And then it is a Go file declaring one table, the entries in order. *)
Theorem C63_file : forall w prog a1 a2 a3 a4 rest reqs res p es, Ran w (prog :: a1 :: a2 :: a3 :: a4 :: rest) reqs res ->
  EmojisAsked rest p -> Entries w a1 p es -> (CategoryAsked rest -> Forall Categorised es) ->
  Plain a3 -> ~ In x0a a1 -> ~ In x0a (today w) ->
  exists gs src, Permutation es gs /\ InOrder gs /\
    (CategoryAsked rest -> read_go src = Some [(lit "packageuniseg" ++ table_head a3 (lit "4"), map row4 gs)]) /\
    (~ CategoryAsked rest -> read_go src = Some [(lit "packageuniseg" ++ table_head a3 (lit "3"), map row3 gs)]) /\
    res = match gofmt w src with
          | Some out => if writable w then Wrote a2 out else NotWritten
          | None => BadSource
          end.
Proof. exact ran_file. Qed.
Print Assumptions C63_file.

Theorem C63_few : forall w args reqs res, (List.length args < 5)%nat -> Ran w args reqs res -> reqs = [] /\ res = NotEnough.
Proof. exact ran_few. Qed.
Print Assumptions C63_few.

Theorem C63_ends : forall w args, exists reqs res, Ran w args reqs res.
Proof. exact ran_exists. Qed.
Print Assumptions C63_ends.

(** The response's status is not looked at: any page in place of the emoji data
    that does not mention the property is taken for data without it. *)
Theorem C63_page : forall w prog a1 a2 a3 a4 f more p ls reqs res, a1 <> lit "-" -> Asked f (lit "emojis") p -> (forall v, ~ Asked f (lit "gencat") v) ->
  p <> [] -> Served w emoji_url ls -> Forall (fun l => ~ Mentions p l) ls ->
  Ran w (prog :: a1 :: a2 :: a3 :: a4 :: f :: more) reqs res -> exists reqs', Ran w [prog; a1; a2; a3; a4] reqs' res.
Proof. exact ran_page. Qed.
Print Assumptions C63_page.

(** The header names the emoji data even if they were not asked for. *)
Theorem C63_header_refuted : exists w args reqs path out, Ran w args reqs (Wrote path out) /\ gofmt w = (fun src => Some src) /\
  Mentions emoji_url out /\ ~ In emoji_url reqs.
Proof. exact header_says. Qed.
Print Assumptions C63_header_refuted.

Example C63_flags_example : EmojisAsked [lit "emojis=Extended_Pictographic"] (lit "Extended_Pictographic")
  /\ EmojisAsked [lit "gencat,emojis=A,emojis=B=C"] (lit "B") /\ CategoryAsked [lit "gencat,emojis=A,emojis=B=C"]
  /\ EmojisAsked [lit "emojis"] (lit "yes") /\ EmojisAsked [] [] /\ ~ CategoryAsked [lit "Gencat"].
Proof. exact go_generate. Qed.
Example C63_example : Ran one_file wide_args [main_url (lit "EastAsianWidth")] (Wrote (lit "eastasianwidth.go") wide_file).
Proof. exact wide_ran. Qed.
Example C63_file_example : exists es, Entries one_file (lit "EastAsianWidth") [] es /\ List.length es = 1%nat
  /\ Plain (lit "eastAsianWidth") /\ ~ In x0a (lit "EastAsianWidth") /\ ~ In x0a (today one_file).
Proof. exact wide_entries. Qed.
Example C63_page_example : Served with_page emoji_url [lit "<h1>404 Not Found</h1>"] /\ ~ Mentions (lit "Extended_Pictographic") (lit "<h1>404 Not Found</h1>")
  /\ Asked (lit "emojis=Extended_Pictographic") (lit "emojis") (lit "Extended_Pictographic")
  /\ (forall v, ~ Asked (lit "emojis=Extended_Pictographic") (lit "gencat") v)
  /\ Ran with_page (wide_args ++ [lit "emojis=Extended_Pictographic"]) [main_url (lit "EastAsianWidth"); emoji_url] (Wrote (lit "eastasianwidth.go") wide_file).
Proof. exact page_case. Qed.
