(** * PropCalls: getters, alignments, lists and writers that keep state, call
    back into the table, or change their answers (C68). *)
From Coq Require Import Strings.String.
From Verif Require Import GoBase Runewidth Width Table Merge TableContract TableExamples MergeSpec MergeExamples MergeRace MergeAsked MergeAskedCases
  Calls CallsSpec CallsProofs CallsMerge CallsSearch CallsResults CallsSteady CallsFinal CallsCases.
Local Open Scope Z_scope.

(** C68: FormatItem asks each column's getter for the value and then for its
    text, column after column, once each, up to the first failure; it records
    the width of exactly the texts it got, at once. *)
Theorem C68_format : forall Item Val E G L W (env : environment Item Val E G L W) c cols item w0 m0 w' m' r tr,
  krun env (FormatItemK c cols item) w0 m0 = (w', m', r, tr) -> FormatActs c item cols tr r.
Proof. exact @format_run. Qed.
Print Assumptions C68_format.

(** Whatever getters do to the widths while it runs, if they never make one
    smaller, then after it every text returned fits the width recorded. *)
Theorem C68_widths : forall Item Val E G L W (env : environment Item Val E G L W) c cols item w0 m0 w' m' texts tr, Grows env ->
  krun env (FormatItemK c (map Some cols) item) w0 m0 = (w', m', Ok texts, tr) ->
  List.length texts = List.length cols /\ (forall n, m0 n <= m' n) /\
  forall i col s, nth_error cols i = Some col -> nth_error texts i = Some s -> vwidth c s <= m' (kName col).
Proof. exact @format_widths. Qed.
Print Assumptions C68_widths.

(** And if they never change one, the width of a column afterwards is the
    greatest of the one before and of those of its texts; failed calls
    included. *)
Theorem C68_only : forall Item Val E G L W (env : environment Item Val E G L W) c cols item w0 m0 w' m' r tr, Quiet env ->
  krun env (FormatItemK c cols item) w0 m0 = (w', m', r, tr) ->
  forall n, IsMax (fun x => x = m0 n \/ In (Raised n x) tr) (m' n).
Proof. intros Item Val E G L W env c cols item w0 m0 w' m' r tr HQ. exact (@run_quiet _ _ _ _ _ W _ env _ HQ w0 m0 w' m' r tr). Qed.
Print Assumptions C68_only.

(** FormatItemBasic asks for one string per column, in order. *)
Theorem C68_basic : forall Item Val E G L W (env : environment Item Val E G L W) cols item sep w0 m0 w' m' r tr,
  krun env (FormatItemBasicK cols item sep) w0 m0 = (w', m', r, tr) -> BasicActs item sep cols tr r.
Proof. exact @basic_run. Qed.
Print Assumptions C68_basic.

(** AlignFormattedItem calls each alignment once, in order, with the width
    recorded at that moment; a panic leaves the cells after it as they were. *)
Theorem C68_align : forall Item Val E G L W (env : environment Item Val E G L W) cols formatted w0 m0 w' m' slice r tr,
  List.length formatted = List.length cols ->
  krun env (AlignFormattedItemK cols formatted) w0 m0 = (w', m', (slice, r), tr) -> AlignActs cols formatted tr slice r.
Proof. exact @align_run. Qed.
Print Assumptions C68_align.

(** With another number of cells it calls nothing. *)
Theorem C68_align_other : forall Item Val E G L W (env : environment Item Val E G L W) cols formatted w0 m0,
  List.length formatted <> List.length cols ->
  krun env (AlignFormattedItemK cols formatted) w0 m0 = (w0, m0, (formatted, Err (slen formatted, slen cols)), []).
Proof. exact @align_other. Qed.
Print Assumptions C68_align_other.

(** The second column's width is raised to 9 while the first is formatted, and
    the second getter answers with a longer text each time. *)
Example C68_format_example :
  let run := krun (moody 0 0) (FormatItemK exC [Some kA; Some kB] (lit "x"%string)) 0%nat wempty in
  Grows (moody 0 0) /\
  snd (fst run) = Ok [lit "x*"%string; lit "x***"%string] /\ (snd (fst (fst run))) cA = 2 /\ (snd (fst (fst run))) cB = 9 /\
  snd run = [Called (CValue 1%nat (lit "x"%string)) (Ok (lit "x"%string)); Called (CFormat 1%nat (lit "x"%string) (lit "x"%string)) (Ok (lit "x*"%string)); Raised cA 2;
             Called (CValue 2%nat (lit "x"%string)) (Ok (lit "x"%string)); Called (CFormat 2%nat (lit "x"%string) (lit "x"%string)) (Ok (lit "x***"%string)); Raised cB 4].
Proof. split; [apply moody_grows|exact format_example]. Qed.
Example C68_only_example : Quiet (fun q w (m : wmap) => let '(w', _, a) := moody 0 0 q w m in (w', m, a)).
Proof. exact (moody_quiet_merge 0 0). Qed.
Example C68_basic_example :
  let run := krun (moody 0 0) (FormatItemBasicK [Some kA; Some kB; Some kN] (lit "x"%string) (lit ","%string)) 0%nat wempty in
  snd (fst run) = Panic NilDereference /\
  snd run = [Called (CString 1%nat cA (lit "x"%string)) (Ok cA); Called (CString 2%nat cB (lit "x"%string)) (Ok (lit "B*"%string))].
Proof. exact basic_example. Qed.
Example C68_align_example :
  let run := krun (moody 0 0) (AlignFormattedItemK [Some kA; Some kB] [lit "p"%string; lit "q"%string]) 0%nat (wset wempty cA 5) in
  snd (fst run) = ([lit "p**"%string; lit "q"%string], Ok [lit "p**"%string; lit "q"%string]) /\
  snd run = [Looked cA 5; Called (CAlign 2%nat (lit "p"%string) 5) (Ok (lit "p**"%string))].
Proof. exact align_example. Qed.

(** Plain merging that ends without a panic looked the widths up, asked for the
    number of items [n], and then for the items [0 … n - 1], once each, in the
    order they are printed in, whatever Len and Get answered before; each line
    is the cells handed out for it, aligned with the widths recorded at that
    moment, and is written before the next item is asked for. *)
Theorem C68_plain : forall Item Val E G L W (env : environment Item Val E G L W) m fuel c cols maxWidth sep w0 m0 w' m' tr,
  krun env (mergeK m fuel c (map Some cols) maxWidth sep false) w0 m0 = (w', m', Some (Ok tt), tr) -> Counts tr ->
  exists g rest lines, Z.of_nat g = kestimate m0 cols sep maxWidth /\ tr = looks m0 cols ++ rest /\ Prints c cols sep m g true lines rest.
Proof. exact @plain_finished. Qed.
Print Assumptions C68_plain.

(** Compact merging first measures one more group after another, each as the
    list answers then; if one was accepted it prints with those widths, and
    otherwise as plain merging does. *)
Theorem C68_compact : forall Item Val E G L W (env : environment Item Val E G L W) m fuel c cols maxWidth sep w0 m0 w' m' tr,
  krun env (mergeK m fuel c (map Some cols) maxWidth sep true) w0 m0 = (w', m', Some (Ok tt), tr) -> Counts tr ->
  exists g0 g Wd search print lines, Z.of_nat g0 = kestimate m0 cols sep maxWidth /\ tr = looks m0 cols ++ search ++ print /\
    Searches c m cols sep maxWidth g0 None search g Wd /\
    match Wd with None => Prints c cols sep m g true lines print | Some Wg => Prints c cols sep m g false lines print /\ UsesWidths Wg lines end.
Proof. exact @compact_finished. Qed.
Print Assumptions C68_compact.

(** If it panics, then because the object called last panicked, the write
    failed, or a row handed out was too short.  In particular the widths found
    by the search are never too few, however the list changes. *)
Theorem C68_blame : forall Item Val E G L W (env : environment Item Val E G L W) m fuel c cols maxWidth sep compact w0 m0 w' m' p tr,
  krun env (mergeK m fuel c (map Some cols) maxWidth sep compact) w0 m0 = (w', m', Some (Panic p), tr) -> Counts tr ->
  kreckoned m0 cols sep mod 65536 <> 0 -> Blame (List.length cols) tr p.
Proof. exact @merge_blame. Qed.
Print Assumptions C68_blame.

(** Or because one item is reckoned to take no width; then nothing is called. *)
Theorem C68_zero : forall Item Val E G L W (env : environment Item Val E G L W) m fuel c cols maxWidth sep compact w0 m0,
  kreckoned m0 cols sep mod 65536 = 0 ->
  krun env (mergeK m fuel c (map Some cols) maxWidth sep compact) w0 m0 = (w0, m0, Some (Panic DivideByZero), looks m0 cols).
Proof. exact @merge_zero. Qed.
Print Assumptions C68_zero.

(** However it ends, and even if the list changes its length: every item asked
    for is one the list had when last asked for its length; no width is
    recorded. *)
Theorem C68_asked : forall Item Val E G L W (env : environment Item Val E G L W) m fuel c cols maxWidth sep compact w0 m0 w' m' r tr,
  krun env (mergeK m fuel c (map Some cols) maxWidth sep compact) w0 m0 = (w', m', r, tr) ->
  AsksWithin None tr /\ forall name v, ~ In (Raised name v) tr.
Proof. exact @merge_asks. Qed.
Print Assumptions C68_asked.

(** So if the objects called leave the widths alone, all stay as they were. *)
Theorem C68_quiet : forall Item Val E G L W (env : environment Item Val E G L W) m fuel c cols maxWidth sep compact w0 m0 w' m' r tr, Quiet env ->
  krun env (mergeK m fuel c (map Some cols) maxWidth sep compact) w0 m0 = (w', m', r, tr) ->
  m' = m0 /\ forall n v, In (Looked n v) tr -> v = m0 n.
Proof. exact @merge_quiet. Qed.
Print Assumptions C68_quiet.

(** Vertically the search ends as long as the list never says it has more than
    [N] items. *)
Theorem C68_vertical_ends : forall Item Val E G L W (env : environment Item Val E G L W) fuel c cols maxWidth sep compact N w0 m0 w' m' r tr,
  krun env (mergeK V fuel c (map Some cols) maxWidth sep compact) w0 m0 = (w', m', r, tr) ->
  (forall n, In (Called CLen (Ok n)) tr -> 0 <= n <= Z.of_nat N) -> (N < fuel)%nat -> r <> None.
Proof. exact @vertical_ends. Qed.
Print Assumptions C68_vertical_ends.

(** Four items, two groups: narrow rows while measuring, wide ones while
    printing, or rows that are too short from the second printed on. *)
Example C68_merge_example :
  ends 3 99 false (Some (Ok tt)) /\ ends 6 99 true (Some (Ok tt)) /\ ends 6 8 true (Some (Panic IndexOutOfRange)) /\
  kreckoned m12 [kN] (lit "|"%string) mod 65536 <> 0 /\ kestimate m12 [kN] (lit "|"%string) 20 = 1.
Proof. exact merge_example. Qed.
Example C68_zero_example : kreckoned wempty [kN; kB] [] mod 65536 = 0.
Proof. exact zero_example. Qed.

(** With objects without state these programs do what the functions of Table.v
    and Merge.v do. *)
Theorem C68_refines : forall Item Val E n get ok (err : E) c (t : Table Item Val E) m, columnWidth t = Some m ->
  let env := steady n get ok err in let cols := map (option_map kcol_of) (Columns (tSpec t)) in
  (forall item k, exists m' r tr, krun env (FormatItemK c cols item) k m = (k, m', r, tr) /\ FormatItem c t item = (set_width t m', r)) /\
  (forall item sep k, exists tr, krun env (FormatItemBasicK cols item sep) k m = (k, m, FormatItemBasic t item sep, tr)) /\
  (forall formatted k, exists tr, krun env (AlignFormattedItemK cols formatted) k m = (k, m, AlignFormattedItem t formatted, tr)) /\
  forall md fuel maxWidth sep compact k' m' r tr, krun env (mergeK md fuel c cols maxWidth sep compact) 0%nat m = (k', m', r, tr) ->
    m' = m /\ merge md fuel c t ok (steady_list n get) maxWidth sep compact = {| written := written_by tr; stop := stop_of r |}.
Proof.
  intros Item Val E n get ok err c t m Hm env cols. split; [intros item k; exact (format_same c t m item k Hm)|].
  split; [intros item sep k; exact (basic_same t m item sep k)|]. split; [intros formatted k; exact (align_same t m formatted k Hm)|].
  intros md fuel maxWidth sep compact k' m' r tr. exact (steady_merge Hm md fuel maxWidth sep compact k' m' r tr).
Qed.
Print Assumptions C68_refines.
Example C68_refines_example : columnWidth mTable = Some mMap /\ Columns (tSpec mTable) = map Some mCols /\ mCols <> [].
Proof. split; [exact mMap_ok|]. split; [reflexivity|discriminate]. Qed.

(** Refuted: that a line printed compactly fits the width given if every row
    handed out fits the recorded widths and these fit the width given; a list
    that answers differently while printing than while measuring breaks it. *)
Theorem C68_changing_refuted : exists (env : environment str str str nat nat nat) c name maxWidth sep m0 w' m' tr, Quiet env /\
  krun env (mergeK V 9 c [Some {| kName := name; kGetter := None; kAlign := None |}] maxWidth sep true) 0%nat m0 = (w', m', Some (Ok tt), tr) /\
  (forall i row, In (Called (CGet i) (Ok row)) tr -> exists s, row = [s] /\ vwidth c s <= m0 name) /\ m0 name <= maxWidth /\
  exists text, In (Called (CWrite text) (Ok tt)) tr /\ maxWidth < vwidth c text.
Proof. exact changing_refuted. Qed.
Print Assumptions C68_changing_refuted.
