(** * MarkCases: marked and coloured cells in a table, and where marks do count. *)
From Coq Require Import Strings.String.
From Coq Require Import ZifyBool ZifyNat.
From Verif Require Import GoBase Utf8 Utf8Spec Utf8Theory Uniseg GraphemeSpec UnisegProofs EscapeSpec TextSpec Runewidth ConditionSpec LawsTheory Width Locale AlignSpec Table TableContract TableExamples
  Merge MergeSpec MergeExamples TemplateSpec TemplateProofs TerminalSpec MarkSpec MarkProofs.
Local Open Scope Z_scope.

(** ** Cells that are decorated *)
Section Cells.
Context {Item Val E : Type}.
Lemma decorated_items c (items items' : FormattedItemList E) : Reachable c -> DecoratedItems c items items' -> SameWidths c items items'.
Proof.
  intros Hc [HL HI]. split; [exact HL|]. intros i. specialize (HI i). destruct (fiGet items i) as [row|e|p], (fiGet items' i) as [row'|e'|p']; auto.
  induction HI as [|s s' row row' Hs _ IH]; [reflexivity|]. cbn [map]. rewrite IH, (decorated_width c s s' Hc Hs). reflexivity.
Qed.
Lemma merge_decorated c (t : Table Item Val E) m fuel ok items items' maxWidth sep compact : Reachable c ->
  Forall (fun mc => match mc with Some col => BuiltIn c col | None => True end) (Columns (tSpec t)) -> DecoratedItems c items items' ->
  exists forms, Forall (Forall (Proper Blank sep items)) forms /\
    written (merge m fuel c t ok items maxWidth sep compact) = map (fill items) forms /\ written (merge m fuel c t ok items' maxWidth sep compact) = map (fill items') forms /\
    stop (merge m fuel c t ok items' maxWidth sep compact) = stop (merge m fuel c t ok items maxWidth sep compact).
Proof.
  intros Hc HB HD. destruct (merge_template Blank c t m fuel ok items maxWidth sep compact (builtin_columns c t HB)) as (T & st & TP & TE). exists T. split; [exact TP|].
  rewrite (TE items) by (split; [reflexivity|]; intros i; destruct (fiGet items i); reflexivity). rewrite (TE items' (decorated_items c items items' Hc HD)). auto.
Qed.
End Cells.

(** ** By example *)
Lemma encoded rs s : Forall Scalar rs -> s = List.concat (map EncodeRune rs) -> EncodesText rs s.
Proof. intros HF ->. exists (map EncodeRune rs). split; [|reflexivity]. induction HF; constructor; [apply encode_encodes; assumption|assumption]. Qed.
Definition acute : str := [xcc; x81].
Lemma acute_mark : EncodesText [0x301] acute /\ Forall Mark [0x301] /\ RuneWidth exC 0x301 = 0.
Proof.
  split; [|split].
  - apply encoded; [repeat constructor; unfold Scalar; lia|reflexivity].
  - constructor; [left; vm_compute; reflexivity|constructor].
  - vm_compute. reflexivity.
Qed.
Definition on_red : str := x1b :: (x5b :: lit "31"%string) ++ [x6d].
Definition off_red : str := x1b :: (x5b :: lit "0"%string) ++ [x6d].
Lemma red_sgr : SGR on_red /\ SGR off_red.
Proof.
  assert (D : forall ds, forallb (fun r => existsb (Z.eqb r) (map bv (lit digits))) ds = true -> (1 <= List.length ds <= 4)%nat -> Params ds).
  { intros ds HD HL. rewrite <- (app_nil_r ds). apply p_some; [|apply mp_nil]. split; [|exact HL]. apply Forall_forall. intros r Hr. rewrite forallb_forall in HD.
    specialize (HD r Hr). apply existsb_exists in HD. destruct HD as (x & Hx & K). apply Z.eqb_eq in K. subst x. exact Hx. }
  split; constructor; apply D; vm_compute; auto.
Qed.
Lemma x_marked : Marked exC (lit "x"%string) (lit "x"%string ++ acute).
Proof.
  destruct acute_mark as (A & B & Z0). apply (marked exC (lit "x"%string) [0x301] acute []); auto.
  - exact Logic.I.
  - exists [], 0x78. vm_compute. auto.
  - intros r post K. discriminate K.
Qed.
(** A mark that takes width by itself, in the middle of a text, on a character
    that does so too. *)
Definition visarga : str := [xe0; xa4; x83].
Lemma visarga_mark : EncodesText [0x903] visarga /\ Forall Mark [0x903] /\ RuneWidth exC 0x903 = 1.
Proof.
  split; [|split].
  - apply encoded; [repeat constructor; unfold Scalar; lia|reflexivity].
  - constructor; [right; vm_compute; reflexivity|constructor].
  - vm_compute. reflexivity.
Qed.
Lemma wide_marked : Marked exC ([xe6; x97; xa5] ++ lit "!"%string) ([xe6; x97; xa5] ++ visarga ++ lit "!"%string).
Proof.
  destruct visarga_mark as (A & B & _). apply (marked exC [xe6; x97; xa5] [0x903] visarga (lit "!"%string)); [exact A|exact B| | | |].
  - left. vm_compute. reflexivity.
  - exists [], 0x65E5. vm_compute. auto.
  - intros r post K. vm_compute in K. injection K as <- <-. vm_compute. reflexivity.
  - right. exists [], [0x65E5], 0x65E5. split; [exact (segments_IsSegmentation [0x65E5])|]. split; [left; reflexivity|]. vm_compute. reflexivity.
Qed.
Definition dRows : list (list str) :=
  [[lit "go.mod"%string; lit "12"%string]; [on_red ++ (lit "x"%string ++ acute) ++ off_red; lit "3"%string]; [[xe6; x97; xa5]; lit "5"%string];
   [lit "ab"%string; lit "7"%string]; [lit "c"%string; lit "9"%string]].
Lemma no_join (r : Z) : ~ (class r = Extend \/ class r = ZWJ \/ class r = SpacingMark) -> forall s post, runes s = r :: post -> ~ JoinsPrevious s.
Proof. intros K s post E (r' & post' & E' & D). rewrite E in E'. injection E' as -> _. exact (K D). Qed.
Lemma x_decorated : Decorated exC (lit "x"%string) (on_red ++ (lit "x"%string ++ acute) ++ off_red).
Proof.
  destruct red_sgr. apply de_mark with (lit "x"%string ++ acute).
  - change (runes (lit "x"%string)) with [0x78]. repeat constructor. intros [K|K]; discriminate.
  - exact x_marked.
  - apply de_colour with on_red off_red; auto; [|apply de_same].
    apply (no_join 0x78) with [0x301]; [|reflexivity]. intros [K|[K|K]]; vm_compute in K; discriminate.
Qed.
Lemma d_items : DecoratedItems exC (listOf mRows) (listOf dRows).
Proof.
  split; [reflexivity|]. intros i. unfold listOf, fiGet, at_index. destruct (i <? 0); [reflexivity|].
  destruct (Z.to_nat i) as [|[|[|[|[|n]]]]]; cbn [nth_error mRows dRows]; repeat (constructor; [first [apply de_same|exact x_decorated]|]); try constructor.
  rewrite !nth_error_nil || destruct n; reflexivity.
Qed.
Definition dForm : list (list piece) :=
  let T s := Text (lit s) in
  [[Cell 0 0; T " "%string; Cell 0 1; Text mSep; Cell 1 0; T " "%string; Cell 1 1; Text mSep; Cell 2 0; T " "%string; Cell 2 1; Text mSep; Cell 3 0; T " "%string; Cell 3 1; Text [x0a]];
   [Cell 4 0; T "     "%string; T " "%string; T " "%string; Cell 4 1; Text mSep; Text [x0a]]].
Lemma merged_example : DecoratedItems exC (listOf mRows) (listOf dRows) /\ Reachable exC
  /\ Forall (fun mc => match mc with Some col => BuiltIn exC col | None => True end) (Columns (tSpec mTable))
  /\ written (merge H 40 exC mTable (fun _ => true) (listOf mRows) 26 mSep true) = map (fill (listOf mRows)) dForm
  /\ written (merge H 40 exC mTable (fun _ => true) (listOf dRows) 26 mSep true) = map (fill (listOf dRows)) dForm
  /\ nth 1 (map (fill (listOf mRows)) dForm) [] = lit "c       9 |"%string ++ [x0a].
Proof.
  split; [exact d_items|]. split; [apply r_fresh|]. split; [change (Columns (tSpec mTable)) with [Some exName; Some exSize]; repeat (constructor; [right; eexists; reflexivity|]); constructor|]. vm_compute. auto.
Qed.
Lemma widths_example : SameWidths exC (listOf mRows) (listOf (map (map (fun s => map (fun _ => x7a) (repeat tt (Z.to_nat (vwidth exC s))))) mRows))
  /\ PadsColumns Blank exC mTable.
Proof.
  split; [|apply builtin_columns; apply merged_example]. split; [reflexivity|]. intros i. unfold listOf, fiGet, at_index. destruct (i <? 0); [reflexivity|].
  destruct (Z.to_nat i) as [|[|[|[|[|n]]]]]; [vm_compute; reflexivity..|]. cbn [nth_error map mRows]. destruct n; reflexivity.
Qed.
Lemma pieces_example : let ps := [(0x65E5, [0x301; 0x903]); (0x78, [])] in
  Forall (fun p => Stands (fst p) /\ 0 < RuneWidth exC (fst p) /\ Forall Mark (snd p)) ps
  /\ EncodesText (List.concat (map spelled ps)) ([xe6; x97; xa5] ++ acute ++ visarga ++ lit "x"%string)
  /\ zsum (map (fun p => RuneWidth exC (fst p)) ps) = 3.
Proof.
  cbv zeta. split; [|split].
  - assert (A : Mark 0x301) by (left; vm_compute; reflexivity). assert (B : Mark 0x903) by (right; vm_compute; reflexivity).
    constructor; [|constructor; [|constructor]]; cbn [fst snd]; (split; [first [left; vm_compute; reflexivity|right; left; vm_compute; reflexivity]|split; [vm_compute; reflexivity|auto]]).
  - apply encoded; [repeat constructor; unfold Scalar; cbn; lia|reflexivity].
  - vm_compute. reflexivity.
Qed.

(** ** Where marks count *)
(** Between the halves of a flag. *)
Lemma inside_refuted : exists c a ms m b, Reachable c /\ EncodesText ms m /\ Forall Mark ms /\ StartsRune b /\ TakesMarks a /\
  Forall (fun r => RuneWidth c r = 0) ms /\ VisibleEnd c a /\ vwidth c (a ++ m ++ b) <> vwidth c (a ++ b).
Proof.
  destruct acute_mark as (A & B & Z0). exists exC, [xf0; x9f; x87; xaf], [0x301], acute, [xf0; x9f; x87; xb5].
  split; [apply r_fresh|]. split; [exact A|]. split; [exact B|]. split; [right; vm_compute; discriminate|]. split; [exists [], 0x1F1EF; vm_compute; auto|].
  split; [repeat constructor|]. split; [|vm_compute; discriminate].
  exists [], [0x1F1EF], 0x1F1EF. split; [exact (segments_IsSegmentation [0x1F1EF])|]. split; [left; reflexivity|]. vm_compute. reflexivity.
Qed.
(** After a line feed or at the start, if the mark takes width. *)
Lemma alone_refuted : exists c ms m, Reachable c /\ EncodesText ms m /\ Forall Mark ms /\
  vwidth c m <> vwidth c [] /\ vwidth c (([x0a] ++ m) ++ lit "x"%string) <> vwidth c ([x0a] ++ lit "x"%string).
Proof.
  destruct visarga_mark as (A & B & _). exists exC, [0x903], visarga. split; [apply r_fresh|]. split; [exact A|]. split; [exact B|]. split; vm_compute; discriminate.
Qed.
(** In an escape sequence. *)
Lemma escape_refuted : exists c s s', Reachable c /\ Marked c s s' /\ vwidth c s' <> vwidth c s.
Proof.
  destruct acute_mark as (A & B & Z0). exists exC, ((x1b :: x5b :: lit "3"%string) ++ lit "1mx"%string), ((x1b :: x5b :: lit "3"%string) ++ acute ++ lit "1mx"%string).
  split; [apply r_fresh|]. split; [|vm_compute; discriminate]. apply (marked exC _ [0x301] acute); [exact A|exact B| | | |].
  - left. vm_compute. reflexivity.
  - exists [0x1b; 0x5b], 0x33. vm_compute. auto.
  - intros r post K. vm_compute in K. injection K as <- <-. vm_compute. reflexivity.
  - left. repeat constructor.
Qed.

(** ** Where the text counts *)
(** An alignment that looks at the text: it pads words that start with a letter,
    not others. *)
Definition fussy (s : str) (w : Z) : str := match s with b :: _ => if 0x61 <=? bv b then AlignmentLeft exC s w else s | [] => s end.
Definition fussyCol : Column (list str) str str := {| colGetter := None; colAlignment := Some fussy; colName := lit "k"%string; colTitle := []; colShortTitle := [] |}.
Definition fussyTable : Table (list str) str str := fst (UpdateWidth (E := str) (NewTable (Some (add_all NewTableSpec [Some fussyCol]))) [(lit "k"%string, 3)]).
Lemma fill_length {E} (items items' : FormattedItemList E) : (forall p, List.length (filled items p) = List.length (filled items' p)) ->
  forall form, List.length (fill items form) = List.length (fill items' form).
Proof. intros K form. unfold fill. induction form as [|p form IH]; [reflexivity|]. cbn [map List.concat]. rewrite !app_length, IH, K. reflexivity. Qed.
Lemma fussy_refuted : exists c (t : Table (list str) str str) (items items' : FormattedItemList str), Reachable c /\ SameWidths c items items' /\
  ~ exists forms, written (merge H 1 c t (fun _ => true) items 80 mSep false) = map (fill items) forms /\
                  written (merge H 1 c t (fun _ => true) items' 80 mSep false) = map (fill items') forms.
Proof.
  exists exC, fussyTable, (listOf [[lit "x"%string]]), (listOf [[lit "X"%string]]). split; [apply r_fresh|]. split.
  - split; [reflexivity|]. intros i. unfold listOf, fiGet, at_index. destruct (i <? 0); [reflexivity|]. destruct (Z.to_nat i) as [|[|n]]; reflexivity.
  - intros (forms & E1 & E2). assert (K : map (@List.length byte) (map (fill (listOf [[lit "x"%string]])) forms) = map (@List.length byte) (map (fill (listOf [[lit "X"%string]])) forms)).
    { rewrite !map_map. apply map_ext. apply fill_length. intros [s|i j]; [reflexivity|]. cbn [filled]. unfold listOf, fiGet, at_index. destruct (i <? 0); [reflexivity|].
      destruct (Z.to_nat i) as [|[|n]]; cbn [nth_error]; try reflexivity. destruct j as [|[|j]]; reflexivity. }
    rewrite <- E1, <- E2 in K. vm_compute in K. discriminate K.
Qed.
Lemma align_form_example : PadsAligned Blank exC (Columns (tSpec mTable)) /\ ColumnCount (tSpec mTable) = slen [1; 1]
  /\ map (vwidth exC) [lit "x"%string; lit "3"%string] = [1; 1]
  /\ fst (AlignFormattedItem mTable [lit "x"%string; lit "3"%string]) = around [([], lit "     "%string); ([space], [])] [lit "x"%string; lit "3"%string].
Proof.
  split; [|vm_compute; auto]. change (Columns (tSpec mTable)) with [Some exName; Some exSize].
  constructor; [exact (builtin_pads exC ALeft)|]. constructor; [exact (builtin_pads exC ARight)|constructor].
Qed.
Lemma marked_example : Marked exC (lit "x"%string) (lit "x"%string ++ acute) /\ Marked exC ([xe6; x97; xa5] ++ lit "!"%string) ([xe6; x97; xa5] ++ visarga ++ lit "!"%string)
  /\ Forall (fun r => ~ Introducer r) (runes (lit "x"%string)) /\ RuneWidth exC 0x903 = 1.
Proof.
  split; [exact x_marked|]. split; [exact wide_marked|]. split; [|vm_compute; reflexivity].
  change (runes (lit "x"%string)) with [0x78]. repeat constructor. intros [K|K]; discriminate.
Qed.
