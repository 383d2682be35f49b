(** * GenSource: the generated source, read back. *)
From Coq Require Import Strings.String Permutation.
From Verif Require Import GoBase Utf8 Utf8Proofs Locale LocaleProofs GenText GenTextSpec GenScan GenPattern GenRead.
From Coq Require Import ZifyBool ZifyNat.
Local Open Scope Z_scope.

Lemma beq_true a b : Byte.eqb a b = true <-> a = b.
Proof. split; [apply Byte.byte_dec_bl|apply Byte.byte_dec_lb]. Qed.
Lemma beq_false a b : Byte.eqb a b = false <-> a <> b.
Proof. rewrite <- beq_true. destruct (Byte.eqb a b); split; congruence. Qed.

(** ** Comments and blanks *)
Lemma strip_plain a b : ~ In x2f a -> strip false (a ++ b) = a ++ strip false b.
Proof.
  induction a as [|x a IH]; intros H; [reflexivity|]. cbn [app strip].
  assert (E : Byte.eqb x x2f = false) by (apply beq_false; intros ->; apply H; left; reflexivity). rewrite E. cbn [andb].
  rewrite IH by (intros K; apply H; right; exact K). destruct (a ++ b) eqn:Eab; [|reflexivity].
  apply app_eq_nil in Eab. destruct Eab as [-> ->]. reflexivity.
Qed.
Lemma strip_true c r : ~ In x0a c -> strip true (c ++ x0a :: r) = x0a :: strip false r.
Proof.
  induction c as [|x c IH]; intros H; [reflexivity|]. cbn [app strip].
  assert (E : Byte.eqb x x0a = false) by (apply beq_false; intros ->; apply H; left; reflexivity). rewrite E.
  apply IH. intros K. apply H. right. exact K.
Qed.
Lemma strip_comment c r : ~ In x0a c -> strip false (lit "//" ++ c ++ x0a :: r) = x0a :: strip false r.
Proof. intros H. cbn [lit app]. change (strip true (x2f :: c ++ x0a :: r) = x0a :: strip false r). apply (strip_true (x2f :: c) r). intros [K|K]; [discriminate|exact (H K)]. Qed.
Lemma squeeze_app a b : squeeze (a ++ b) = squeeze a ++ squeeze b.
Proof. apply filter_app. Qed.
Definition solid (s : str) : Prop := Forall (fun b => ~ In b [x20; x09; x0a]) s.
Lemma squeeze_solid s : solid s -> squeeze s = s.
Proof.
  induction 1 as [|b s Hb Hs IH]; [reflexivity|]. unfold squeeze in *. cbn [filter]. rewrite IH.
  destruct (existsb (Byte.eqb b) [x20; x09; x0a]) eqn:E; [|reflexivity]. apply in_existsb in E. contradiction.
Qed.

(** ** Rows and declarations *)
Fixpoint join (fs : list str) : str :=
  match fs with
  | [] => []
  | [f] => f
  | f :: rest => f ++ x2c :: join rest
  end.
Definition render_row (fs : list str) : str := lit "{" ++ join fs ++ lit "},".
Definition render_decl (d : str * list (list str)) : str := fst d ++ lit "{" ++ List.concat (map render_row (snd d)) ++ lit "}".
Lemma cut_at_first x a b : ~ In x a -> cut x (a ++ x :: b) = Some (a, b).
Proof.
  induction a as [|y a IH]; intros H; cbn [app cut].
  - rewrite (proj2 (beq_true x x) eq_refl). reflexivity.
  - assert (E : Byte.eqb y x = false) by (apply beq_false; intros ->; apply H; left; reflexivity). rewrite E, IH; [reflexivity|].
    intros K. apply H. right. exact K.
Qed.
Lemma fields_last f : ~ In x2c f -> fields f = [f].
Proof.
  induction f as [|b f IH]; intros H; [reflexivity|]. cbn [fields].
  assert (E : Byte.eqb b x2c = false) by (apply beq_false; intros ->; apply H; left; reflexivity). rewrite E, IH; [reflexivity|].
  intros K. apply H. right. exact K.
Qed.
Lemma fields_cons f s : ~ In x2c f -> fields (f ++ x2c :: s) = f :: fields s.
Proof.
  induction f as [|b f IH]; intros H; [reflexivity|]. cbn [app fields].
  assert (E : Byte.eqb b x2c = false) by (apply beq_false; intros ->; apply H; left; reflexivity). rewrite E, IH; [reflexivity|].
  intros K. apply H. right. exact K.
Qed.
Definition Row (fs : list str) : Prop := fs <> [] /\ Forall (fun f => ~ In x2c f /\ ~ In x7d f) fs.
Lemma fields_join fs : fs <> [] -> Forall (fun f => ~ In x2c f /\ ~ In x7d f) fs -> fields (join fs) = fs.
Proof.
  intros N F. induction F as [|f fs [Hf _] F IH]; [congruence|]. destruct fs as [|g fs].
  - apply fields_last, Hf.
  - change (join (f :: g :: fs)) with (f ++ x2c :: join (g :: fs)). rewrite fields_cons by exact Hf. rewrite IH by discriminate. reflexivity.
Qed.
Lemma join_nobrace fs : Forall (fun f => ~ In x2c f /\ ~ In x7d f) fs -> ~ In x7d (join fs).
Proof.
  induction 1 as [|f fs [_ Hf] F IH]; [exact (fun x => x)|]. destruct fs as [|g fs]; [exact Hf|].
  change (join (f :: g :: fs)) with (f ++ x2c :: join (g :: fs)). intros K. apply in_app_or in K. destruct K as [K|[K|K]]; [exact (Hf K)|discriminate|exact (IH K)].
Qed.
Lemma rows_read rows : Forall Row rows -> forall fuel rest, (List.length rows < fuel)%nat ->
  read_rows fuel (List.concat (map render_row rows) ++ x7d :: rest) = Some (rows, rest).
Proof.
  induction 1 as [|fs rows [N F] HR IH]; intros [|fuel] rest Hf; cbn [List.length] in Hf; try lia; [reflexivity|].
  cbn [map List.concat]. unfold render_row at 1. rewrite <- !app_assoc. change (lit "{") with [x7b]. change (lit "},") with [x7d; x2c].
  cbn [app read_rows]. rewrite cut_at_first by (apply join_nobrace, F). rewrite IH by lia. rewrite fields_join by assumption. reflexivity.
Qed.
Lemma rows_length rows : (List.length rows <= List.length (List.concat (map render_row rows)))%nat.
Proof. induction rows as [|r rows IH]; [apply le_n|]. cbn [map List.concat]. rewrite app_length. unfold render_row at 1. rewrite !app_length. cbn. lia. Qed.
Definition Decl (d : str * list (list str)) : Prop := fst d <> [] /\ ~ In x7b (fst d) /\ Forall Row (snd d).
Lemma decls_read ds : Forall Decl ds -> forall fuel, (List.length ds < fuel)%nat -> read_decls fuel (List.concat (map render_decl ds)) = Some ds.
Proof.
  induction 1 as [|[h rows] ds (N & Hh & HR) HD IH]; intros [|fuel] Hf; cbn [List.length] in Hf; try lia; [reflexivity|].
  cbn [map List.concat fst snd] in *. unfold render_decl at 1. cbn [fst snd]. rewrite <- !app_assoc.
  remember (h ++ lit "{" ++ List.concat (map render_row rows) ++ lit "}" ++ List.concat (map render_decl ds)) as s eqn:Es.
  cbn [read_decls]. destruct s as [|b s]; [destruct h; [congruence|discriminate]|]. rewrite Es. change (lit "{") with [x7b]. change (lit "}") with [x7d].
  cbn [app]. rewrite cut_at_first by exact Hh.
  rewrite rows_read; [|exact HR|rewrite app_length; pose proof (rows_length rows); cbn [List.length]; lia]. rewrite IH by lia. reflexivity.
Qed.
Lemma decls_length ds : Forall Decl ds -> (List.length ds <= List.length (List.concat (map render_decl ds)))%nat.
Proof.
  induction 1 as [|d ds (N & _) HD IH]; [apply le_n|]. cbn [map List.concat]. rewrite app_length. unfold render_decl at 1. rewrite !app_length.
  destruct (fst d); [congruence|]. cbn. lia.
Qed.
Lemma source_read src ds : Forall Decl ds -> squeeze (strip false src) = List.concat (map render_decl ds) -> read_go src = Some ds.
Proof. intros HD E. unfold read_go. rewrite E. apply decls_read; [exact HD|]. pose proof (decls_length ds HD). lia. Qed.

(** ** Fields *)
Lemma plain_app a b : Plain (a ++ b) <-> Plain a /\ Plain b.
Proof. apply Forall_app. Qed.
Lemma plain_no x a : Plain a -> In x (lit "{},/" ++ [x20; x09; x0a]) -> ~ In x a.
Proof. intros F Hx K. unfold Plain in F. rewrite Forall_forall in F. exact (F x K Hx). Qed.
Lemma plain_solid a : Plain a -> solid a.
Proof. apply Forall_impl. intros b H K. apply H. apply in_or_app. right. exact K. Qed.
Lemma plain_all (l : list byte) a : (forall b, In b l -> ~ In b (lit "{},/" ++ [x20; x09; x0a])) -> Forall (fun b => In b l) a -> Plain a.
Proof. intros H. apply Forall_impl. exact H. Qed.
Lemma hex_plain a : Forall (fun b => In b (lit "0123456789ABCDEF")) a -> Plain a.
Proof. apply plain_all. intros b. rewrite !in_existsb. destruct b; vm_compute; congruence. Qed.
Lemma word_plain a : Forall (fun b => In b (lit "ABCDEFGHIJKLMNOPQRSTUVWXYZabcdefghijklmnopqrstuvwxyz0123456789_")) a -> Plain a.
Proof. apply plain_all. intros b. rewrite !in_existsb. destruct b; vm_compute; congruence. Qed.
Lemma letter_plain a : Forall letter a -> Plain a.
Proof. apply plain_all. intros b. rewrite !in_existsb. destruct b; vm_compute; congruence. Qed.
Lemma lit_plain s : forallb (fun b => negb (existsb (Byte.eqb b) (lit "{},/" ++ [x20; x09; x0a]))) s = true -> Plain s.
Proof. intros H. apply Forall_forall. intros b Hb. rewrite forallb_forall in H. specialize (H b Hb). rewrite in_existsb. destruct (existsb _ _); [discriminate|congruence]. Qed.
Lemma filter_plain f a : Plain a -> Plain (filter f a).
Proof. unfold Plain. rewrite !Forall_forall. intros H b Hb. apply filter_In in Hb. apply H, Hb. Qed.
Lemma plain_row fs : fs <> [] -> Forall Plain fs -> Row fs.
Proof. intros N F. split; [exact N|]. revert F. apply Forall_impl. intros f Hf. split; apply (plain_no _ _ Hf); rewrite in_existsb; reflexivity. Qed.

(** Text without comments or blanks. *)
Lemma clean_plain a r : Plain a -> squeeze (strip false (a ++ r)) = a ++ squeeze (strip false r).
Proof. intros H. rewrite strip_plain by (apply (plain_no _ _ H); rewrite in_existsb; reflexivity). rewrite squeeze_app, squeeze_solid by (apply plain_solid, H). reflexivity. Qed.
Lemma clean_lit a r : existsb (Byte.eqb x2f) a = false -> squeeze (strip false (a ++ r)) = squeeze a ++ squeeze (strip false r).
Proof. intros H. rewrite strip_plain by (rewrite in_existsb; congruence). apply squeeze_app. Qed.
Lemma clean_comment c r : ~ In x0a c -> squeeze (strip false (lit "//" ++ c ++ x0a :: r)) = squeeze (strip false r).
Proof. intros H. rewrite strip_comment by exact H. reflexivity. Qed.

(** ** Rows of properties *)
Definition GoodEntry (e : entry) : Prop :=
  let 'Entry from to_ name comment := e in HexField from /\ HexField (the_to e) /\ Word name /\ ~ In x0a comment.
Lemma line_good line from to_ name comment : PropertyLine line from to_ name comment -> GoodEntry (Entry from to_ name comment).
Proof. intros (w1 & w2 & w3 & b & _ & Hf & Ht & _ & _ & _ & _ & Hw & _ & Hc). cbn [GoodEntry the_to]. split; [exact Hf|]. split; [destruct to_; auto|]. auto. Qed.
Lemma main_good lines es : MainFile lines es -> Forall GoodEntry es.
Proof. induction 1; auto. constructor; [eapply line_good; eassumption|assumption]. Qed.
Lemma emoji_good property lines es : EmojiFile property lines es -> Forall GoodEntry es.
Proof. induction 1; auto. constructor; [eapply line_good; eassumption|assumption]. Qed.
Lemma row3_plain e : GoodEntry e -> Forall Plain (row3 e).
Proof.
  destruct e as [from to_ name comment]. intros ([_ Hf] & [_ Ht] & [_ Hw] & _). cbn [row3].
  apply Forall_cons; [apply plain_app; split; [apply lit_plain; reflexivity|apply hex_plain, Hf]|].
  apply Forall_cons; [apply plain_app; split; [apply lit_plain; reflexivity|apply hex_plain, Ht]|].
  apply Forall_cons; [apply plain_app; split; [apply lit_plain; reflexivity|apply filter_plain, word_plain, Hw]|apply Forall_nil].
Qed.
Lemma front_text e : let p := prop_of e in
  lit "{0x" ++ pFrom p ++ lit ",0x" ++ pTo p ++ lit "," ++ translateProperty (lit "pr") (pProp p) = lit "{" ++ join (row3 e).
Proof. destruct e as [from to_ name comment]. cbn [prop_of the_prop pFrom pTo pProp row3 join the_to]. cbv zeta. unfold translateProperty, without. rewrite <- !app_assoc. reflexivity. Qed.
Lemma join_clean fs r : Forall Plain fs -> squeeze (strip false (join fs ++ r)) = join fs ++ squeeze (strip false r).
Proof.
  induction 1 as [|f fs Hf F IH]; [reflexivity|]. destruct fs as [|g fs]; [apply clean_plain, Hf|].
  change (join (f :: g :: fs)) with (f ++ [x2c] ++ join (g :: fs)). rewrite <- !app_assoc. rewrite clean_plain by exact Hf. f_equal.
  rewrite clean_lit by reflexivity. rewrite IH. reflexivity.
Qed.
Lemma prop_row e : GoodEntry e -> exists t, print_prop false (prop_of e) = Ok t /\
  forall r, squeeze (strip false (t ++ r)) = render_row (row3 e) ++ squeeze (strip false r).
Proof.
  intros HG. pose proof (row3_plain e HG) as HP. unfold print_prop. rewrite (front_text e). eexists. split; [reflexivity|].
  intros r. rewrite <- !app_assoc. rewrite (clean_lit (lit "{")) by reflexivity. rewrite join_clean by exact HP.
  change (lit "}, // " ++ pComment (prop_of e) ++ [x0a] ++ r) with (lit "}, " ++ lit "//" ++ (x20 :: pComment (prop_of e)) ++ x0a :: r).
  rewrite (clean_lit (lit "}, ")) by reflexivity. rewrite clean_comment.
  - unfold render_row. rewrite <- !app_assoc. reflexivity.
  - destruct e as [from to_ name comment]. destruct HG as (_ & _ & _ & Hc). intros [K|K]; [discriminate|exact (Hc K)].
Qed.
Lemma join_snoc fs f : fs <> [] -> join (fs ++ [f]) = join fs ++ x2c :: f.
Proof.
  induction fs as [|g fs IH]; intros N; [congruence|]. destruct fs as [|h fs]; [reflexivity|].
  change (join ((g :: h :: fs) ++ [f])) with (g ++ x2c :: join ((h :: fs) ++ [f])). rewrite IH by discriminate.
  change (join (g :: h :: fs)) with (g ++ x2c :: join (h :: fs)). rewrite <- app_assoc. reflexivity.
Qed.
Lemma prop_row4 e : GoodEntry e -> Categorised e -> exists t, print_prop true (prop_of e) = Ok t /\
  forall r, squeeze (strip false (t ++ r)) = render_row (row4 e) ++ squeeze (strip false r).
Proof.
  intros HG HC. pose proof (row3_plain e HG) as HP. unfold print_prop. rewrite (front_text e).
  destruct e as [from to_ name comment]. destruct HC as (a & b & c & rest & -> & Ha & Hb). cbn [prop_of the_prop pComment].
  rewrite !slen_cons. pose proof (slen_nonneg rest). destruct (Z.ltb_spec (1 + (1 + (1 + slen rest))) 3); [lia|].
  change (take 2 (a :: b :: c :: rest)) with [a; b]. change (drop 3 (a :: b :: c :: rest)) with rest.
  eexists. split; [reflexivity|]. intros r. rewrite <- !app_assoc. rewrite (clean_lit (lit "{")) by reflexivity. rewrite join_clean by exact HP.
  rewrite (clean_lit (lit ",")) by reflexivity.
  assert (Egc : (if str_eqb (lit "gc" ++ [a; b]) (lit "gcL&") then lit "gcLC" else lit "gc" ++ [a; b]) = (if str_eqb [a; b] (lit "L&") then lit "gcLC" else lit "gc" ++ [a; b])).
  { unfold str_eqb. destruct (str_eq_dec (lit "gc" ++ [a; b]) (lit "gcL&")) as [E|E], (str_eq_dec [a; b] (lit "L&")) as [E'|E']; try reflexivity.
    - destruct E'. injection E as -> ->. reflexivity.
    - destruct E. rewrite E'. reflexivity. }
  rewrite Egc. clear Egc. set (gc := if str_eqb [a; b] (lit "L&") then lit "gcLC" else lit "gc" ++ [a; b]).
  assert (Hgc : Plain gc).
  { unfold gc. destruct (str_eqb [a; b] (lit "L&")); [apply lit_plain; reflexivity|]. apply plain_app. split; [apply lit_plain; reflexivity|].
    apply letter_plain. apply Forall_cons; [exact Ha|]. apply Forall_cons; [exact Hb|apply Forall_nil]. }
  rewrite clean_plain by exact Hgc.
  change (lit "}, // " ++ rest ++ [x0a] ++ r) with (lit "}, " ++ lit "//" ++ (x20 :: rest) ++ x0a :: r).
  rewrite (clean_lit (lit "}, ")) by reflexivity. rewrite clean_comment.
  - unfold render_row. cbn [row4 category]. fold gc. rewrite join_snoc by discriminate. rewrite <- !app_assoc. cbn [app]. reflexivity.
  - destruct HG as (_ & _ & _ & Hc). intros [K|K]; [discriminate|]. apply Hc. right. right. right. exact K.
Qed.
Lemma row4_plain e : GoodEntry e -> Categorised e -> Forall Plain (row4 e).
Proof.
  intros HG HC. pose proof (row3_plain e HG) as HP. destruct e as [from to_ name comment]. cbn [row4]. apply Forall_app. split; [exact HP|].
  destruct HC as (a & b & c & rest & -> & Ha & Hb). cbn [category]. constructor; [|constructor].
  destruct (str_eqb [a; b] (lit "L&")); [apply lit_plain; reflexivity|]. apply plain_app. split; [apply lit_plain; reflexivity|].
  apply letter_plain. apply Forall_cons; [exact Ha|]. apply Forall_cons; [exact Hb|apply Forall_nil].
Qed.

Lemma table_text gencat (name : str) (row : entry -> list str) es : Plain name ->
  Forall (fun e => (exists t, print_prop gencat (prop_of e) = Ok t /\ forall r, squeeze (strip false (t ++ r)) = render_row (row e) ++ squeeze (strip false r)) /\ Row (row e)) es ->
  exists src, print_table name gencat (map prop_of es) = Ok src /\
    read_go src = Some [(table_head name (if gencat then lit "4" else lit "3"), map row es)].
Proof.
  intros Hn HF. unfold print_table.
  assert (HO : exists rows, omap (print_prop gencat) (map prop_of es) = Ok rows /\
    forall r, squeeze (strip false (List.concat rows ++ r)) = List.concat (map render_row (map row es)) ++ squeeze (strip false r)).
  { clear Hn. induction HF as [|e es [(t & E & Ht) _] HF (rows & EO & HR)]; [exists []; split; reflexivity|].
    cbn [map omap]. rewrite E. cbn [obind]. rewrite EO. cbn [obind]. exists (t :: rows). split; [reflexivity|]. intros r. cbn [List.concat]. rewrite <- app_assoc, Ht, HR.
    rewrite <- app_assoc. reflexivity. }
  destruct HO as (rows & EO & HR). rewrite EO. cbn [obind]. eexists. split; [reflexivity|]. apply source_read.
  - constructor; [|constructor]. split; [discriminate|]. split.
    + cbn [fst]. unfold table_head. intros K. repeat (apply in_app_or in K; destruct K as [K|K]); revert K; try (rewrite in_existsb; discriminate).
      * apply (plain_no _ _ Hn). rewrite in_existsb. reflexivity.
      * destruct gencat; rewrite in_existsb; discriminate.
    + cbn [snd]. apply Forall_map. revert HF. apply Forall_impl. intros e [_ H]. exact H.
  - rewrite (clean_lit (lit "var ")) by reflexivity. rewrite clean_plain by exact Hn. rewrite (clean_lit (lit " = [][")) by reflexivity.
    rewrite (clean_lit (if gencat then lit "4" else lit "3")) by (destruct gencat; reflexivity). rewrite (clean_lit (lit "]int{")) by reflexivity.
    rewrite (clean_lit [x0a; x09]) by reflexivity. rewrite HR. cbn [map List.concat]. unfold render_decl, table_head. cbn [fst snd].
    rewrite app_nil_r, <- !app_assoc. destruct gencat; reflexivity.
Qed.
