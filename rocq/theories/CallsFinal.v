(** * CallsFinal: the functions of table.go called with arbitrary objects. *)
From Coq Require Import ZifyBool ZifyNat.
From Verif Require Import GoBase CacheProofs Runewidth Width Table Merge TableContract MergeSpec Calls CallsSpec CallsProofs CallsSteady.
Local Open Scope Z_scope.

Section Final.
Context {Item Val E G L : Type}.
Notation kcol := (kcol G L).
Notation environment := (environment Item Val E G L).

Lemma format_run {W} (env : environment W) c cols item w0 m0 w' m' r tr :
  krun env (FormatItemK c cols item) w0 m0 = (w', m', r, tr) -> FormatActs c item cols tr r.
Proof. intros K. apply krun_can in K. apply format_acts in K. exact K. Qed.
Lemma basic_run {W} (env : environment W) cols item sep w0 m0 w' m' r tr :
  krun env (FormatItemBasicK cols item sep) w0 m0 = (w', m', r, tr) -> BasicActs item sep cols tr r.
Proof.
  intros K. apply krun_can in K. apply basic_acts in K; [|lia]. destruct K as (done & rest & tail & e & F & et & K).
  exists done, rest, tail. split; [exact e|]. split; [exact F|]. split; [exact et|]. destruct K as [(-> & -> & ->)|K]; [left|right; exact K].
  split; [reflexivity|]. split; [reflexivity|]. rewrite join_steps, firstn_map, skipn_map, map_map. reflexivity.
Qed.
Lemma align_run {W} (env : environment W) cols formatted w0 m0 w' m' slice r tr : length formatted = length cols ->
  krun env (AlignFormattedItemK cols formatted) w0 m0 = (w', m', (slice, r), tr) -> AlignActs cols formatted tr slice r.
Proof.
  intros Hl K. apply krun_can in K. unfold AlignFormattedItemK, slen in K. rewrite Hl, Z.eqb_refl in K. cbn [negb] in K.
  apply align_acts_ok in K; [|exact Hl]. exact K.
Qed.
Lemma align_other {W} (env : environment W) cols formatted w0 m0 : length formatted <> length cols ->
  krun env (AlignFormattedItemK cols formatted) w0 m0 = (w0, m0, (formatted, Err (slen formatted, slen cols)), []).
Proof.
  intros Hl. unfold AlignFormattedItemK. destruct (Z.eqb_spec (slen formatted) (slen cols)) as [e|e]; [unfold slen in e; lia|]. reflexivity.
Qed.

(** Aligning calls at most the alignments, once each, and records nothing. *)
Lemma raise_acts c item done n v : In (Raised n v) (flat_map (fcell_acts (Item := Item) (Val := Val) (E := E) (G := G) (L := L) c item) done) ->
  exists x, In x done /\ n = kName (fcCol x) /\ v = vwidth c (fcText x).
Proof.
  intros Hin. apply in_flat_map in Hin. destruct Hin as (x & Hx & Hin). exists x. split; [exact Hx|].
  destruct Hin as [e|[e|[e|[]]]]; try discriminate. injection e as -> ->. auto.
Qed.
(** All widths of an item formatted are recorded; and if nothing else changes
    widths, no others. *)
Lemma format_widths {W} (env : environment W) c cols item w0 m0 w' m' texts tr : Grows env ->
  krun env (FormatItemK c (map Some cols) item) w0 m0 = (w', m', Ok texts, tr) ->
  length texts = length cols /\ (forall n, m0 n <= m' n) /\
  forall i col s, nth_error cols i = Some col -> nth_error texts i = Some s -> vwidth c s <= m' (kName col).
Proof.
  intros HG K. pose proof (run_grows env _ HG _ _ _ _ _ _ K) as (H1 & H2 & _). apply format_run in K.
  destruct K as (done & rest & tail & e & F & et & K).
  assert (X : rest = [] /\ texts = map fcText done).
  { destruct K as [(-> & -> & e2)|[(col & more & _ & _ & _ & e2)|(k & g & more & _ & _ & [(o & _ & P)|(v & o & _ & P)])]]; [injection e2 as ->; auto|discriminate| |];
      destruct o; contradiction. }
  destruct X as [-> ->]. rewrite app_nil_r in e.
  assert (ec : cols = map fcCol done).
  { clear - e. rewrite <- (map_map fcCol (@Some _)) in e. revert e. generalize (map fcCol done). induction cols as [|x l IH]; intros [|y l']; cbn; intros e; try discriminate; auto.
    injection e as -> e. f_equal. auto. }
  subst cols. split; [rewrite !map_length; reflexivity|]. split; [exact H1|].
  intros i col s Hc Hs. rewrite nth_error_map in Hc, Hs. destruct (nth_error done i) as [x|] eqn:Hx; [|discriminate]. cbn in Hc, Hs. injection Hc as <-. injection Hs as <-.
  apply H2. subst tr. apply in_or_app. left. apply in_flat_map. exists x. split; [exact (nth_error_In _ _ Hx)|]. cbn. auto.
Qed.
End Final.

Section Steady.
Context {Item Val E : Type}.
Context {n : Z} {get : Z -> outcome Empty_set (list str)} {ok : nat -> bool} {err : E}.
Notation env := (@steady Item Val E n get ok err).
Notation kcols := (map (option_map (@kcol_of Item Val E))).

Lemma format_same c (t : Table Item Val E) m item k : columnWidth t = Some m ->
  exists m' r tr, krun env (FormatItemK c (kcols (Columns (tSpec t))) item) k m = (k, m', r, tr) /\ FormatItem c t item = (set_width t m', r).
Proof. intros Hm. apply steady_format. exact Hm. Qed.
Lemma basic_same (t : Table Item Val E) m item sep k :
  exists tr, krun env (FormatItemBasicK (kcols (Columns (tSpec t))) item sep) k m = (k, m, FormatItemBasic t item sep, tr).
Proof. destruct (@steady_basic _ _ _ n get ok err item sep m (Columns (tSpec t)) 0 [] k) as (tr & e & _). exists tr. exact e. Qed.
Lemma align_same (t : Table Item Val E) m formatted k : columnWidth t = Some m ->
  exists tr, krun env (AlignFormattedItemK (kcols (Columns (tSpec t))) formatted) k m = (k, m, AlignFormattedItem t formatted, tr).
Proof.
  intros Hm. unfold AlignFormattedItemK, AlignFormattedItem. rewrite slen_kcols. destruct (negb _); [exists []; reflexivity|].
  destruct (@steady_align _ _ _ n get ok err t m Hm (Columns (tSpec t)) [] formatted k) as (tr & e & _). exists tr. exact e.
Qed.
End Steady.
