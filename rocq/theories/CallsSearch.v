(** * CallsSearch: the whole of merging with lists, alignments and writers that
    keep state. *)
From Coq Require Import ZifyBool ZifyNat.
From Verif Require Import GoBase CacheProofs Runewidth Width AlignSpec WidthTheory Table Merge TableContract TableOpsProofs MergeSpec MergeLayout MergeRender MergeSearch
  MergeAsked MergeAskedProofs Calls CallsSpec CallsProofs CallsMerge.
Local Open Scope Z_scope.

Lemma seg_concat (F : nat -> list Z) n : (forall j, length (F j) = n) -> forall k g s, (k < g)%nat ->
  firstn n (skipn (k * n) (concat (map F (seq s g)))) = F (s + k)%nat.
Proof.
  intros HF. induction k as [|k IH]; intros [|g] s Hk; try lia; cbn [seq map concat Nat.mul].
  - cbn [skipn]. rewrite <- (HF s), firstn_app, firstn_all, Nat.sub_diag, Nat.add_0_r. cbn. apply app_nil_r.
  - rewrite skipn_app, skipn_all2 by (rewrite HF; lia). rewrite HF. replace (n + k * n - n)%nat with (k * n)%nat by lia. cbn [app].
    rewrite IH by lia. f_equal. lia.
Qed.
Lemma concat_len (F : nat -> list Z) n g s : (forall j, length (F j) = n) -> length (concat (map F (seq s g))) = (g * n)%nat.
Proof. intros HF. revert s. induction g as [|g IH]; intros s; cbn [seq map concat Nat.mul]; [reflexivity|]. rewrite app_length, HF, IH. reflexivity. Qed.

Section Searching.
Context {Item Val E G L : Type}.
Notation kcol := (kcol G L).
Notation act := (act Item Val E G L).
Notation kprog := (kprog Item Val E G L).
Notation environment := (environment Item Val E G L).
Notation res := (outcome Empty_set).
Notation Blame := (@Blame Item Val E G L).

(** ** The estimate *)
Lemma run_tableWidth {W} (env : environment W) w m cs : forall a, krun env (tableWidthK (X := Empty_set) (map Some cs) (u16 a)) w m
  = (w, m, Ok (u16 (a + zsum (map (fun col => m (kName col)) cs))), looks m cs).
Proof.
  induction cs as [|col cs IH]; intros a; cbn [map tableWidthK krun looks].
  - change (zsum []) with 0. rewrite Z.add_0_r. reflexivity.
  - replace (u16 (u16 a + m (kName col))) with (u16 (a + m (kName col))) by (unfold u16; rewrite Zplus_mod_idemp_l; reflexivity).
    rewrite IH. change (zsum (m (kName col) :: ?l)) with (m (kName col) + zsum l). rewrite Z.add_assoc. reflexivity.
Qed.
Lemma run_groupCount {W} (env : environment W) w m cols maxWidth sep :
  krun env (groupCountK (map Some cols) maxWidth sep) w m
  = (w, m, if kreckoned m cols sep mod 65536 =? 0 then Panic DivideByZero else Ok (kestimate m cols sep maxWidth), looks m cols).
Proof.
  unfold groupCountK, kobind. rewrite krun_bind, run_tableWidth.
  set (S := zsum (map (fun col => m (kName col)) cols)).
  assert (Ed : u16 (u16 (u16 (u16 (slen (map Some cols)) - 1) * u16 (slen sep) + S) + u16 (slen sep)) = kreckoned m cols sep mod 65536).
  { unfold u16, kreckoned. fold S. unfold slen at 1. rewrite map_length. fold (slen cols).
    rewrite <- Zplus_mod, Zminus_mod_idemp_l.
    replace (((slen cols - 1) mod 65536) * (slen sep mod 65536) + S + slen sep) with ((((slen cols - 1) mod 65536) * (slen sep mod 65536)) + (S + slen sep)) by lia.
    rewrite Zplus_mod, <- Zmult_mod, <- Zplus_mod. f_equal. lia. }
  rewrite Ed. destruct (_ =? 0) eqn:E0; cbn [krun]; [rewrite app_nil_r; reflexivity|].
  assert (En : u16 (clampWidth maxWidth + u16 (slen sep)) = (effective maxWidth + slen sep) mod 65536).
  { rewrite clamp_effective. unfold u16. rewrite Zplus_mod_idemp_r. reflexivity. }
  rewrite En, app_nil_r. unfold kestimate. do 3 f_equal.
  destruct (Z.ltb_spec ((effective maxWidth + slen sep) mod 65536 / (kreckoned m cols sep mod 65536)) 1); lia.
Qed.

(** ** Measuring *)
Lemma map_can {A B} (d : A) (ta : nat -> A -> list act) (ba : nat -> A -> B) (Q : nat -> A -> Prop) (f : Z -> kprog (res B)) : forall n s,
  (forall k t b, (s <= k < s + n)%nat -> Can (f (Z.of_nat k)) t (Ok b) -> exists a, t = ta k a /\ b = ba k a /\ Q k a) ->
  forall tr bs, Can (kmap f (map Z.of_nat (seq s n))) tr (Ok bs) ->
  exists h, tr = flat_map (fun k => ta k (h k)) (seq s n) /\ bs = map (fun k => ba k (h k)) (seq s n) /\ forall k, (s <= k < s + n)%nat -> Q k (h k).
Proof.
  induction n as [|n IH]; intros s Hf tr bs C; cbn [seq map kmap flat_map] in *.
  - destruct C as [-> e]. injection e as ->. exists (fun _ => d). split; auto. split; auto. intros; lia.
  - apply can_ok in C. destruct C as (t1 & b & t2 & -> & C1 & C). apply can_ok in C. destruct C as (t3 & bs' & t4 & -> & C2 & [-> e]). injection e as ->.
    destruct (Hf s t1 b ltac:(lia) C1) as (a & -> & -> & HQ). destruct (IH (S s)) with (2 := C2) as (h & -> & -> & HQs).
    { intros k t b Hk. apply Hf. lia. }
    exists (fun k => if (k =? s)%nat then a else h k). rewrite Nat.eqb_refl, app_nil_r.
    assert (K : forall k, In k (seq (S s) n) -> (if (k =? s)%nat then a else h k) = h k).
    { intros k Hk. apply in_seq in Hk. destruct (Nat.eqb_spec k s); [lia|reflexivity]. }
    split; [|split].
    + f_equal. rewrite !flat_map_concat_map. f_equal. apply map_ext_in. intros k Hk. rewrite K by auto. reflexivity.
    + f_equal. apply map_ext_in. intros k Hk. rewrite K by auto. reflexivity.
    + intros k Hk. destruct (Nat.eqb_spec k s) as [->|]; [auto|]. apply HQs. lia.
Qed.
Lemma maxCell_can c (i : nat) : forall js mw tr w, Can (maxCellK c (Z.of_nat i) (map Z.of_nat js) mw : kprog _) tr (Ok w) ->
  exists reads, tr = read_acts reads /\ map fst reads = js /\ Forall (fun x => (i < length (snd x))%nat) reads /\
    IsMax (fun x => x = mw \/ exists j row s, In (j, row) reads /\ nth_error row i = Some s /\ x = vwidth c s) w.
Proof.
  induction js as [|j js IH]; intros mw tr w C; cbn [map maxCellK] in C.
  - destruct C as [-> e]. injection e as ->. exists []. split; [reflexivity|]. split; [reflexivity|]. split; [constructor|]. split; [auto|]. intros x [->|(j & row & s & [] & _)]. lia.
  - apply can_ok in C. destruct C as (t1 & row & t2 & -> & (a & t & -> & -> & <-) & C).
    apply can_ok in C. destruct C as (t1 & s & t3 & -> & [-> e] & C).
    destruct (nth_error row i) as [s'|] eqn:Es; [|exfalso; unfold index, at_index in e; destruct (_ <? 0); [discriminate|]; rewrite Nat2Z.id, Es in e; discriminate].
    rewrite (index_nat _ _ _ Es) in e. injection e as ->. destruct (IH _ _ _ C) as (reads & -> & <- & HF & [M1 M2]).
    exists ((j, row) :: reads). split; [reflexivity|]. split; [reflexivity|]. split; [constructor; auto; cbn; eapply nth_some_lt; eauto|].
    assert (M0 : mw <= w /\ vwidth c s' <= w).
    { pose proof (M2 _ (or_introl eq_refl)) as K. destruct (Z.gtb_spec (vwidth c s') mw); lia. }
    split.
    + destruct M1 as [->|(j' & row' & u & Hin & Hu & ->)].
      * destruct (Z.gtb_spec (vwidth c s') mw); [|auto]. right. exists j, row, s'. cbn. auto.
      * right. exists j', row', u. cbn. auto.
    + intros x [->|(j' & row' & u & [Hin|Hin] & Hu & ->)]; [lia| |].
      * injection Hin as <- <-. rewrite Es in Hu. injection Hu as <-. lia.
      * apply M2. right. eauto 6.
Qed.
Lemma maxCell_faults c n (i : nat) : (i < n)%nat -> forall js mw pre, Faults n pre (maxCellK c (Z.of_nat i) js mw : kprog _).
Proof.
  intros Hi. induction js as [|j js IH]; intros mw pre; cbn [maxCellK]; [apply faults_ok|].
  apply faults_bind; [apply faults_get|]. intros row t (a & t' & -> & -> & <-).
  apply faults_bind; [apply faults_cell; auto; exists j; apply in_or_app; right; left; reflexivity|]. intros s t _. apply IH.
Qed.

Section Cols.
Context {c : Condition} {cols : list kcol}.
Notation ocols := (map Some cols).
Notation ncols := (length cols).

Lemma slen_ocols : slen ocols = Z.of_nat ncols.
Proof. unfold slen. rewrite map_length. reflexivity. Qed.
Lemma widths_can m n g idxs : (1 <= g)%nat -> KWorth m n g -> (forall k, (k < g)%nat -> idxs (Z.of_nat k) = gidx m n g (Z.of_nat k)) -> forall tr cw,
  Can (widthsK c (Z.of_nat ncols) idxs (Z.of_nat g) : kprog _) tr (Ok cw) ->
  length cw = (g * ncols)%nat /\ Pass c m ncols g (Called CLen (Ok (Z.of_nat n)) :: tr) (seg (cols := cols) cw).
Proof.
  intros Hg HW Hidx tr cw C. set (lines := layout_lines m g (seq 0 n)).
  apply can_ok in C. destruct C as (t1 & rows & t2 & -> & C & [-> e]). injection e as ->. rewrite !zrange_nat in C.
  pose (Q := fun (k i : nat) (a : list (nat * list str) * Z) => map fst (fst a) = group lines k /\ Forall (fun x => (i < length (snd x))%nat) (fst a) /\
    IsMax (fun x => x = 0 \/ exists j row s, In (j, row) (fst a) /\ nth_error row i = Some s /\ x = vwidth c s) (snd a)).
  apply (map_can (fun _ => ([], 0)) (fun k (h : nat -> list (nat * list str) * Z) => flat_map (fun i => read_acts (fst (h i))) (seq 0 ncols))
     (fun k h => map (fun i => snd (h i)) (seq 0 ncols)) (fun k h => forall i, (i < ncols)%nat -> Q k i (h i))) in C.
  - destruct C as (h & -> & -> & HQ). set (F := fun k : nat => map (fun i => snd (h k i)) (seq 0 ncols)).
    assert (HF : forall k, length (F k) = ncols) by (intros; unfold F; rewrite map_length, seq_length; reflexivity).
    split; [apply concat_len; auto|]. exists n, lines, (fun k i => fst (h k i)). split; [apply layout_ok; auto|]. split; [auto|]. rewrite app_nil_r. split; [reflexivity|].
    intros k Hk. unfold seg. rewrite (seg_concat F) by auto. cbn [plus]. split; [auto|]. intros i w Hw. unfold F in Hw. rewrite nth_map, nth_seq in Hw.
    destruct (Nat.ltb_spec i ncols) as [Hi|]; [|discriminate]. cbn [option_map plus] in Hw. injection Hw as <-. apply (HQ k ltac:(lia) i Hi).
  - intros k t b Hk Ck. apply (map_can ([], 0) (fun i (a : list (nat * list str) * Z) => read_acts (fst a)) (fun i a => snd a) (Q k)) in Ck.
    + destruct Ck as (h & -> & -> & HQ). exists h. split; auto. split; auto. intros i Hi. apply HQ. lia.
    + intros i t' w Hi Ci. rewrite Hidx, group_gidx in Ci by lia. fold lines in Ci. destruct (maxCell_can _ _ _ _ _ _ Ci) as (reads & -> & H1 & H2 & H3).
      exists (reads, w). split; [reflexivity|]. split; [reflexivity|]. split; [exact H1|]. split; [exact H2|exact H3].
Qed.
Lemma widths_faults g idxs pre : Faults ncols pre (widthsK c (Z.of_nat ncols) idxs (Z.of_nat g) : kprog _).
Proof.
  apply faults_bind; [|intros; apply faults_ok]. apply faults_map. intros k pre' _. apply faults_map. intros iz pre'' Hi.
  rewrite zrange_nat in Hi. apply in_map_iff in Hi. destruct Hi as (i & <- & Hi). apply in_seq in Hi. apply maxCell_faults. lia.
Qed.
Lemma merged_can m g : (2 <= g)%nat -> forall tr o, Can (mergedK m c (Z.of_nat ncols) (Z.of_nat g) : kprog _) tr (Ok o) -> Counts tr ->
  match o with
  | Some cw => length cw = (g * ncols)%nat /\ Pass c m ncols g tr (seg (cols := cols) cw)
  | None => exists n, ~ KWorth m n g /\ tr = [Called CLen (Ok (Z.of_nat n))]
  end.
Proof.
  intros Hg tr o C HC. apply can_ok in C. destruct C as (t1 & n & t2 & -> & (a & t & -> & -> & <-) & C).
  assert (Hn : 0 <= n) by (apply HC; left; reflexivity). rewrite <- (Z2Nat.id n Hn) in *. set (N := Z.to_nat n) in *. clearbody N. cbn [app].
  destruct m.
  - apply can_ok in C. destruct C as (t1 & cw & t3 & -> & C & [-> e]). injection e as ->. rewrite app_nil_r.
    refine (widths_can H N g _ _ _ _ _ _ C); [lia|exact Logic.I|]. intros k Hk. reflexivity.
  - cbv zeta in C. rewrite lineCountOf_nat, quot_worth in C by lia. destruct (_ =? 0); [destruct C; discriminate|].
    destruct (worth_b V N g) eqn:Ew; cbn [negb] in C.
    + apply can_ok in C. destruct C as (t1 & cw & t3 & -> & C & [-> e]). injection e as ->. rewrite app_nil_r.
      refine (widths_can V N g _ _ _ _ _ _ C); [lia|apply kworth_spec; auto|]. intros k Hk. reflexivity.
    + destruct C as [-> e]. injection e as ->. exists N. split; [|reflexivity]. rewrite kworth_spec by auto. congruence.
Qed.
Lemma merged_faults m g pre : (2 <= g)%nat -> forall tr q, Can (mergedK m c (Z.of_nat ncols) (Z.of_nat g) : kprog _) tr (Panic q) -> Counts tr -> Blame ncols (pre ++ tr) q.
Proof.
  intros Hg tr q C HC. apply can_obind in C. destruct C as [(t1 & n & t2 & -> & (a & t & -> & -> & <-) & C)|(p & (a & t & -> & -> & <-) & e)];
    [|injection e as ->; right; left; eauto].
  assert (Hn : 0 <= n) by (apply HC; left; reflexivity). rewrite <- (Z2Nat.id n Hn) in *. set (N := Z.to_nat n) in *. clearbody N.
  rewrite app_assoc. assert (KW : forall idxs, Faults ncols (pre ++ [Called CLen (Ok (Z.of_nat N))])
    (kobind (widthsK c (Z.of_nat ncols) idxs (Z.of_nat g)) (fun l => KRet (Ok (Some l)) : kprog (res (option (list Z)))))).
  { intros idxs. apply faults_bind; [apply widths_faults|intros; apply faults_ok]. }
  destruct m; [exact (KW _ _ _ C)|]. cbv zeta in C. rewrite lineCountOf_nat in C by lia. revert C.
  destruct (Z.eqb_spec (Z.of_nat (lineCount N g)) 0) as [K|_].
  - exfalso. unfold lineCount in K. destruct N; [destruct (Nat.leb_spec 2 g); lia|]. revert K. generalize (N / g)%nat. intros; lia.
  - intros C. destruct (_ >? _); [destruct C; discriminate|]. exact (KW _ _ _ C).
Qed.

Lemma ktotal_is sep g cw : length cw = (g * ncols)%nat ->
  totalWidthOf (u16 (slen sep)) (Z.of_nat g) (u16 (Z.of_nat ncols)) cw = ktotal sep cols (seg (cols := cols) cw) g mod 65536.
Proof.
  intros Hl. rewrite totalWidthOf_spec. unfold ktotal. fold (slen cols). f_equal. f_equal.
  pose proof (concat_chunks ncols g cw) as K. rewrite firstn_all2 in K by lia. rewrite <- K at 1. rewrite zsum_concat. unfold chunks. rewrite map_map. reflexivity.
Qed.
Definition wopt (extra : nat) (cw : list Z) : option (nat -> list Z) := match extra with O => None | _ => Some (seg (cols := cols) cw) end.
Lemma counts_app (t1 t2 : list act) : Counts (t1 ++ t2) -> Counts t1 /\ Counts t2.
Proof. intros HC. split; intros n Hn; apply HC; apply in_or_app; auto. Qed.
Lemma calc_can m sep maxWidth (g0 : nat) : (1 <= g0)%nat -> forall fuel (extra : nat) cw tr o,
  (extra = 0%nat \/ length cw = ((g0 + extra) * ncols)%nat) -> Counts tr ->
  Can (calcK fuel m c (Z.of_nat ncols) (clampWidth maxWidth) (u16 (slen sep)) (Z.of_nat g0) (Z.of_nat extra) cw : kprog _) tr (Some o) ->
  (exists e cw', o = Ok (Z.of_nat e, cw') /\ (extra <= e)%nat /\ (e = 0%nat \/ length cw' = ((g0 + e) * ncols)%nat) /\
     Searches c m cols sep maxWidth (g0 + extra) (wopt extra cw) tr (g0 + e) (wopt e cw'))
  \/ exists q, o = Panic q /\ forall pre, Blame ncols (pre ++ tr) q.
Proof.
  intros Hg0. induction fuel as [|fuel IH]; intros extra cw tr o HI HC C; [destruct C; discriminate|]. cbn [calcK] in C.
  replace (Z.of_nat g0 + Z.of_nat extra + 1) with (Z.of_nat (g0 + S extra)) in C by lia. replace (Z.of_nat extra + 1) with (Z.of_nat (S extra)) in C by lia.
  apply can_bind in C. destruct C as (t1 & [oc|[]|q] & t2 & -> & C1 & C); apply counts_app in HC; destruct HC as [HC1 HC2].
  - apply merged_can in C1; auto; [|lia]. destruct oc as [cw'|].
    + destruct C1 as [Hl HP]. rewrite ktotal_is, clamp_effective in C by auto. replace (g0 + S extra)%nat with (S (g0 + extra)) in HP by lia.
      revert C. destruct (Z.gtb_spec (ktotal sep cols (seg (cols := cols) cw') (g0 + S extra) mod 65536) (effective maxWidth)) as [Gt|Le]; intros C.
      * destruct C as [-> e]. injection e as ->. left. exists extra, cw. split; auto. split; auto. split; auto. rewrite app_nil_r.
        apply se_wide with (W' := seg (cols := cols) cw'); [exact HP|]. replace (S (g0 + extra)) with (g0 + S extra)%nat by lia. lia.
      * rewrite <- (clamp_effective maxWidth) in C. destruct (IH (S extra) cw' t2 o (or_intror Hl) HC2 C) as [(e & cw2 & -> & He & Hl2 & HS)|(q & -> & HB)].
        -- left. exists e, cw2. split; auto. split; [lia|]. split; auto. apply se_more with (W' := seg (cols := cols) cw'); [exact HP| |].
           ++ replace (S (g0 + extra)) with (g0 + S extra)%nat by lia. exact Le.
           ++ replace (S (g0 + extra)) with (g0 + S extra)%nat by lia. exact HS.
        -- right. exists q. split; auto. intros pre. rewrite app_assoc. apply HB.
    + destruct C as [-> e]. injection e as ->. destruct C1 as (n & Hn & ->). left. exists extra, cw. split; auto. split; auto. split; auto.
      rewrite app_nil_r. apply se_empty. replace (S (g0 + extra)) with (g0 + S extra)%nat by lia. exact Hn.
  - destruct C as [-> e]. injection e as ->. right. exists q. split; auto. intros pre. rewrite app_nil_r. apply merged_faults with (m := m) (g := (g0 + S extra)%nat); auto. lia.
Qed.
Lemma calc_ends (sep : str) maxWidth (g0 N : nat) : (1 <= g0)%nat -> forall fuel (extra : nat) cw tr,
  (forall n, In (Called CLen (Ok n)) tr -> 0 <= n <= Z.of_nat N) -> (extra <= N < fuel + extra)%nat ->
  ~ Can (calcK fuel V c (Z.of_nat ncols) (clampWidth maxWidth) (u16 (slen sep)) (Z.of_nat g0) (Z.of_nat extra) cw : kprog _) tr None.
Proof.
  intros Hg0. induction fuel as [|fuel IH]; intros extra cw tr HN Hf C; [lia|]. cbn [calcK] in C.
  replace (Z.of_nat g0 + Z.of_nat extra + 1) with (Z.of_nat (g0 + S extra)) in C by lia. replace (Z.of_nat extra + 1) with (Z.of_nat (S extra)) in C by lia.
  apply can_bind in C. destruct C as (t1 & [oc|[]|q] & t2 & -> & C1 & C); [|destruct C; discriminate].
  destruct oc as [cw'|]; [|destruct C; discriminate]. revert C. destruct (_ >? _); intros C; [destruct C; discriminate|].
  destruct (Nat.eq_dec extra N) as [->|Hne].
  - assert (HC : Counts t1) by (intros n Hn; apply HN; apply in_or_app; auto). pose proof C1 as C0. apply merged_can in C1; auto; [|lia].
    destruct C1 as [_ (n & lines & reads & _ & HW & -> & _)]. apply kworth_spec in HW; [|lia]. cbn [worth_b] in HW.
    assert (Hn : 0 <= Z.of_nat n <= Z.of_nat N) by (apply HN; left; reflexivity).
    apply Nat.ltb_lt in HW. assert (1 <= lineCount n (g0 + S N))%nat.
    { unfold lineCount. destruct n; [destruct (Nat.leb_spec 2 (g0 + S N)); lia|]. generalize (n / (g0 + S N))%nat. lia. }
    nia.
  - refine (IH (S extra) cw' t2 _ _ C); [|lia]. intros n Hn. apply HN. apply in_or_app. auto.
Qed.
End Cols.

(** ** The whole *)
Lemma merge_run {W} (env : environment W) m fuel c cols maxWidth sep compact w0 m0 w' m' r tr :
  krun env (mergeK m fuel c (map Some cols) maxWidth sep compact) w0 m0 = (w', m', r, tr) ->
  if kreckoned m0 cols sep mod 65536 =? 0 then r = Some (Panic DivideByZero) /\ tr = looks m0 cols /\ w' = w0 /\ m' = m0
  else exists rest, tr = looks m0 cols ++ rest /\
    if compact
    then exists t1 r1, Can (calcK fuel m c (Z.of_nat (length cols)) (clampWidth maxWidth) (u16 (slen sep)) (kestimate m0 cols sep maxWidth) 0 []) t1 r1 /\
      match r1 with
      | None => r = None /\ rest = t1
      | Some (Panic q) => r = Some (Panic q) /\ rest = t1
      | Some (Err e) => False
      | Some (Ok (extra, cw)) => exists t2 o, rest = t1 ++ t2 /\ r = Some o /\
          Can (if extra >? 0 then emitK m c (map Some cols) sep (kestimate m0 cols sep maxWidth + extra) (Some cw)
               else emitK m c (map Some cols) sep (kestimate m0 cols sep maxWidth) None) t2 o
      end
    else exists o, r = Some o /\ Can (emitK m c (map Some cols) sep (kestimate m0 cols sep maxWidth) None) rest o.
Proof.
  unfold mergeK. rewrite krun_bind, run_groupCount. destruct (_ =? 0).
  - cbn [krun]. intros e. injection e as <- <- <- <-. rewrite app_nil_r. auto.
  - destruct (krun env _ w0 m0) as [[[w2 m2] r2] t2] eqn:K. intros e. injection e as <- <- <- <-. exists t2. split; auto. apply krun_can in K. destruct compact.
    + apply can_bind in K. rewrite slen_ocols in K. destruct K as (t1 & r1 & t3 & -> & C1 & C). exists t1, r1. split; [exact C1|].
      destruct r1 as [[[extra cw]|[]|q]|].
      * apply can_bind in C. destruct C as (t4 & o & t5 & -> & C & [-> ->]). rewrite app_nil_r. exists t4, o. auto.
      * destruct C as [-> ->]. rewrite app_nil_r. auto.
      * destruct C as [-> ->]. rewrite app_nil_r. auto.
    + apply can_bind in K. destruct K as (t1 & o & t3 & -> & C & [-> ->]). rewrite app_nil_r. exists o. auto.
Qed.
End Searching.
