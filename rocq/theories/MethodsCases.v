(** * MethodsCases: coloured texts, and where the methods differ. *)
From Coq Require Import Strings.String.
From Verif Require Import GoBase Utf8 Utf8Spec Utf8Proofs GraphemeSpec Runewidth ConditionSpec Regex EscapeSpec Width TextSpec ScanProofs WidthProofs
  TableExamples MethodsSpec MethodsProofs.
From Coq Require Import ZifyBool ZifyNat.
Local Open Scope Z_scope.

(** Taking apart by computation, for the examples. *)
Fixpoint apart_go (n : nat) (s : str) : option (list str * list str) :=
  match n with
  | O => None
  | S n => match FindStringIndex ansiEscapeRE s with
           | None => Some ([s], [])
           | Some (i, j) => match apart_go n (drop j s) with
                            | Some (ps, es) => Some (take i s :: ps, take (j - i) (drop i s) :: es)
                            | None => None
                            end
           end
  end.

Lemma take_app_exact (a b : str) : take (slen a) (a ++ b) = a.
Proof. unfold take, slen. rewrite Nat2Z.id, firstn_app, Nat.sub_diag, firstn_all. apply app_nil_r. Qed.

Lemma apart_go_sound n : forall s ps es, apart_go n s = Some (ps, es) -> Apart s ps es.
Proof.
  induction n as [|n IH]; intros s ps es E; [discriminate|]. cbn [apart_go] in E.
  destruct (FindStringIndex ansiEscapeRE s) as [(i, j)|] eqn:EF.
  - destruct (apart_go n (drop j s)) as [(ps', es')|] eqn:EG; [|discriminate]. injection E as <- <-. apply IH in EG.
    destruct (FindStringIndex_some _ _ _ EF) as (pre & m & rest & Ed & HF & -> & ->).
    destruct (decode_split _ _ _ Ed) as (a & q & -> & Ha & Hq & La).
    destruct (decode_split _ _ _ Hq) as (e & b & -> & He & Hb & Le). rewrite <- La, <- Le in *.
    replace (slen a + slen e - slen a) with (slen e) by lia.
    rewrite <- drop_drop in EG by apply slen_nonneg. rewrite drop_app_exact in *. rewrite drop_app_exact in EG.
    rewrite !take_app_exact. subst pre m rest. constructor; auto.
  - injection E as <- <-. constructor. apply FindStringIndex_none, EF.
Qed.

Definition red (s : string) : str := (x1b :: lit "[31m"%string) ++ lit s ++ (x1b :: lit "[0m"%string).
Definition coloured : str := lit "ab "%string ++ red "cde"%string ++ lit " f"%string.
Definition colouredPieces : list str := [lit "ab "%string; lit "cde"%string; lit " f"%string].
Definition colouredSequences : list str := [x1b :: lit "[31m"%string; x1b :: lit "[0m"%string].

Lemma coloured_apart : Apart coloured colouredPieces colouredSequences.
Proof. apply (apart_go_sound 5). vm_compute. reflexivity. Qed.

Lemma seams_printable ps : Forall (Forall (fun b => 0x20 <= bv b <= 0x7E)) ps -> SeamsBreak ps.
Proof.
  intros HF done p rest r l -> E _. apply Forall_app in HF. destruct HF as [HD HP]. inversion HP as [|? ? Hp _]; subst.
  rewrite printable_runes in E by auto. destruct p as [|b p]; [discriminate|]. injection E as <- _. inversion Hp; subst.
  rewrite (class_printable (bv b)) by auto. apply breaks_before_other.
  assert (HC : Forall (fun b => 0x20 <= bv b <= 0x7E) (List.concat done)).
  { clear -HD. induction HD as [|x done Hx _ IH]; [constructor|]. cbn [List.concat]. apply Forall_app. split; auto. }
  intros prev K. apply rev_map_last in K. destruct K as (q & x & K & Kx). rewrite printable_runes in K by auto.
  assert (Hx : 0x20 <= x <= 0x7E).
  { rewrite <- Forall_map with (f := bv) (P := fun r => 0x20 <= r <= 0x7E) in HC. rewrite K in HC. apply Forall_app in HC.
    destruct HC as [_ HC]. inversion HC; auto. }
  rewrite class_printable in Kx by auto. discriminate.
Qed.

Lemma printable_list ps : forallb (forallb (fun b => (0x20 <=? bv b) && (bv b <=? 0x7E))) ps = true ->
  Forall (Forall (fun b => 0x20 <= bv b <= 0x7E)) ps.
Proof.
  intros HB. rewrite forallb_forall in HB. apply Forall_forall. intros p Hp. apply HB in Hp. rewrite forallb_forall in Hp.
  apply Forall_forall. intros b Hb. apply Hp in Hb. lia.
Qed.

Lemma coloured_example : Reachable exC /\ Apart coloured colouredPieces colouredSequences
  /\ Forall (fun q => ~ JoinsPrevious q) (tl colouredPieces) /\ Forall StartsRune (tl colouredPieces)
  /\ c1_introduced colouredSequences = 0 /\ SeamsBreak colouredPieces
  /\ Forall (Forall (fun b => 0x20 <= bv b <= 0x7E)) colouredPieces
  /\ rawWidth exC coloured = 8 /\ StringWidth exC (List.concat colouredPieces) = 8 /\ StringWidth exC coloured = 15
  /\ slen coloured - countMatchesLength ansiEscapeRE coloured = 10.
Proof.
  assert (HP : Forall (Forall (fun b => 0x20 <= bv b <= 0x7E)) colouredPieces) by (apply printable_list; vm_compute; reflexivity).
  split; [apply r_fresh|]. split; [exact coloured_apart|]. split.
  { eapply Forall_impl; [intros q; apply printable_not_joins|]. exact (Forall_inv_tail HP). }
  split; [repeat constructor|]. split; [reflexivity|]. split; [apply seams_printable, HP|]. split; [exact HP|].
  repeat split; vm_compute; reflexivity.
Qed.

(** A letter, a sequence, a combining accent, a letter. *)
Definition accented : str := lit "a"%string ++ (x1b :: lit "[1m"%string) ++ [xcc; x81] ++ lit "b"%string.
Lemma accented_example : Reachable exC /\ Apart accented [lit "a"%string; [xcc; x81] ++ lit "b"%string] [x1b :: lit "[1m"%string]
  /\ behind exC ([xcc; x81] ++ lit "b"%string) = 1 /\ rawWidth exC accented = 2.
Proof. split; [apply r_fresh|]. split; [apply (apart_go_sound 5); vm_compute; reflexivity|]. split; vm_compute; reflexivity. Qed.

(** A family whose second member is coloured. *)
Definition man : str := [xf0; x9f; x91; xa8].
Definition zwj : str := [xe2; x80; x8d].
Definition girl : str := [xf0; x9f; x91; xa7].
Definition family : str := (man ++ zwj) ++ (x1b :: lit "[1m"%string) ++ girl.
Lemma family_refuted : exists c s p ps es, Reachable c /\ Apart s (p :: ps) es /\ Forall (fun q => ~ JoinsPrevious q) ps
  /\ Forall StartsRune ps /\ c1_introduced es = 0 /\ StringWidth c (List.concat (p :: ps)) = 2 /\ rawWidth c s = 4.
Proof.
  exists exC, family, (man ++ zwj), [girl], [x1b :: lit "[1m"%string].
  split; [apply r_fresh|]. split; [apply (apart_go_sound 5); vm_compute; reflexivity|]. split.
  { constructor; [|constructor]. intros (r & post & E & K). change (runes girl) with [0x1F467] in E. injection E as <- _.
    vm_compute in K. intuition discriminate. }
  split; [constructor; [right; vm_compute; discriminate|constructor]|]. split; [reflexivity|]. split; vm_compute; reflexivity.
Qed.

(** A vowel sign that stands alone takes a cell; behind a sequence it takes none. *)
Definition vowelSign : str := [xe0; xa4; xbe].
Lemma vowel_refuted : exists c s p ps es, Reachable c /\ Apart s (p :: ps) es /\ Forall StartsRune ps /\ c1_introduced es = 0
  /\ rawWidth c s = 0 /\ StringWidth c (List.concat (p :: ps)) = 1.
Proof.
  exists exC, ((x1b :: lit "[1m"%string) ++ vowelSign), [], [vowelSign], [x1b :: lit "[1m"%string].
  split; [apply r_fresh|]. split; [apply (apart_go_sound 5); vm_compute; reflexivity|].
  split; [constructor; [right; vm_compute; discriminate|constructor]|]. split; [reflexivity|]. split; vm_compute; reflexivity.
Qed.

(** Counting bytes, every sequence leaves a cell. *)
Lemma bytes_refuted : exists c s, Reachable c /\ slen s - countMatchesLength ansiEscapeRE s <> rawWidth c s
  /\ Forall (fun b => bv b = 0x1B \/ 0x20 <= bv b <= 0x7E) s.
Proof.
  exists exC, coloured. split; [apply r_fresh|]. split; [vm_compute; discriminate|].
  apply Forall_forall. intros b Hb.
  assert (K : forallb (fun b => (bv b =? 0x1B) || ((0x20 <=? bv b) && (bv b <=? 0x7E))) coloured = true) by (vm_compute; reflexivity).
  rewrite forallb_forall in K. apply K in Hb. lia.
Qed.
