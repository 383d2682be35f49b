(** * PropScript: script/generate.go from text to text (C60). *)
From Coq Require Import Strings.String.
From Verif Require Import GoBase IntervalSpec Utf8 Runewidth Generate GenText GenTextSpec GenCases GenScriptSpec GenScriptTables.
Local Open Scope Z_scope.

(** ** C60: the tables of runewidth printed from the data files *)

(** A line is read as what it says, and says one thing only. *)
Theorem C60_line : forall line,
  (forall lo hi c, EaSays line lo hi c <-> exists l, read_ea line = Some l /\ eaLo l = lo /\ match eaHi l with Some h => h | None => eaLo l end = hi /\ eaClass l = c)
  /\ (forall lo hi, EmSays line lo hi <-> exists p, read_em line = Some p /\ fst p = lo /\ match snd p with Some h => h | None => fst p end = hi)
  /\ (forall lo hi c lo' hi' c', EaSays line lo hi c -> EaSays line lo' hi' c' -> lo = lo' /\ hi = hi' /\ c = c')
  /\ forall lo hi lo' hi', EmSays line lo hi -> EmSays line lo' hi' -> lo = lo' /\ hi = hi'.
Proof. exact script_line. Qed.
Print Assumptions C60_line.

(** [fa], [fe]: reading the first, the second file fails in the end. *)
Theorem C60_tables : forall ea em ls ms marked early fa fe, ShortLines ea -> Lines ea ls -> ShortLines em -> Lines em ms -> Marked ms marked ->
  (fe = true -> early = false /\ exists l, In l ms /\ Mentions (lit "Extended_Pictographic ; No") l) ->
  ProperLines EaRange ls -> ProperLines EmSays marked ->
  exists cmb dbl amb nar neu emo,
  Declares (script_text early {| bText := ea; bFails := fa |} {| bText := em; bFails := fe |})
    [(lit "packagerunewidthvarcombining=table", cmb); (lit "vardoublewidth=table", dbl); (lit "varambiguous=table", amb);
     (lit "varnarrow=table", nar); (lit "varneutral=table", neu); (lit "varemoji=table", emo)]
  /\ (forall r, Member r dbl <-> exists line lo hi c, In line ls /\ EaSays line lo hi c /\ (c = W \/ c = F) /\ lo <= r <= hi)
  /\ (forall r, Member r amb <-> exists line lo hi, In line ls /\ EaSays line lo hi A /\ lo <= r <= hi)
  /\ (forall r, Member r nar <-> exists line lo hi, In line ls /\ EaSays line lo hi Na /\ lo <= r <= hi)
  /\ (forall r, Member r neu <-> exists line lo hi, In line ls /\ EaSays line lo hi N /\ lo <= r <= hi)
  /\ (forall r, Member r cmb <-> exists line lo hi c, In line ls /\ EaSays line lo hi c /\ Mentions (lit "COMBINING") line /\ lo <= r <= hi)
  /\ (forall r, Member r emo <-> exists line lo hi, In line marked /\ EmSays line lo hi /\ 255 <= hi /\ lo <= r <= hi)
  /\ (Up EaRange ls -> Forall (fun t => Compact t /\ (t <> [] -> forall r, inTable r t = true <-> Member r t)) [cmb; dbl; amb; nar; neu])
  /\ (Up EmSays marked -> Compact emo /\ (emo <> [] -> forall r, inTable r emo = true <-> Member r emo)).
Proof. exact whole_script. Qed.
Print Assumptions C60_tables.

(** White space before the semicolon, as in later versions of the file: the line is skipped. *)
Theorem C60_newer : forall line s1 a s tail, Gap s1 -> Gap s -> s <> [] ->
  (forall v, Signed a v -> runes line = s1 ++ a ++ s ++ 59 :: tail -> forall lo hi c, ~ EaSays line lo hi c)
  /\ (forall s2 b u v, Signed a u -> Gap s2 -> Signed b v -> runes line = s1 ++ a ++ [46; 46] ++ s2 ++ b ++ s ++ 59 :: tail -> forall lo hi c, ~ EaSays line lo hi c).
Proof. exact newer_line. Qed.
Print Assumptions C60_newer.

(** An incomplete download is taken for a complete one. *)
Theorem C60_cut : forall ea early em, ShortLines ea -> script_text early {| bText := ea; bFails := true |} em = script_text early {| bText := ea; bFails := false |} em.
Proof. exact cut_ea. Qed.
Print Assumptions C60_cut.

Theorem C60_cut_emoji : forall em ms ea, ShortLines em -> Lines em ms -> (exists l, In l ms /\ Mentions (lit "Extended_Pictographic ; No") l) ->
  script_text false ea {| bText := em; bFails := true |} = script_text false ea {| bText := em; bFails := false |}.
Proof. exact cut_em. Qed.
Print Assumptions C60_cut_emoji.

(** A long line hides itself and all that follows. *)
Theorem C60_long : forall pre run post fails early em, ShortLines pre -> (pre = [] \/ exists p, pre = p ++ [x0a]) -> ~ In x0a run -> 65536 <= slen run ->
  script_text early {| bText := pre ++ run ++ post; bFails := fails |} em = script_text early {| bText := pre; bFails := false |} em.
Proof. exact long_ea. Qed.
Print Assumptions C60_long.

(** Reading fails before the marker: a file without the emoji table. *)
Theorem C60_no_emoji : forall ea ls em ms early fa, ShortLines ea -> Lines ea ls -> ProperLines EaRange ls -> ShortLines em -> Lines em ms ->
  Forall (fun l => ~ Mentions (lit "Extended_Pictographic ; No") l) ms ->
  exists cmb dbl amb nar neu, Declares (script_text early {| bText := ea; bFails := fa |} {| bText := em; bFails := true |})
    [(lit "packagerunewidthvarcombining=table", cmb); (lit "vardoublewidth=table", dbl); (lit "varambiguous=table", amb);
     (lit "varnarrow=table", nar); (lit "varneutral=table", neu)].
Proof. exact no_emoji. Qed.
Print Assumptions C60_no_emoji.

(** A range written backwards loses code points of another line. *)
Theorem C60_backward_refuted : exists ea ls line dbl rest, ShortLines ea /\ Lines ea ls /\ In line ls /\ EaSays line 0x20 0x2F W
  /\ Declares (script_text false {| bText := ea; bFails := false |} {| bText := []; bFails := false |}) ((lit "packagerunewidthvarcombining=table", []) :: (lit "vardoublewidth=table", dbl) :: rest)
  /\ ~ Member 0x28 dbl.
Proof. exact backward_refuted. Qed.
Print Assumptions C60_backward_refuted.

Example C60_tables_example : exists ls ms marked, ShortLines ea_example /\ Lines ea_example ls /\ ShortLines em_example /\ Lines em_example ms /\ Marked ms marked
  /\ ProperLines EaRange ls /\ ProperLines EmSays marked /\ Up EaRange ls /\ Up EmSays marked /\ List.length ls = 7%nat /\ List.length marked = 3%nat.
Proof. exact script_example. Qed.

Example C60_output_example : script_text false {| bText := ea_example; bFails := false |} {| bText := em_example; bFails := false |} =
  lit "// Code generated by script/generate.go. DO NOT EDIT." ++ nl ++ nl ++ lit "package runewidth" ++ nl ++ nl
  ++ lit "var combining = table{" ++ nl ++ [x09] ++ lit "{0x0300, 0x036F}," ++ nl ++ lit "}" ++ nl ++ nl
  ++ lit "var doublewidth = table{" ++ nl ++ [x09] ++ lit "{0x1100, 0x115F}, {0xFF01, 0xFF04}," ++ nl ++ lit "}" ++ nl ++ nl
  ++ lit "var ambiguous = table{" ++ nl ++ [x09] ++ lit "{0x0300, 0x036F}," ++ nl ++ lit "}" ++ nl
  ++ lit "var narrow = table{" ++ nl ++ [x09] ++ lit "{0x0020, 0x0020}," ++ nl ++ lit "}" ++ nl ++ nl
  ++ lit "var neutral = table{" ++ nl ++ [x09] ++ lit "{0x1160, 0x11FF}," ++ nl ++ lit "}" ++ nl ++ nl
  ++ lit "var emoji = table{" ++ nl ++ [x09] ++ lit "{0x231A, 0x231B}, {0x1F004, 0x1F004}," ++ nl ++ lit "}" ++ nl.
Proof. exact script_output. Qed.

Example C60_newer_example : read_ea (lit "0020 ; Na # Zs SPACE") = None /\ read_ea (lit "1100..115F ; W") = None
  /\ runes (lit "1100..115F ; W") = [] ++ [49; 49; 48; 48] ++ [46; 46] ++ [] ++ [49; 49; 53; 70] ++ [32] ++ 59 :: [32; 87].
Proof. repeat split; vm_compute; reflexivity. Qed.
