(** * GlyphSpec: what a reader takes for one character. *)
From Verif Require Import GoBase Utf8Spec GraphemeSpec TextSpec Runewidth Table Merge MarkSpec.
Local Open Scope Z_scope.

(** Emoji: a pictograph with modifiers (variation selectors, skin tones, tags);
    several of them joined by ZWJ. *)
Inductive Emoji : list Z -> Prop :=
| em_one p xs : class p = Pict -> Forall (fun x => class x = Extend) xs -> Emoji (p :: xs)
| em_join e z p xs : Emoji e -> class z = ZWJ -> class p = Pict -> Forall (fun x => class x = Extend) xs -> Emoji (e ++ z :: p :: xs).

(** A Hangul syllable: leading consonants, vowels, trailing consonants, some of
    them composed. *)
Inductive Hangul : list Z -> Prop :=
| ha_parts l ls v vs ts : Forall (fun r => class r = HL) (l :: ls) -> Forall (fun r => class r = HV) (v :: vs) -> Forall (fun r => class r = HT) ts ->
    Hangul ((l :: ls) ++ (v :: vs) ++ ts)
| ha_lv ls x vs ts : Forall (fun r => class r = HL) ls -> class x = HLV -> Forall (fun r => class r = HV) vs -> Forall (fun r => class r = HT) ts ->
    Hangul (ls ++ x :: vs ++ ts)
| ha_lvt ls x ts : Forall (fun r => class r = HL) ls -> class x = HLVT -> Forall (fun r => class r = HT) ts -> Hangul (ls ++ x :: ts).

Inductive Core : list Z -> Prop :=
| co_char r : class r = Other -> Core [r]
| co_emoji e : Emoji e -> Core e
| co_flag a b : class a = RI -> class b = RI -> Core [a; b]
| co_hangul h : Hangul h -> Core h.

(** One of these with marks on it. *)
Definition Glyph (g : list Z) : Prop := exists core ms, Core core /\ Forall Mark ms /\ g = core ++ ms.

(** Its first rune takes width. *)
Definition Shown (c : Condition) (g : list Z) : Prop := Glyph g /\ exists r l, g = r :: l /\ 0 < RuneWidth c r.

(** Texts of glyphs that begin with the same runes, one by one; texts that are
    the same, whatever they contain. *)
Inductive SameFirsts (c : Condition) : str -> str -> Prop :=
| sf_same s : SameFirsts c s s
| sf_glyphs gl gl' s s' : Forall (Shown c) gl -> Forall (Shown c) gl' -> EncodesText (concat gl) s -> EncodesText (concat gl') s' -> map (hd 0) gl' = map (hd 0) gl -> SameFirsts c s s'.
Definition SameFirstItems {E} (c : Condition) (items items' : FormattedItemList E) : Prop :=
  fiLen items' = fiLen items /\
  forall i, match fiGet items i, fiGet items' i with
            | Ok row, Ok row' => Forall2 (SameFirsts c) row row'
            | Err e, Err e' => e' = e
            | Panic p, Panic p' => p' = p
            | _, _ => False
            end.
