(** * ClusterSpec: the monospace width of a grapheme cluster. *)
From Verif Require Import GoBase IntervalSpec PropConst GraphemeData EastAsianData EmojiData GraphemeSpec.
Local Open Scope Z_scope.

(** The text and emoji variation selectors. *)
Definition VS15 : Z := 0xFE0E.
Definition VS16 : Z := 0xFE0F.

(** Cells of one rune. *)
Definition cells_of (r : Z) : Z :=
  match class r with
  | Control | CR | LF | Extend | ZWJ => 0
  | RI => 2
  | Pict => if lookup emojiPresentation r =? prEmojiPresentation then 2 else 1
  | _ =>
    if r =? 0x2E3A then 3                       (* two-em dash *)
    else if r =? 0x2E3B then 4                  (* three-em dash *)
    else if (lookup eastAsianWidth r =? prW) || (lookup eastAsianWidth r =? prF) then 2 else 1
  end.

(** Clusters of several runes that start like this have a width of their own. *)
Definition special (g : gcb) : bool :=
  match g with Pict | RI | HL => true | _ => false end.

(** Cells of a cluster. *)
Inductive Cells : list Z -> Z -> Prop :=
| c_single r : Cells [r] (cells_of r)
(* an emoji with something after it: two cells, unless it ends in VS15 *)
| c_emoji r mid x : class r = Pict -> x <> VS15 -> Cells (r :: mid ++ [x]) 2
| c_text r mid : class r = Pict -> Cells (r :: mid ++ [VS15]) 1
(* flags and Hangul syllables *)
| c_flag r rest : class r = RI -> Cells (r :: rest) 2
| c_hangul r rest : class r = HL -> Cells (r :: rest) 2
(* anything else: the sum of the runes, where VS16 makes all before it two cells *)
| c_sum r rest : special (class r) = false -> ~ In VS16 rest -> Cells (r :: rest) (zsum (map cells_of (r :: rest)))
| c_vs16 r mid rest : special (class r) = false -> ~ In VS16 rest ->
    Cells (r :: mid ++ VS16 :: rest) (2 + zsum (map cells_of rest)).
