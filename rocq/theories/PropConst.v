(** * PropConst: the property constants of uniseg

    GENERATED by tools/gen_tables.py from the Go sources in /repo; do not
    edit.  Entries are transcribed in source order. *)
From Coq Require Import ZArith.
Local Open Scope Z_scope.

(** runewidth/uniseg/properties.go:5-90, one const block numbered by iota.
    [prXX = 0] is the ConstSpec at index 0 and [prAny = iota] the one at
    index 1, so [prAny] is 1, not 0 as the comment in the source says. *)
Definition prXX : Z := 0.
Definition prAny : Z := 1.
Definition prPrepend : Z := 2.
Definition prCR : Z := 3.
Definition prLF : Z := 4.
Definition prControl : Z := 5.
Definition prExtend : Z := 6.
Definition prRegionalIndicator : Z := 7.
Definition prSpacingMark : Z := 8.
Definition prL : Z := 9.
Definition prV : Z := 10.
Definition prT : Z := 11.
Definition prLV : Z := 12.
Definition prLVT : Z := 13.
Definition prZWJ : Z := 14.
Definition prExtendedPictographic : Z := 15.
Definition prNewline : Z := 16.
Definition prWSegSpace : Z := 17.
Definition prDoubleQuote : Z := 18.
Definition prSingleQuote : Z := 19.
Definition prMidNumLet : Z := 20.
Definition prNumeric : Z := 21.
Definition prMidLetter : Z := 22.
Definition prMidNum : Z := 23.
Definition prExtendNumLet : Z := 24.
Definition prALetter : Z := 25.
Definition prFormat : Z := 26.
Definition prHebrewLetter : Z := 27.
Definition prKatakana : Z := 28.
Definition prSp : Z := 29.
Definition prSTerm : Z := 30.
Definition prClose : Z := 31.
Definition prSContinue : Z := 32.
Definition prATerm : Z := 33.
Definition prUpper : Z := 34.
Definition prLower : Z := 35.
Definition prSep : Z := 36.
Definition prOLetter : Z := 37.
Definition prCM : Z := 38.
Definition prBA : Z := 39.
Definition prBK : Z := 40.
Definition prSP : Z := 41.
Definition prEX : Z := 42.
Definition prQU : Z := 43.
Definition prAL : Z := 44.
Definition prPR : Z := 45.
Definition prPO : Z := 46.
Definition prOP : Z := 47.
Definition prCP : Z := 48.
Definition prIS : Z := 49.
Definition prHY : Z := 50.
Definition prSY : Z := 51.
Definition prNU : Z := 52.
Definition prCL : Z := 53.
Definition prNL : Z := 54.
Definition prGL : Z := 55.
Definition prAI : Z := 56.
Definition prBB : Z := 57.
Definition prHL : Z := 58.
Definition prSA : Z := 59.
Definition prJL : Z := 60.
Definition prJV : Z := 61.
Definition prJT : Z := 62.
Definition prNS : Z := 63.
Definition prZW : Z := 64.
Definition prB2 : Z := 65.
Definition prIN : Z := 66.
Definition prWJ : Z := 67.
Definition prID : Z := 68.
Definition prEB : Z := 69.
Definition prCJ : Z := 70.
Definition prH2 : Z := 71.
Definition prH3 : Z := 72.
Definition prSG : Z := 73.
Definition prCB : Z := 74.
Definition prRI : Z := 75.
Definition prEM : Z := 76.
Definition prN : Z := 77.
Definition prNa : Z := 78.
Definition prA : Z := 79.
Definition prW : Z := 80.
Definition prH : Z := 81.
Definition prF : Z := 82.
Definition prEmojiPresentation : Z := 83.
