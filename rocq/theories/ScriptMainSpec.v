(** * ScriptMainSpec: what script/generate.go should do, and the widths its data
    files stand for. *)
From Coq Require Import Strings.String.
From Verif Require Import GoBase IntervalSpec Generate GenText GenTextSpec GenScriptSpec GenMain ScriptMain.
Local Open Scope Z_scope.

Definition url_of_ea : str := lit "https://unicode.org/Public/13.0.0/ucd/EastAsianWidth.txt".
Definition url_of_em : str := lit "https://unicode.org/Public/13.0.0/ucd/emoji/emoji-data.txt".

(** The source declares the six tables. *)
Definition Source (src : str) (T : tables) : Prop :=
  Declares src [(lit "packagerunewidthvarcombining=table", tCombining T); (lit "vardoublewidth=table", tDoublewidth T);
    (lit "varambiguous=table", tAmbiguous T); (lit "varnarrow=table", tNarrow T); (lit "varneutral=table", tNeutral T);
    (lit "varemoji=table", tEmoji T)].

(** A response with these lines, [failing] in the end or not. *)
Definition Response (w : World) (url : str) (failing : bool) (lines : list str) : Prop :=
  exists text, web w url = Some {| bText := text; bFails := failing |} /\ ShortLines text /\ Lines text lines.

(** What is not printed whatever the files say. *)
Definition Control (r : Z) : Prop :=
  r <= 0x1F \/ 0x7F <= r <= 0x9F \/ r = 0xAD \/ r = 0x70F \/ 0x180B <= r <= 0x180E \/ 0x200B <= r <= 0x200F \/ 0x2028 <= r <= 0x202E
  \/ 0x206A <= r <= 0x206F \/ 0xD800 <= r <= 0xDFFF \/ r = 0xFEFF \/ 0xFFF9 <= r <= 0xFFFB \/ 0xFFFE <= r <= 0xFFFF.

Section Lines.
Variables (ls marked : list str).
(** A line of class [c] covers [r]. *)
Definition Has (c : class) (r : Z) : Prop := exists line lo hi, In line ls /\ EaSays line lo hi c /\ lo <= r <= hi.
Definition Combines (r : Z) : Prop :=
  exists line lo hi c, In line ls /\ EaSays line lo hi c /\ Mentions (lit "COMBINING") line /\ lo <= r <= hi.
Definition Pictures (r : Z) : Prop := exists line lo hi, In line marked /\ EmSays line lo hi /\ 255 <= hi /\ lo <= r <= hi.
Definition IsWide (r : Z) : Prop := Has W r \/ Has F r.

(** Outside East Asian mode; below U+0300 the files do not count. *)
Inductive FileWidth (r : Z) : Z -> Prop :=
| fw_low_control : r < 0x300 -> Control r -> FileWidth r 0
| fw_low : r < 0x300 -> ~ Control r -> FileWidth r 1
| fw_narrow : 0x300 <= r -> Has Na r -> FileWidth r 1
| fw_nothing : 0x300 <= r -> ~ Has Na r -> Control r \/ Combines r -> FileWidth r 0
| fw_wide : 0x300 <= r -> ~ Has Na r -> ~ Control r -> ~ Combines r -> IsWide r -> FileWidth r 2
| fw_other : 0x300 <= r -> ~ Has Na r -> ~ Control r -> ~ Combines r -> ~ IsWide r -> FileWidth r 1.
(** In East Asian mode. *)
Inductive FileWidthEastAsian (strict : bool) (r : Z) : Z -> Prop :=
| fe_nothing : Control r \/ Combines r -> FileWidthEastAsian strict r 0
| fe_narrow : ~ Control r -> ~ Combines r -> Has Na r -> FileWidthEastAsian strict r 1
| fe_wide : ~ Control r -> ~ Combines r -> ~ Has Na r -> Has A r \/ IsWide r -> FileWidthEastAsian strict r 2
| fe_picture : ~ Control r -> ~ Combines r -> ~ Has Na r -> ~ Has A r -> ~ IsWide r -> strict = false -> Pictures r -> FileWidthEastAsian strict r 2
| fe_other : ~ Control r -> ~ Combines r -> ~ Has Na r -> ~ Has A r -> ~ IsWide r -> strict = true \/ ~ Pictures r -> FileWidthEastAsian strict r 1.

(** Every class used occurs. *)
Definition AllThere : Prop :=
  (exists r, Has Na r) /\ (exists r, Combines r) /\ (exists r, IsWide r) /\ (exists r, Has A r) /\ (exists r, Pictures r).
End Lines.
