(** * GenScriptSpec: what script/generate.go should read and write. *)
From Coq Require Import Strings.String.
From Verif Require Import GoBase Utf8 Generate GenText GenTextSpec.
Local Open Scope Z_scope.

(** ** Characters *)

(** White space within a line, and the newline. *)
Definition gaps : list Z :=
  [9; 11; 12; 13; 32; 0x85; 0xA0; 0x1680; 0x2000; 0x2001; 0x2002; 0x2003; 0x2004; 0x2005; 0x2006; 0x2007; 0x2008; 0x2009; 0x200A;
   0x2028; 0x2029; 0x202F; 0x205F; 0x3000].
Definition Gap (l : list Z) : Prop := Forall (fun r => In r gaps) l.
(** The line ends here, or a gap begins. *)
Definition Ends (l : list Z) : Prop := l = [] \/ exists r rest, l = r :: rest /\ In r gaps.
(** A word. *)
Definition Letters (l : list Z) : Prop := l <> [] /\ Forall (fun r => ~ In r gaps /\ r <> 10) l.

(** Hexadecimal digits. *)
Inductive Digit : Z -> Z -> Prop :=
| digit_dec c : 48 <= c <= 57 -> Digit c (c - 48)
| digit_upper c : 65 <= c <= 70 -> Digit c (c - 55)
| digit_lower c : 97 <= c <= 102 -> Digit c (c - 87).
Inductive Digits : list Z -> Z -> Prop :=
| digits_one c d : Digit c d -> Digits [c] d
| digits_more l v c d : Digits l v -> Digit c d -> Digits (l ++ [c]) (16 * v + d).
(** A number with or without a sign that a rune can hold. *)
Inductive Signed : list Z -> Z -> Prop :=
| signed_none l v : Digits l v -> v < 2147483648 -> Signed l v
| signed_plus l v : Digits l v -> v < 2147483648 -> Signed (43 :: l) v
| signed_minus l v : Digits l v -> v <= 2147483648 -> Signed (45 :: l) (- v).

(** ** Lines *)

(** a..b;class *)
Definition RangeClass (l : list Z) (lo hi : Z) (w : list Z) : Prop :=
  exists s1 a s2 b s3 tail, l = s1 ++ a ++ [46; 46] ++ s2 ++ b ++ [59] ++ s3 ++ w ++ tail
  /\ Gap s1 /\ Signed a lo /\ Gap s2 /\ Signed b hi /\ Gap s3 /\ Letters w /\ Ends tail.
(** a;class *)
Definition OneClass (l : list Z) (lo : Z) (w : list Z) : Prop :=
  exists s1 a s3 tail, l = s1 ++ a ++ [59] ++ s3 ++ w ++ tail /\ Gap s1 /\ Signed a lo /\ Gap s3 /\ Letters w /\ Ends tail.
(** a..b *)
Definition RangeOnly (l : list Z) (lo hi : Z) : Prop :=
  exists s1 a s2 b tail, l = s1 ++ a ++ [46; 46] ++ s2 ++ b ++ tail /\ Gap s1 /\ Signed a lo /\ Gap s2 /\ Signed b hi /\ Ends tail.
(** a *)
Definition OneOnly (l : list Z) (lo : Z) : Prop :=
  exists s1 a tail, l = s1 ++ a ++ tail /\ Gap s1 /\ Signed a lo /\ Ends tail.

(** The class a word stands for. *)
Inductive ClassWord : list Z -> class -> Prop :=
| class_w : ClassWord [87] W
| class_f : ClassWord [70] F
| class_a : ClassWord [65] A
| class_na : ClassWord [78; 97] Na
| class_n : ClassWord [78] N
| class_other w : ~ In w [[87]; [70]; [65]; [78; 97]; [78]] -> ClassWord w Other.

(** A line of EastAsianWidth.txt says: from [lo] to [hi], of class [c]. *)
Inductive EaSays (line : str) (lo hi : Z) (c : class) : Prop :=
| says_range w : (forall d, line <> x23 :: d) -> RangeClass (runes line) lo hi w -> ClassWord w c -> EaSays line lo hi c
| says_one w : (forall d, line <> x23 :: d) -> OneClass (runes line) lo w -> hi = lo -> ClassWord w c -> EaSays line lo hi c.
(** A line of emoji-data.txt says: from [lo] to [hi]. *)
Inductive EmSays (line : str) (lo hi : Z) : Prop :=
| em_range : (forall d, line <> x23 :: d) -> RangeOnly (runes line) lo hi -> EmSays line lo hi
| em_one : (forall d, line <> x23 :: d) -> OneOnly (runes line) lo -> hi = lo -> EmSays line lo hi.

(** Only lines after the first one with the marker count. *)
Inductive Marked : list str -> list str -> Prop :=
| marked_none ls : Forall (fun l => ~ Mentions (lit "Extended_Pictographic ; No") l) ls -> Marked ls []
| marked_at pre l rest : Forall (fun l => ~ Mentions (lit "Extended_Pictographic ; No") l) pre ->
    Mentions (lit "Extended_Pictographic ; No") l -> Marked (pre ++ l :: rest) rest.

(** ** The source *)
Definition pair_value (row : list str) : option (Z * Z) :=
  match row with
  | [a; b] => match number a, number b with Some x, Some y => Some (x, y) | _, _ => None end
  | _ => None
  end.
(** The tables declared, with the text before each brace. *)
Definition Declares (src : str) (ds : list (str * list (Z * Z))) : Prop :=
  exists gs, read_go src = Some gs /\ Forall2 (fun g d => fst g = fst d /\ map pair_value (snd g) = map Some (snd d)) gs ds.

(** ** Lines in order *)

(** Ranges are of code points, and not empty. *)
Definition ProperLines (says : str -> Z -> Z -> Prop) (lines : list str) : Prop :=
  forall line lo hi, In line lines -> says line lo hi -> 0 <= lo <= hi.
(** Ranges ascend. *)
Fixpoint Up (says : str -> Z -> Z -> Prop) (lines : list str) : Prop :=
  match lines with
  | [] => True
  | x :: rest => (forall lo hi y lo' hi', says x lo hi -> In y rest -> says y lo' hi' -> hi < lo') /\ Up says rest
  end.
(** Some class or other. *)
Definition EaRange (line : str) (lo hi : Z) : Prop := exists c, EaSays line lo hi c.
