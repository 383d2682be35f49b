(** * GenTextSpec: what the generators should read and write. *)
From Coq Require Import Strings.String.
From Verif Require Import GoBase Utf8Spec GenText.
Local Open Scope Z_scope.

(** ** Lines *)

(** A carriage return before the newline does not belong to the line. *)
Inductive Line : str -> str -> Prop :=
| line_cr l : Line (l ++ [x0d]) l
| line_plain l : (forall m, l <> m ++ [x0d]) -> Line l l.

(** The lines of a text; the last need not end in a newline. *)
Inductive Lines : str -> list str -> Prop :=
| lines_nil : Lines [] []
| lines_last raw l : raw <> [] -> ~ In x0a raw -> Line raw l -> Lines raw [l]
| lines_cons raw l rest ls : ~ In x0a raw -> Line raw l -> Lines rest ls -> Lines (raw ++ x0a :: rest) (l :: ls).

(** No stretch of 65536 bytes without a newline. *)
Definition ShortLines (text : str) : Prop :=
  forall pre run post, text = pre ++ run ++ post -> ~ In x0a run -> slen run < 65536.

(** ** White space *)

(** UTF-8 of the characters with property White_Space. *)
Definition whites : list str :=
  [[x09]; [x0a]; [x0b]; [x0c]; [x0d]; [x20]; [xc2; x85]; [xc2; xa0]; [xe1; x9a; x80]]
  ++ map (fun b => [xe2; x80; b]) [x80; x81; x82; x83; x84; x85; x86; x87; x88; x89; x8a; xa8; xa9; xaf]
  ++ [[xe2; x81; x9f]; [xe3; x80; x80]].
Definition Whites (s : str) : Prop := exists ws, s = List.concat ws /\ Forall (fun w => In w whites) ws.
(** [c] is [s] without the white space around it. *)
Definition Stripped (s c : str) : Prop :=
  exists a b, s = a ++ c ++ b /\ Whites a /\ Whites b
  /\ (forall w rest, In w whites -> c <> w ++ rest) /\ (forall w rest, In w whites -> c <> rest ++ w).

(** ** Lines of a property file *)
Definition HexField (s : str) : Prop :=
  (4 <= List.length s <= 6)%nat /\ Forall (fun b => In b (lit "0123456789ABCDEF")) s.
Definition Word (s : str) : Prop :=
  s <> [] /\ Forall (fun b => In b (lit "ABCDEFGHIJKLMNOPQRSTUVWXYZabcdefghijklmnopqrstuvwxyz0123456789_")) s.
Definition blanks : list byte := [x09; x0a; x0c; x0d; x20].
Definition Blanks (s : str) : Prop := Forall (fun b => In b blanks) s.
(** 0000..0009 ; Name # comment *)
Definition PropertyLine (line from : str) (to_ : option str) (name comment : str) : Prop :=
  exists w1 w2 w3 b,
    line = from ++ (match to_ with Some t => lit ".." ++ t | None => [] end) ++ w1 ++ lit ";" ++ w2 ++ name ++ w3 ++ lit "#" ++ [b] ++ comment
    /\ HexField from /\ (forall t, to_ = Some t -> HexField t) /\ Blanks w1 /\ Blanks w2 /\ Blanks w3 /\ In b blanks
    /\ Word name /\ comment <> [] /\ ~ In x0a comment.

(** What a line of a file is: to be skipped, or an entry. *)
Inductive entry := Entry (from : str) (to_ : option str) (name comment : str).
(** What is kept of an entry; an absent end is the start. *)
Definition the_prop (from : str) (to_ : option str) (name comment : str) : prop4 :=
  {| pFrom := from; pTo := match to_ with Some t => t | None => from end; pProp := name; pComment := comment |}.
Definition prop_of (e : entry) : prop4 := let 'Entry from to_ name comment := e in the_prop from to_ name comment.
Inductive MainFile : list str -> list entry -> Prop :=
| main_nil : MainFile [] []
| main_blank line rest es : Stripped line [] -> MainFile rest es -> MainFile (line :: rest) es
| main_comment line c rest es : Stripped line (x23 :: c) -> MainFile rest es -> MainFile (line :: rest) es
| main_entry line c from to_ name comment rest es : Stripped line c -> PropertyLine c from to_ name comment ->
    MainFile rest es -> MainFile (line :: rest) (Entry from to_ name comment :: es).
(** Of emoji-data.txt only the lines mentioning the property are read. *)
Definition Mentions (property line : str) : Prop := exists a b, line = a ++ property ++ b.
Inductive EmojiFile (property : str) : list str -> list entry -> Prop :=
| em_nil : EmojiFile property [] []
| em_comment c rest es : EmojiFile property rest es -> EmojiFile property ((x23 :: c) :: rest) es
| em_other line rest es : ~ Mentions property line -> EmojiFile property rest es -> EmojiFile property (line :: rest) es
| em_entry line from to_ name comment rest es : Mentions property line -> PropertyLine line from to_ name comment ->
    EmojiFile property rest es -> EmojiFile property (line :: rest) (Entry from to_ name comment :: es).

(** ** Reading Go source *)

(** Without comments. *)
Fixpoint strip (comment : bool) (s : str) : str :=
  match s with
  | [] => []
  | b :: rest =>
    if comment then (if Byte.eqb b x0a then b :: strip false rest else strip true rest)
    else match rest with
         | b' :: _ => if Byte.eqb b x2f && Byte.eqb b' x2f then strip true rest else b :: strip false rest
         | [] => [b]
         end
  end.
(** Without blanks. *)
Definition squeeze (s : str) : str := filter (fun b => negb (existsb (Byte.eqb b) [x20; x09; x0a])) s.
(** The text before the first [x] and after it. *)
Fixpoint cut (x : byte) (s : str) : option (str * str) :=
  match s with
  | [] => None
  | b :: rest => if Byte.eqb b x then Some ([], rest)
                 else match cut x rest with Some (p, q) => Some (b :: p, q) | None => None end
  end.
Fixpoint fields (s : str) : list str :=
  match s with
  | [] => [[]]
  | b :: rest => if Byte.eqb b x2c then [] :: fields rest
                 else match fields rest with p :: ps => (b :: p) :: ps | [] => [[b]] end
  end.
(** Rows {a,b,c}, up to the closing brace. *)
Fixpoint read_rows (fuel : nat) (s : str) : option (list (list str) * str) :=
  match fuel with
  | O => None
  | S f =>
    match s with
    | x7d :: rest => Some ([], rest)
    | x7b :: rest =>
      match cut x7d rest with
      | Some (row, x2c :: rest) =>
        match read_rows f rest with Some (rows, q) => Some (fields row :: rows, q) | None => None end
      | _ => None
      end
    | _ => None
    end
  end.
(** Declarations: what stands before the brace, and the rows. *)
Fixpoint read_decls (fuel : nat) (s : str) : option (list (str * list (list str))) :=
  match fuel with
  | O => None
  | S f =>
    match s with
    | [] => Some []
    | _ =>
      match cut x7b s with
      | None => None
      | Some (head, rest) =>
        match read_rows (List.length rest) rest with
        | None => None
        | Some (rows, q) => match read_decls f q with Some ds => Some ((head, rows) :: ds) | None => None end
        end
      end
    end
  end.
Definition read_go (src : str) : option (list (str * list (list str))) :=
  let s := squeeze (strip false src) in read_decls (S (List.length s)) s.

(** The value of a hexadecimal number of upper-case digits. *)
Fixpoint position (b : byte) (l : list byte) : option Z :=
  match l with
  | [] => None
  | a :: rest => if Byte.eqb a b then Some 0 else option_map (Z.add 1) (position b rest)
  end.
Fixpoint digits (v : Z) (s : str) : option Z :=
  match s with
  | [] => Some v
  | b :: rest => match position b (lit "0123456789ABCDEF") with Some d => digits (16 * v + d) rest | None => None end
  end.
Definition number (s : str) : option Z :=
  match s with
  | x30 :: x78 :: b :: ds => digits 0 (b :: ds)
  | _ => None
  end.
(** Without a property that file is not read. *)
Definition EmojiPart (property : str) (lines : list str) (fs : list entry) : Prop :=
  (property = [] /\ fs = []) \/ (property <> [] /\ EmojiFile property lines fs).

(** ** What is wrong with a file *)

(** The first line that is no entry, though it should be; line [n], counting
    from 1. *)
Definition MainFault (lines : list str) (n : Z) : Prop :=
  exists good line rest es c, lines = good ++ line :: rest /\ MainFile good es /\ n = Z.of_nat (List.length good) + 1
  /\ Stripped line c /\ c <> [] /\ (forall d, c <> x23 :: d) /\ forall from to_ name comment, ~ PropertyLine c from to_ name comment.
Definition EmojiFault (property : str) (lines : list str) (n : Z) : Prop :=
  exists good line rest es, lines = good ++ line :: rest /\ EmojiFile property good es /\ n = Z.of_nat (List.length good) + 1
  /\ Mentions property line /\ (forall d, line <> x23 :: d) /\ forall from to_ name comment, ~ PropertyLine line from to_ name comment.

(** ** The generated table *)
Definition the_to (e : entry) : str := let 'Entry from to_ _ _ := e in match to_ with Some t => t | None => from end.
Definition without (x : byte) (s : str) : str := filter (fun b => negb (Byte.eqb b x)) s.
(** The row of an entry: first, last, constant. *)
Definition row3 (e : entry) : list str :=
  let 'Entry from _ name _ := e in [lit "0x" ++ from; lit "0x" ++ the_to e; lit "pr" ++ without x5f name].
(** The general category: two letters before the rest of the comment. *)
Definition category (comment : str) : option str :=
  match comment with
  | a :: b :: _ :: _ => Some (if str_eqb [a; b] (lit "L&") then lit "gcLC" else lit "gc" ++ [a; b])
  | _ => None
  end.
Definition row4 (e : entry) : list str :=
  let 'Entry _ _ _ comment := e in row3 e ++ [match category comment with Some c => c | None => [] end].
Definition letter (b : byte) : Prop := In b (lit "ABCDEFGHIJKLMNOPQRSTUVWXYZabcdefghijklmnopqrstuvwxyz&").
(** The comment begins with a general category. *)
Definition Categorised (e : entry) : Prop :=
  let 'Entry _ _ _ comment := e in exists a b c rest, comment = a :: b :: c :: rest /\ letter a /\ letter b.
(** A Go identifier, as far as it matters here. *)
Definition Plain (name : str) : Prop := Forall (fun b => ~ In b (lit "{},/" ++ [x20; x09; x0a])) name.
(** The first code points do not decrease. *)
Fixpoint InOrder (es : list entry) : Prop :=
  match es with
  | Entry from _ _ _ :: ((Entry from' _ _ _ :: _) as rest) =>
    (forall a b, number (lit "0x" ++ from) = Some a -> number (lit "0x" ++ from') = Some b -> a <= b) /\ InOrder rest
  | _ => True
  end.
(** The numbers in a row; the constants have the values [num]. *)
Definition row_value (num : str -> Z) (row : list str) : option (Z * Z * Z) :=
  match row with
  | a :: b :: c :: _ => match number a, number b with Some x, Some y => Some (x, y, num c) | _, _ => None end
  | _ => None
  end.
(** Entry [e] is about code point [r]. *)
Definition About (e : entry) (r : Z) : Prop :=
  let 'Entry from _ _ _ := e in
  exists a b, number (lit "0x" ++ from) = Some a /\ number (lit "0x" ++ the_to e) = Some b /\ a <= r <= b.
Definition constant (e : entry) : str := let 'Entry _ _ name _ := e in lit "pr" ++ without x5f name.
(** The declaration's head. *)
Definition table_head (name : str) (columns : str) : str := lit "var" ++ name ++ lit "=[][" ++ columns ++ lit "]int".
(** The source declares one table, with these numbers. *)
Definition Reads (num : str -> Z) (src : str) (d : list (Z * Z * Z)) : Prop :=
  exists head rows, read_go src = Some [(head, rows)] /\ map (row_value num) rows = map Some d.
