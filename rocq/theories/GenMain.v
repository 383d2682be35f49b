(** * GenMain: the command runewidth/uniseg/gen_properties.go: arguments,
    requests, the file header and the file written.  Not modelled: log messages;
    gofmt, the date and the file system are parameters. *)
From Coq Require Import Strings.String Permutation.
From Verif Require Import GoBase GenText.
Local Open Scope Z_scope.

(** What the command meets: what a URL gives ([None]: Get fails; the status of
    the response is not looked at), formatting, and whether the file can be
    written. *)
Record World := { web : str -> option Body; gofmt : str -> option str; writable : bool; today : str }.

(** [strings.Split] with a separator of one byte. *)
Fixpoint Split (x : byte) (s : str) : list str :=
  match s with
  | [] => [[]]
  | b :: rest => if Byte.eqb b x then [] :: Split x rest
                 else match Split x rest with p :: ps => (b :: p) :: ps | [] => [[b]] end
  end.

(** gen_properties.go:62-73, the map [flags]. *)
Definition set_flag (m : str -> option str) (k v : str) : str -> option str := fun k' => if str_eqb k' k then Some v else m k'.
Definition add_flag (m : str -> option str) (flag : str) : str -> option str :=
  match Split x3d flag with
  | [] => m
  | [k] => set_flag m k (lit "yes")
  | k :: v :: _ => set_flag m k v
  end.
Definition parse_flags (rest : list str) : str -> option str :=
  match rest with
  | [] => fun _ => None
  | f :: _ => fold_left add_flag (Split x2c f) (fun _ => None)
  end.
(** gen_properties.go:76 and :81; a missing key gives the empty string. *)
Definition emoji_flag (rest : list str) : str := match parse_flags rest (lit "emojis") with Some v => v | None => [] end.
Definition gencat_flag (rest : list str) : bool := match parse_flags rest (lit "gencat") with Some _ => true | None => false end.

(** gen_properties.go:41-44 and :78-80. *)
Definition emojiURL : str := lit "https://unicode.org/Public/14.0.0/ucd/emoji/emoji-data.txt".
Definition mainURL (a1 : str) : str :=
  if str_eqb a1 (lit "-") then [] else lit "https://www.unicode.org/Public/14.0.0/ucd/" ++ a1 ++ lit ".txt".
Definition main_body (w : World) (url : str) : option (option Body) := match url with [] => None | _ => Some (web w url) end.

(** gen_properties.go:115-181: the URLs asked for, in order. *)
Definition requests (w : World) (url property : str) : list str :=
  (match url with [] => [] | _ => [url] end) ++
  (match property with
   | [] => []
   | _ => match url with
          | [] => [emojiURL]
          | _ => match read_body keep_main MainLine (web w url) with Ok _ => [emojiURL] | _ => [] end
          end
   end).

(** gen_properties.go:191-213, the header up to the declaration; [emojiURL] is a
    constant, so the comment is always there. *)
Definition header (name url date : str) : str :=
  lit "package uniseg" ++ [x0a; x0a]
  ++ lit "// Code generated via go generate from gen_properties.go. DO NOT EDIT." ++ [x0a; x0a]
  ++ lit "// " ++ name ++ lit " are taken from" ++ [x0a]
  ++ lit "// " ++ url ++ [x0a]
  ++ lit "// and" ++ [x0a]
  ++ lit "// " ++ emojiURL ++ [x0a]
  ++ lit "// (""Extended_Pictographic"" only)" ++ [x0a]
  ++ lit "// on " ++ date ++ lit ". See https://www.unicode.org/license.html for the Unicode" ++ [x0a]
  ++ lit "// license agreement." ++ [x0a].

(** How the command ends. *)
Inductive ending :=
| NotEnough                        (* os.Exit(1) *)
| BadData (e : gen_error)          (* log.Fatal(err) *)
| Crashed (r : panic_reason)
| BadSource                        (* log.Fatal("gofmt:", err) *)
| NotWritten                       (* log.Fatal(err) *)
| Wrote (path contents : str).

(** gen_properties.go:88-100. *)
Definition write_out (w : World) (path src : str) : ending :=
  match gofmt w src with
  | None => BadSource
  | Some out => if writable w then Wrote path out else NotWritten
  end.

(** gen_properties.go:54-101, [main]: what may happen. *)
Definition Ran (w : World) (args : list str) (reqs : list str) (res : ending) : Prop :=
  match args with
  | _ :: a1 :: a2 :: a3 :: a4 :: rest =>
    let url := mainURL a1 in
    let property := emoji_flag rest in
    reqs = requests w url property /\
    match read_properties (main_body w url) property (web w emojiURL) with
    | Err e => res = BadData e
    | Panic r => res = Crashed r
    | Ok ps => exists qs, Permutation ps qs /\ Ordered qs /\
      match print_table a3 (gencat_flag rest) qs with
      | Ok text => res = write_out w a2 (header a3 url (today w) ++ text)
      | Err e => res = BadData e
      | Panic r => res = Crashed r
      end
    end
  | _ => reqs = [] /\ res = NotEnough
  end.
