(** * GenMainSpec: what the command gen_properties should do. *)
From Coq Require Import Strings.String.
From Verif Require Import GoBase GenText GenTextSpec GenMain.
Local Open Scope Z_scope.

(** [s] is the pieces [ps] with [x] between them. *)
Inductive Pieces (x : byte) : str -> list str -> Prop :=
| pieces_one p : ~ In x p -> Pieces x p [p]
| pieces_more p s ps : ~ In x p -> Pieces x s ps -> Pieces x (p ++ x :: s) (p :: ps).
(** A flag "key" or "key=value"; what follows a second "=" is dropped. *)
Definition Sets (flag k v : str) : Prop :=
  (flag = k /\ ~ In x3d k /\ v = lit "yes")
  \/ exists tail, flag = k ++ lit "=" ++ v ++ tail /\ ~ In x3d k /\ ~ In x3d v /\ (tail = [] \/ exists t, tail = lit "=" ++ t).
(** The last flag with that key counts. *)
Definition Asked (f k v : str) : Prop :=
  exists before flag after, Pieces x2c f (before ++ flag :: after) /\ Sets flag k v /\ forall g u, In g after -> ~ Sets g k u.
Definition EmojisAsked (rest : list str) (p : str) : Prop :=
  match rest with
  | f :: _ => Asked f (lit "emojis") p \/ (p = [] /\ forall v, ~ Asked f (lit "emojis") v)
  | [] => p = []
  end.
Definition CategoryAsked (rest : list str) : Prop :=
  match rest with f :: _ => exists v, Asked f (lit "gencat") v | [] => False end.

(** A URL gives these lines, completely. *)
Definition Served (w : World) (url : str) (lines : list str) : Prop :=
  exists text, web w url = Some {| bText := text; bFails := false |} /\ ShortLines text /\ Lines text lines.
Definition main_url (a1 : str) : str := lit "https://www.unicode.org/Public/14.0.0/ucd/" ++ a1 ++ lit ".txt".
Definition emoji_url : str := lit "https://unicode.org/Public/14.0.0/ucd/emoji/emoji-data.txt".
Definition FromMain (w : World) (a1 : str) (es : list entry) : Prop :=
  (a1 = lit "-" /\ es = []) \/ (a1 <> lit "-" /\ exists ls, Served w (main_url a1) ls /\ MainFile ls es).
Definition FromEmoji (w : World) (property : str) (es : list entry) : Prop :=
  (property = [] /\ es = []) \/ (property <> [] /\ exists ls, Served w emoji_url ls /\ EmojiFile property ls es).
(** What the arguments ask for is there. *)
Definition Entries (w : World) (a1 property : str) (es : list entry) : Prop :=
  (a1 <> lit "-" \/ property <> []) /\ exists ms fs, FromMain w a1 ms /\ FromEmoji w property fs /\ es = ms ++ fs.
