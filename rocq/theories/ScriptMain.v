(** * ScriptMain: the command runewidth/script/generate.go, and RuneWidth with
    whatever tables it writes.  Not modelled: log messages; gofmt, the web and the
    file system are parameters. *)
From Coq Require Import Strings.String.
From Verif Require Import GoBase RuneWidthData Runewidth GenText GenMain.
Local Open Scope Z_scope.

(** script/generate.go:183 and :191. *)
Definition ea_url : str := lit "https://unicode.org/Public/13.0.0/ucd/EastAsianWidth.txt".
Definition em_url : str := lit "https://unicode.org/Public/13.0.0/ucd/emoji/emoji-data.txt".

(** How the command ends; all but the last are log.Fatal(err). *)
Inductive script_end :=
| NoResponse                       (* lines 184-186 and 192-194 *)
| Unformatted                      (* lines 200-202 *)
| Unwritten                        (* lines 204-206 *)
| Written (path contents : str).

(** script/generate.go:176-207, [main]: the requests made and the end.  The
    status of a response is not looked at.  [early] as in [emoji_text]. *)
Definition Script (w : World) (early : bool) : list str * script_end :=
  match web w ea_url with
  | None => ([ea_url], NoResponse)
  | Some ea =>
    ([ea_url; em_url],
     match web w em_url with
     | None => NoResponse
     | Some em =>
       match gofmt w (script_text early ea em) with
       | None => Unformatted
       | Some out => if writable w then Written (lit "runewidth_table.go") out else Unwritten
       end
     end)
  end.

(** The tables of runewidth_table.go. *)
Record tables := { tCombining : table; tDoublewidth : table; tAmbiguous : table; tNarrow : table; tNeutral : table; tEmoji : table }.
(** Those in /repo. *)
Definition repo_tables : tables :=
  {| tCombining := tbl_combining; tDoublewidth := tbl_doublewidth; tAmbiguous := tbl_ambiguous;
     tNarrow := tbl_narrow; tNeutral := tbl_neutral; tEmoji := tbl_emoji |}.

(** runewidth/runewidth.go:53-60, [inTables]; [None] is a panic. *)
Fixpoint inTables_go (r : Z) (ts : list table) : option bool :=
  match ts with
  | [] => Some false
  | t :: rest =>
    match inTable_go r t with
    | None => None
    | Some true => Some true
    | Some false => inTables_go r rest
    end
  end.
(** One [case] of a [switch]. *)
Definition case (b : option bool) (yes no : option Z) : option Z :=
  match b with None => None | Some true => yes | Some false => no end.
(** runewidth/runewidth.go:121-160, [RuneWidth] without a lookup table, on any
    generated tables; [nonprint] stands in runewidth.go. *)
Definition RuneWidth_on (T : tables) (eastAsian strictEmoji : bool) (r : Z) : option Z :=
  if (r <? 0) || (r >? 0x10FFFF) then Some 0
  else if negb eastAsian then
    if r <? 0x20 then Some 0
    else if ((r >=? 0x7F) && (r <=? 0x9F)) || (r =? 0xAD) then Some 0
    else if r <? 0x300 then Some 1
    else case (inTable_go r (tNarrow T)) (Some 1)
        (case (inTables_go r [tbl_nonprint; tCombining T]) (Some 0)
        (case (inTable_go r (tDoublewidth T)) (Some 2) (Some 1)))
  else
    case (inTables_go r [tbl_nonprint; tCombining T]) (Some 0)
   (case (inTable_go r (tNarrow T)) (Some 1)
   (case (inTables_go r [tAmbiguous T; tDoublewidth T]) (Some 2)
   (case (if strictEmoji then Some false else inTables_go r [tAmbiguous T; tEmoji T; tNarrow T]) (Some 2) (Some 1)))).
