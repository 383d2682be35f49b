(** * Says: what the commands print and the texts of errors: gen_properties.go,
    script/generate.go and table.go.  Texts of errors of other packages are
    parameters, as is what Go prints about a panic. *)
From Coq Require Import Strings.String Permutation.
From Verif Require Import GoBase Locale GenText GenMain ScriptMain.
Local Open Scope Z_scope.

(** Texts from elsewhere: of a failing Get, of a read that fails, of gofmt, of a
    file that cannot be written, of a panic. *)
Record Texts := { getText : str -> str; readText : str -> str; fmtText : str -> str; writeText : str -> str; trace : str }.

(** [%d] of a number from 0 on. *)
Fixpoint dec_loop (fuel : nat) (n : Z) (acc : str) : str :=
  match fuel with
  | O => acc
  | S f =>
    let acc := zb (48 + n mod 10) :: acc in
    if n / 10 =? 0 then acc else dec_loop f (n / 10) acc
  end.
Definition dec_text (n : Z) : str := dec_loop (S (Z.to_nat (Z.log2 n))) n [].

(** Package log, [Logger.Output]: the prefix, the message, and a newline if the
    message does not end in one. *)
Definition ends_line (m : str) : bool := match rev m with b :: _ => Byte.eqb b x0a | [] => false end.
Definition log_entry (prefix m : str) : str := prefix ++ m ++ (if ends_line m then [] else [x0a]).
Definition printed (prefix : str) (ms : list str) : str := List.concat (map (log_entry prefix) ms).

(** ** gen_properties.go *)

(** gen_properties.go:127-142 and :161-177, as [read_lines], with the text of the
    error; lines 139, 174 and 241. *)
Fixpoint read_lines_said (keep : str -> option str) (label : str) (num : Z) (lines : list str) : outcome str (list prop4) :=
  match lines with
  | [] => Ok []
  | line :: rest =>
    match keep line with
    | None => read_lines_said keep label (num + 1) rest
    | Some text =>
      match parseProperty text with
      | None => Err (label ++ lit " line " ++ dec_text (num + 1) ++ lit ": " ++ lit "no property found")
      | Some p => obind (read_lines_said keep label (num + 1) rest) (fun ps => Ok (p :: ps))
      end
    end
  end.
(** gen_properties.go:115-146 and :149-181: what is logged, and the result.
    [bufio.ErrTooLong] has the text given here. *)
Definition read_said (T : Texts) (w : World) (url : str) (keep : str -> option str) (label : str) : list str * outcome str (list prop4) :=
  ([lit "Parsing " ++ url],
   match web w url with
   | None => Err (getText T url)
   | Some b =>
     let '(lines, e) := scan b in
     obind (read_lines_said keep label 0 lines) (fun ps =>
       match e with
       | ScanOk => Ok ps
       | ScanTooLong => Err (lit "bufio.Scanner: token too long")
       | ScanRead => Err (readText T url)
       end)
   end).
(** gen_properties.go:106-181, [parse] up to the sorting. *)
Definition parse_said (T : Texts) (w : World) (a4 url property : str) : list str * outcome str (list prop4) :=
  match url, property with
  | [], [] => ([], Err (lit "no properties to parse"))
  | _, _ =>
    let '(said1, r1) := match url with [] => ([], Ok []) | _ => read_said T w url keep_main a4 end in
    match r1 with
    | Ok ps =>
      let '(said2, r2) := match property with [] => ([], Ok []) | _ => read_said T w emojiURL (keep_emoji property) (lit "emojis") end in
      (said1 ++ said2, obind r2 (fun qs => Ok (ps ++ qs)))
    | Err t => (said1, Err t)
    | Panic r => (said1, Panic r)
    end
  end.

(** gen_properties.go:54-101, [main]: what may be printed to standard output and
    to standard error, the exit status, and the file written. *)
Definition Saying (T : Texts) (w : World) (args : list str) (out err : str) (status : Z) (file : option (str * str)) : Prop :=
  match args with
  | _ :: a1 :: a2 :: a3 :: a4 :: rest =>
    let prefix := lit "gen_properties (" ++ a4 ++ lit "): " in
    let url := mainURL a1 in
    let property := emoji_flag rest in
    let '(said, r) := parse_said T w a4 url property in
    out = [] /\
    match r with
    | Err t => err = printed prefix (said ++ [t]) /\ status = 1 /\ file = None
    | Panic _ => err = printed prefix said ++ trace T /\ status = 2 /\ file = None
    | Ok ps => exists qs, Permutation ps qs /\ Ordered qs /\
      match print_table a3 (gencat_flag rest) qs with
      | Ok text =>
        let src := header a3 url (today w) ++ text in
        match gofmt w src with
        | None => err = printed prefix (said ++ [lit "gofmt:" ++ fmtText T src]) /\ status = 1 /\ file = None
        | Some formatted =>
          if writable w then err = printed prefix (said ++ [lit "Writing to " ++ a2]) /\ status = 0 /\ file = Some (a2, formatted)
          else err = printed prefix (said ++ [lit "Writing to " ++ a2; writeText T a2]) /\ status = 1 /\ file = None
        end
      | Err _ => False (* printing has no errors *)
      | Panic _ => err = printed prefix said ++ trace T /\ status = 2 /\ file = None
      end
    end
  | _ => out = lit "Not enough arguments, see code for details" ++ [x0a] /\ err = [] /\ status = 1 /\ file = None
  end.

(** ** script/generate.go *)

(** script/generate.go:176-207: what [main] prints to standard error (the prefix
    is the time), the exit status and the file. *)
Definition ScriptSaying (T : Texts) (stamp : str) (w : World) (early : bool) : str * Z * option (str * str) :=
  let fatal t := (printed stamp [t], 1, None) in
  match web w ea_url with
  | None => fatal (getText T ea_url)
  | Some ea =>
    match web w em_url with
    | None => fatal (getText T em_url)
    | Some em =>
      match gofmt w (script_text early ea em) with
      | None => fatal (fmtText T (script_text early ea em))
      | Some out => if writable w then ([], 0, Some (lit "runewidth_table.go", out)) else fatal (writeText T (lit "runewidth_table.go"))
      end
    end
  end.

(** ** table.go *)

(** table.go:122, the text of the error of [AlignFormattedItem]. *)
Definition AlignErrorText (e : Z * Z) : str :=
  lit "bad number of columns: " ++ dec_text (fst e) ++ lit ", must be " ++ dec_text (snd e).
