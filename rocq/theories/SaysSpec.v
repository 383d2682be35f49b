(** * SaysSpec: what the commands should print. *)
From Coq Require Import Strings.String.
From Verif Require Import GoBase GenText GenTextSpec GenMain GenMainSpec Says.
Local Open Scope Z_scope.

(** Decimal numerals without leading zeros. *)
Definition value (s : str) : Z := fold_left (fun v b => 10 * v + (bv b - 48)) s 0.
Definition Numeral (s : str) (n : Z) : Prop :=
  s <> [] /\ Forall (fun b => 48 <= bv b <= 57) s /\ (forall u, s = x30 :: u -> u = []) /\ value s = n.

(** A message as it is logged: after the prefix, and with one newline at the end. *)
Inductive Logged (prefix : str) : str -> str -> Prop :=
| lg_line m : (forall u, m <> u ++ [x0a]) -> Logged prefix m (prefix ++ m ++ [x0a])
| lg_ended u : Logged prefix (u ++ [x0a]) (prefix ++ u ++ [x0a]).
(** All messages, one after the other. *)
Definition Log (prefix : str) (ms : list str) (err : str) : Prop :=
  exists ts, Forall2 (Logged prefix) ms ts /\ err = List.concat ts.

(** Exit status and file of an end. *)
Definition Ended (res : ending) (status : Z) (file : option (str * str)) : Prop :=
  match res with
  | Wrote path out => status = 0 /\ file = Some (path, out)
  | Crashed _ => status = 2 /\ file = None
  | _ => status = 1 /\ file = None
  end.

(** The text for an error, after the URLs [reqs] were asked for. *)
Definition Blames (T : Texts) (w : World) (a4 : str) (reqs : list str) (e : gen_error) (t : str) : Prop :=
  match e with
  | NoProperties => t = lit "no properties to parse" /\ reqs = []
  | GetFailed => exists us u, reqs = us ++ [u] /\ web w u = None /\ t = getText T u
  | MainLine n => exists d, Numeral d n /\ t = a4 ++ lit " line " ++ d ++ lit ": no property found"
  | EmojiLine n => exists d, Numeral d n /\ t = lit "emojis line " ++ d ++ lit ": no property found"
  | ScanFailed ScanTooLong => t = lit "bufio.Scanner: token too long"
  | ScanFailed _ => exists us u b, reqs = us ++ [u] /\ web w u = Some b /\ bFails b = true /\ t = readText T u
  end.
(** What is said after the requests. *)
Definition LastWords (T : Texts) (w : World) (a2 a4 : str) (reqs : list str) (res : ending) (last : list str) : Prop :=
  match res with
  | NotEnough => False
  | BadData e => exists t, last = [t] /\ Blames T w a4 reqs e t
  | Crashed _ => last = []
  | BadSource => exists src, gofmt w src = None /\ last = [lit "gofmt:" ++ fmtText T src]
  | NotWritten => last = [lit "Writing to " ++ a2; writeText T a2]
  | Wrote path _ => path = a2 /\ last = [lit "Writing to " ++ a2]
  end.
