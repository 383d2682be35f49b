(** * Regex: the fragment of package regexp that /repo uses.

    [regexp.FindStringIndex] (width.go:45) and [FindStringSubmatch]
    (runewidth_posix.go:34) search for the leftmost match and, among matches
    starting there, return the one a backtracking (Perl) engine would have
    found: alternatives in order, repetition operators greedy.  The input is
    decoded as UTF-8, an invalid byte counting as one U+FFFD of size 1. *)
From Verif Require Import GoBase Utf8.
Local Open Scope Z_scope.

Inductive re : Type :=
| Cls (p : Z -> bool)      (* one rune satisfying p *)
| Seq (a b : re)           (* ab *)
| Opt (a : re)             (* a?  (greedy) *)
| Star (a : re).           (* a*  (greedy) *)

(** A decoded input: (rune, size in bytes) pairs. *)
Definition input := list (Z * Z).

(** Greedy iteration: every remainder after matching [step] zero or more
    times, most iterations first.  An iteration that consumes nothing is not
    repeated.  [fuel] bounds the number of iterations. *)
Fixpoint star_rests (step : input -> list input) (fuel : nat) (l : input) : list input :=
  match fuel with
  | O => [l]
  | S f =>
    flat_map (fun l' => if Nat.ltb (length l') (length l)
                        then star_rests step f l' else []) (step l) ++ [l]
  end.

(** All remainders after matching a prefix of the input, in the order a
    backtracking matcher tries them. *)
Fixpoint rests (r : re) (l : input) : list input :=
  match r with
  | Cls p => match l with
             | (c, _) :: l' => if p c then [l'] else []
             | [] => []
             end
  | Seq a b => flat_map (rests b) (rests a l)
  | Opt a => rests a l ++ [l]
  | Star a => star_rests (rests a) (length l) l
  end.

(** Size in bytes of a decoded input. *)
Definition nbytes (l : input) : Z := zsum (map snd l).

(** Match at the front of the input: the preferred match, as the number of
    bytes it covers. *)
Definition match_here (r : re) (l : input) : option Z :=
  match rests r l with
  | [] => None
  | l' :: _ => Some (nbytes l - nbytes l')
  end.

(** Leftmost search: [pos] is the byte offset of [l] in the original. *)
Fixpoint find_from (r : re) (l : input) (pos : Z) : option (Z * Z) :=
  match match_here r l with
  | Some n => Some (pos, pos + n)
  | None =>
    match l with
    | [] => None
    | (_, sz) :: l' => find_from r l' (pos + sz)
    end
  end.

(** [re.FindStringIndex(s)]: [Some (loc[0], loc[1])], or [None] for nil. *)
Definition FindStringIndex (r : re) (s : str) : option (Z * Z) :=
  find_from r (decode s) 0.

(** [x{1,4}] and [x{0,4}], greedy. *)
Definition rep1_4 (x : re) : re := Seq x (Opt (Seq x (Opt (Seq x (Opt x))))).
Definition rep0_4 (x : re) : re := Opt (rep1_4 x).
