(** * ReadSpec: reading printed tables back. *)
From Verif Require Import GoBase.
Local Open Scope Z_scope.

(** Words: longest stretches without the space. *)
Fixpoint words (l : str) : list str :=
  match l with
  | [] => []
  | b :: rest =>
    if Byte.eqb b space then words rest
    else match rest with
         | [] => [[b]]
         | b' :: _ => if Byte.eqb b' space then [b] :: words rest
                      else match words rest with w :: ws => (b :: w) :: ws | [] => [[b]] end
         end
  end.

Fixpoint starts (p l : str) : bool :=
  match p, l with
  | [], _ => true
  | _ :: _, [] => false
  | a :: p, b :: l => Byte.eqb a b && starts p l
  end.

(** The text between the occurrences of [sep], found from the left; [skip]
    bytes of an occurrence are still to be passed over. *)
Fixpoint split (sep : str) (skip : nat) (l : str) : list str :=
  match l with
  | [] => [[]]
  | b :: rest =>
    match skip with
    | S k => split sep k rest
    | O => if starts sep l then [] :: split sep (length sep - 1) rest
           else match split sep 0 rest with p :: ps => (b :: p) :: ps | [] => [[b]] end
    end
  end.

(** A list without its last element if that is empty. *)
Definition drop_empty {A} (l : list (list A)) : list (list A) :=
  match last l [] with [] => removelast l | _ => l end.

(** A line: the words of each piece, the last piece not counting if it has none. *)
Definition read_line (sep line : str) : list (list str) := drop_empty (map words (split sep 0 line)).
(** All output: the lines end in newlines. *)
Definition read_output (sep out : str) : list (list (list str)) :=
  map (read_line sep) (removelast (split [x0a] 0 out)).

(** A cell that can be told: not empty, without spaces and newlines, and without
    byte [x], which is for the separator. *)
Definition Legible (x : byte) (s : str) : Prop := s <> [] /\ ~ In space s /\ ~ In x0a s /\ ~ In x s.
Definition LegibleRows (x : byte) (n : nat) (rows : list (list str)) : Prop :=
  Forall (fun row => Forall (Legible x) (firstn n row)) rows.
(** A separator with such a byte. *)
Definition Marks (x : byte) (sep : str) : Prop := In x sep /\ x <> space /\ ~ In x0a sep.
