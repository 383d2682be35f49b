(** * SharedSpec: goroutines that share a writer, or any objects. *)
From Verif Require Import GoBase Runewidth Width Table Merge MergeSpec Calls CallsSpec Shared.
Local Open Scope Z_scope.

Section Spec.
Context {Item Val E G L : Type}.

(** What goroutine [i] did, from the log. *)
Definition done_by {A} (i : nat) (log : list (nat * A)) : list A :=
  flat_map (fun x => if Nat.eqb (fst x) i then [snd x] else []) log.

(** Objects whose state is set anew, to the states [ws] one after the other,
    before each call. *)
Definition jumping {W} (env : environment Item Val E G L W) (d : W) : environment Item Val E G L (list W) :=
  fun q ws m => match ws with
  | w :: rest => let '(_, m', a) := env q w m in (rest, m', a)
  | [] => let '(_, m', a) := env q d m in ([], m', a)
  end.
End Spec.

(** ** One writer *)
Section Writer.
Context {Item Val E W : Type}.
(** Goroutine [i] has a list of its own; the writer accepts a text or not as it
    likes, and may tell goroutines apart. *)
Definition one_writer (lists : nat -> Z * (Z -> outcome Empty_set (list str))) (wr : nat -> str -> W -> W * bool) (e : E) (i : nat)
  : environment Item Val E (Getter Item Val E) (str -> Z -> str) W :=
  fun q w m =>
  match q return W * wmap * answer q with
  | CValue g item => (w, m, getValue g item)
  | CFormat g item value => (w, m, getFormat g item value)
  | CString g name item => (w, m, getValueString g name item)
  | CAlign al s width => (w, m, Ok (al s width))
  | CLen => (w, m, Ok (fst (lists i)))
  | CGet j => (w, m, snd (lists i) j)
  | CWrite s => let '(w', b) := wr i s w in (w', m, if b then Ok tt else Err e)
  end.

(** What the writer accepted, and from whom. *)
Definition accepted (log : list (nat * act Item Val E (Getter Item Val E) (str -> Z -> str))) : list (nat * str) :=
  flat_map (fun x => map (pair (fst x)) (written_by [snd x])) log.

(** A call of a merge function. *)
Record merging := {
  mgMode : mode; mgFuel : nat; mgCond : Condition; mgTable : Table Item Val E;
  mgWidth : Z; mgSep : str; mgCompact : bool
}.
Definition program (x : merging) : kprog Item Val E (Getter Item Val E) (str -> Z -> str) (option (outcome Empty_set unit)) :=
  mergeK (mgMode x) (mgFuel x) (mgCond x) (map (option_map kcol_of) (Columns (tSpec (mgTable x)))) (mgWidth x) (mgSep x) (mgCompact x).
Definition alone (x : merging) (n : Z) (get : Z -> outcome Empty_set (list str)) (ok : nat -> bool) : run E :=
  merge (mgMode x) (mgFuel x) (mgCond x) (mgTable x) ok (steady_list n get) (mgWidth x) (mgSep x) (mgCompact x).
End Writer.
Arguments merging : clear implicits.
