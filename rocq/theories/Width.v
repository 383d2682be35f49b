(** * Width: model of width.go. *)
From Verif Require Import GoBase Utf8 Regex Runewidth.
Local Open Scope Z_scope.

(** The character classes of the pattern at width.go:16, which reads
      [U+001B U+009B]  [ [()#;? ]*
      (?: [0-9]{1,4} (?: ; [0-9]{0,4} )* )?
      [0-9A-ORZcf-nqry=><]
    with the spaces and line breaks removed. *)
Definition is_intro (r : Z) : bool := (r =? 0x1b) || (r =? 0x9b).
Definition is_punct (r : Z) : bool :=      (* [ ( ) # ; ? *)
  (r =? 91) || (r =? 40) || (r =? 41) || (r =? 35) || (r =? 59) || (r =? 63).
Definition is_digit (r : Z) : bool := inb 48 57 r.
Definition is_semi (r : Z) : bool := r =? 59.
Definition is_final (r : Z) : bool :=      (* 0-9 A-O R Z c f-n q r y = > < *)
  inb 48 57 r || inb 65 79 r || (r =? 82) || (r =? 90) || (r =? 99)
  || inb 102 110 r || (r =? 113) || (r =? 114) || (r =? 121)
  || (r =? 61) || (r =? 62) || (r =? 60).

(** width.go:15-17, [ansiEscapeRE]. *)
Definition ansiEscapeRE : re :=
  Seq (Cls is_intro)
  (Seq (Star (Cls is_punct))
  (Seq (Opt (Seq (rep1_4 (Cls is_digit))
                 (Star (Seq (Cls is_semi) (rep0_4 (Cls is_digit))))))
       (Cls is_final))).

(** width.go:43-53, the loop of [countMatchesLength] with its variables
    [start] and [total].  [None] = out of fuel, proved unreachable. *)
Fixpoint countMatches_loop (fuel : nat) (r : re) (s : str) (start total : Z) : option Z :=
  match fuel with
  | O => None
  | S f =>
    if start <? slen s then
      match FindStringIndex r (drop start s) with
      | None => Some total
      | Some (loc0, loc1) =>
        countMatches_loop f r s (start + loc1) (total + (loc1 - loc0 - 1))
      end
    else Some total
  end.

(** width.go:39-55, [countMatchesLength]. *)
Definition countMatchesLength_go (r : re) (s : str) : option Z :=
  countMatches_loop (S (length s)) r s 0 0.
Definition countMatchesLength (r : re) (s : str) : Z :=
  match countMatchesLength_go r s with Some n => n | None => 0 end.

(** width.go:34: the signed difference computed before the conversion to
    uint16, under the display condition [c] (runewidth.DefaultCondition). *)
Definition rawWidth (c : Condition) (s : str) : Z :=
  StringWidth c s - countMatchesLength ansiEscapeRE s.

(** width.go:34, the uncached value of [visualWidth]. *)
Definition vwidth (c : Condition) (s : str) : Z := u16 (rawWidth c s).

(** ** The cache: width.go:19, github.com/ilius/go-lru.

    The dependency is not in /repo.  The model keeps the entries that have
    been [Set]; [Get] returns the most recent one for the key, and at any
    moment any entries may be dropped (eviction).  Only this is assumed of
    the LRU: a hit returns the value most recently stored under the key. *)
Definition cache := list (str * Z).

(** width.go:30, [widthCache.Get]. *)
Fixpoint cache_get (m : cache) (k : str) : option Z :=
  match m with
  | [] => None
  | (k', v) :: rest => if str_eqb k k' then Some v else cache_get rest k
  end.

(** [Set]: the key's previous entry is replaced. *)
Definition cache_set (m : cache) (k : str) (v : Z) : cache :=
  (k, v) :: filter (fun e => negb (str_eqb k (fst e))) m.

(** Eviction keeps the entries selected by [keep]. *)
Definition cache_evict (keep : str -> bool) (m : cache) : cache :=
  filter (fun e => keep (fst e)) m.

(** width.go:23-37, [visualWidth], with the cache threaded through.  [keep]
    says which entries survive the [Set]. *)
Definition visualWidth (c : Condition) (keep : str -> bool) (m : cache) (s : str)
  : Z * cache :=
  let w := match cache_get m s with Some v => v | None => 0 end in
  if w >? 0 then (w, m)
  else let w' := vwidth c s in (w', cache_evict keep (cache_set m s w')).
