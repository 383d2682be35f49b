(** * Concurrent: width.go:23-37 called from several goroutines.

    Each thread measures a list of texts, one after the other.  A call of
    visualWidth is cut at its accesses to the shared cache (width.go:30 Get,
    :35 Set), each of which is taken to be atomic. *)
From Verif Require Import GoBase Runewidth Width.
Local Open Scope Z_scope.

(** Where in visualWidth (width.go:23-37) a goroutine is. *)
Inductive pc :=
| Ready                       (* between calls *)
| Got (s : str) (w : Z)       (* after width.go:30 *)
| Stored (s : str) (w : Z).   (* after width.go:35 *)

(** A goroutine: texts still to be measured, where it is, and the widths returned; with the others, and the cache (width.go:19). *)
Record thread := { todo : list str; at_ : pc; results : list (str * Z) }.
Record config := { shared : cache; threads : list thread }.

(** One step of one thread (width.go:30-36): the cache and the thread before and after. *)
Inductive tstep (c : Condition) : cache * thread -> cache * thread -> Prop :=
| t_get m s rest res :            (* w, _ := widthCache.Get(str) *)
    tstep c (m, {| todo := s :: rest; at_ := Ready; results := res |})
            (m, {| todo := rest;
                   at_ := Got s (match cache_get m s with Some v => v | None => 0 end);
                   results := res |})
| t_hit m s w rest res : w > 0 -> (* if w > 0 { return w } *)
    tstep c (m, {| todo := rest; at_ := Got s w; results := res |})
            (m, {| todo := rest; at_ := Ready; results := res ++ [(s, w)] |})
| t_set m s w rest res : ~ w > 0 -> (* w = ...; widthCache.Set(str, w) *)
    tstep c (m, {| todo := rest; at_ := Got s w; results := res |})
            (cache_set m s (vwidth c s),
             {| todo := rest; at_ := Stored s (vwidth c s); results := res |})
| t_ret m s w rest res :          (* return w *)
    tstep c (m, {| todo := rest; at_ := Stored s w; results := res |})
            (m, {| todo := rest; at_ := Ready; results := res ++ [(s, w)] |}).

(** A step of the whole program: some thread moves. *)
Inductive cstep (c : Condition) : config -> config -> Prop :=
| c_thread m m' before t t' after : tstep c (m, t) (m', t') ->
    cstep c {| shared := m; threads := before ++ t :: after |}
            {| shared := m'; threads := before ++ t' :: after |}.

(** Executions, with the number of thread steps taken; between the steps the
    LRU may evict anything. *)
Inductive execution (c : Condition) : config -> nat -> config -> Prop :=
| e_refl g : execution c g 0 g
| e_step g n g' g'' : execution c g n g' -> cstep c g' g'' -> execution c g (S n) g''
| e_evict g n m keep ts : execution c g n {| shared := m; threads := ts |} ->
    execution c g n {| shared := cache_evict keep m; threads := ts |}.
