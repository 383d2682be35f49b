(** * MapRace: TableRace with the runtime's check for concurrent use of a map.

    An assignment to an entry of t.columnWidth takes two steps, between which
    the goroutine stands inside the map.  Whoever reads or writes the map
    meanwhile may find out, and then the whole program ends ("fatal error:
    concurrent map read and map write", which cannot be recovered); or they may
    not, and find the old entry.  The runtime is not in /repo. *)
From Verif Require Import GoBase Runewidth Width Table TableRace.
Local Open Scope Z_scope.

Section Threads.
Context {A : Type}.

(** A goroutine outside the map, or inside with an entry to write. *)
Inductive rthread : Type :=
| RAt (p : sprog A)
| RPut (name : str) (w : Z) (p : sprog A).

(** table.go:66-76, 95-167: the accesses [t.columnWidth[name]] and [cw[name] = width]. *)
Definition rstep (m : wmap) (t : rthread) : option (wmap * rthread * list (str * Z)) :=
  match t with
  | RAt (SRet _) => None
  | RAt (SGet name k) => Some (m, RAt (k (m name)), [])
  | RAt (SCheck name w p) => Some (m, RAt (if w >? m name then SPut name w p else p), [(name, w)])
  | RAt (SPut name w p) => Some (m, RPut name w p, [])
  | RPut name w p => Some (wset m name w, RAt p, [])
  end.

(** The widths, the goroutines and the values read so far; or the fatal error of the runtime. *)
Inductive rstate : Type :=
| Running (m : wmap) (ts : list rthread) (seen : list (str * Z))
| Aborted.

(** The goroutine is inside the map. *)
Definition inside (t : rthread) : Prop := match t with RPut _ _ _ => True | RAt _ => False end.

(** Executions from a start. *)
Inductive rexec (m0 : wmap) (ts0 : list rthread) : rstate -> Prop :=
| re_refl : rexec m0 ts0 (Running m0 ts0 [])
| re_step m before t after seen m' t' more : rexec m0 ts0 (Running m (before ++ t :: after) seen) ->
    rstep m t = Some (m', t', more) -> rexec m0 ts0 (Running m' (before ++ t' :: after) (seen ++ more))
| re_abort m before t after seen : rexec m0 ts0 (Running m (before ++ t :: after) seen) ->
    rstep m t <> None -> Exists inside (before ++ after) -> rexec m0 ts0 Aborted.
End Threads.
Arguments rthread : clear implicits.
Arguments rstate : clear implicits.

(** Clients of one table. *)
Definition rstart {Item Val E A} (t : Table Item Val E) (ps : list (cprog Item E A)) : list (rthread A) :=
  map (fun p => RAt (steps (Columns (tSpec t)) p)) ps.
