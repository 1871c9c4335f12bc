(** cli/src/logging_allocator.rs with several threads, step by step. (The program has one thread; the mutex in line 11 is there
    since a static variable has to be usable by all threads.) *)
From stdpp Require Import gmap.
From Verif Require Import M_Base M_Logging.

(** Where a thread is in [alloc] (lines 27-35), if it is: it has got a block from the system, the [i]-th of all; it has locked the
    mutex and is going to take [k] more blocks for the backtrace and the list. *)
Inductive stage : Type := Ready | Obtained (p : N) (i : nat) | Logging (p : N) (i k : nat).
(** The log (after [init_allocator]), which thread has locked the mutex, the blocks of the system as in [heap], the threads, and
    what calls of [alloc] by the program have returned. *)
Record shared : Type := mk_shared {
  g_log : list (N * bytes); g_holder : option nat; g_used : list N; g_stage : nat -> stage; g_returned : list (nat * N) }.
Definition all_ready : shared := mk_shared [] None [] (fun _ => Ready) [].
Definition goes (t : nat) (x : stage) (f : nat -> stage) : nat -> stage := fun t' => if t' =? t then x else f t'.

(** One step of a thread *)
Inductive tstep (E : alloc_env) (t : nat) (g : shared) : shared -> Prop :=
(** line 28 *)
| t_obtain : g_stage g t = Ready ->
    let p := e_system E (g_used g) in
    tstep E t g (mk_shared (g_log g) (g_holder g) (g_used g ++ [p]) (goes t (Obtained p (length (g_used g))) (g_stage g)) (g_returned g))
(** line 30: [try_lock] fails, whoever has locked the mutex *)
| t_skip p i : g_stage g t = Obtained p i -> g_holder g <> None ->
    tstep E t g (mk_shared (g_log g) (g_holder g) (g_used g) (goes t Ready (g_stage g)) (g_returned g ++ [(t, p)]))
(** line 30: it succeeds *)
| t_lock p i : g_stage g t = Obtained p i -> g_holder g = None ->
    tstep E t g (mk_shared (g_log g) (Some t) (g_used g) (goes t (Logging p i (e_tracing E i + e_growing E i)) (g_stage g)) (g_returned g))
(** line 31: [alloc] is called again, from within; [try_lock] fails *)
| t_own p i k : g_stage g t = Logging p i (S k) -> g_holder g <> None ->
    tstep E t g (mk_shared (g_log g) (g_holder g) (g_used g ++ [e_system E (g_used g)]) (goes t (Logging p i k) (g_stage g)) (g_returned g))
(** lines 31-34 *)
| t_push p i : g_stage g t = Logging p i 0 ->
    tstep E t g (mk_shared (g_log g ++ [(p, e_trace E i)]) None (g_used g) (goes t Ready (g_stage g)) (g_returned g ++ [(t, p)])).

(** Any interleaving *)
Inductive interleaved (E : alloc_env) : shared -> Prop :=
| in_start : interleaved E all_ready
| in_step t g g' : interleaved E g -> tstep E t g g' -> interleaved E g'.
(** One thread only, from here on *)
Inductive alone (E : alloc_env) (t : nat) : shared -> shared -> Prop :=
| al_stop g : alone E t g g
| al_step g g1 g2 : tstep E t g g1 -> alone E t g1 g2 -> alone E t g g2.
