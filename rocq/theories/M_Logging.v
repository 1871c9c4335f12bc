(** cli/src/logging_allocator.rs: the allocator of builds with the flag [logging_alloc] (main.rs:13-17), made for finding out
    where memory that still contains a secret was allocated. One thread, as in the program; the log can be
    created and written (otherwise lines 18 and 20 panic).

    The allocator calls itself: creating the backtrace and enlarging the list of allocations need memory as well. Therefore
    a relation: that a call of the allocator comes to an end is something to prove. *)
From stdpp Require Import gmap.
From Verif Require Import M_Base.

(** What is outside of the file. Everything may depend on the number of blocks obtained so far. *)
Record alloc_env : Type := mk_alloc_env {
  e_system : list N -> N;  (** [System.alloc]: the address of a new block, given the blocks that it has handed out and not got back *)
  e_trace : nat -> bytes;  (** [{:?}] of the backtrace (line 20) *)
  e_tracing : nat -> nat;  (** how many blocks [Backtrace::new] takes (line 31) *)
  e_growing : nat -> nat;  (** how many blocks [Vec::push] takes (line 31): one if the list is full, by [GlobalAlloc::realloc], which
                               is not overridden and calls [alloc] and [dealloc] *)
  e_create : nat;          (** how many blocks [format!] and [File::create] take (lines 17-18) *)
  e_write : nat -> nat     (** how many blocks [write!] takes for an entry (line 20) *)
}.

(** [ALLOCATOR.allocations] (lines 10-12, 41) with its mutex, and the blocks [System] has handed out and not got back, in order *)
Record heap : Type := mk_heap { h_log : option (list (N * bytes)); h_locked : bool; h_used : list N }.

Section allocator.
Context (E : alloc_env).

(** Line 28: [System.alloc] *)
Definition system (h : heap) : N := e_system E (h_used h).
Definition taken (h : heap) : heap := mk_heap (h_log h) (h_locked h) (h_used h ++ [system h]).
(** Lines 30, 19: locking, and unlocking at the end of the block *)
Definition set_locked (b : bool) (h : heap) : heap := mk_heap (h_log h) b (h_used h).
(** Line 31: [allocations.push] *)
Definition push_entry (x : N * bytes) (h : heap) : heap :=
  mk_heap (match h_log h with Some l => Some (l ++ [x]) | None => None end) (h_locked h) (h_used h).

(** Lines 27-35 [alloc]. [try_lock] does not wait: it fails if the mutex is locked, also by the thread itself. *)
Inductive alloc : heap -> N -> heap -> Prop :=
| alloc_off h : h_log h = None -> alloc h (system h) (taken h)
| alloc_busy h l : h_log h = Some l -> h_locked h = true -> alloc h (system h) (taken h)
| alloc_logged h l h1 h2 ps qs : h_log h = Some l -> h_locked h = false ->
    allocs (e_tracing E (length (h_used h))) (set_locked true (taken h)) ps h1 ->
    allocs (e_growing E (length (h_used h))) h1 qs h2 ->
    alloc h (system h) (set_locked false (push_entry (system h, e_trace E (length (h_used h))) h2))
(** several times, with the addresses obtained *)
with allocs : nat -> heap -> list N -> heap -> Prop :=
| allocs_0 h : allocs 0 h [] h
| allocs_S n h p h1 ps h2 : alloc h p h1 -> allocs n h1 ps h2 -> allocs (S n) h (p :: ps) h2.

(** Line 37 [dealloc] *)
Definition dealloc (p : N) (h : heap) : heap := h.

(** Lines 43-47 [init_allocator] *)
Definition init_allocator (h : heap) : heap := mk_heap (Some []) false (h_used h).

(** [{:x}] *)
Definition hex_digit (n : N) : byte := nth (N.to_nat n) (bs "0123456789abcdef") x30.
Fixpoint hex_digits (fuel : nat) (n : N) (rest : bytes) : bytes :=
  match fuel with
  | 0 => rest
  | S fuel => let rest := hex_digit (n mod 16) :: rest in if (n / 16 =? 0)%N then rest else hex_digits fuel (n / 16) rest
  end.
(** The number of binary digits is enough fuel (P_Logging.v). *)
Definition hex (n : N) : bytes := hex_digits (S (N.to_nat (N.size n))) n [].

(** Line 20 *)
Definition entry_text (x : N * bytes) : bytes := bs "Allocation of " ++ hex (fst x) ++ bs ":" ++ [x0a] ++ snd x ++ [x0a].

(** Lines 19-21: the mutex is locked while the entries are written. *)
Inductive writes : nat -> list (N * bytes) -> heap -> heap -> Prop :=
| writes_nil i h : writes i [] h h
| writes_cons i x l h ps h1 h2 : allocs (e_write E i) h ps h1 -> writes (S i) l h1 h2 -> writes i (x :: l) h h2.

(** Lines 15-23 and 49-53 [shutdown]: what is written into the file, if there is one, and the blocks taken before. [lock]
    (line 19) waits for ever if the mutex is locked: there is no rule for that. *)
Inductive shutdown : heap -> option bytes -> list N -> heap -> Prop :=
| shutdown_off h : h_log h = None -> shutdown h None [] h
| shutdown_on h l0 ps h1 l h2 : h_log h = Some l0 -> allocs (e_create E) h ps h1 -> h_log h1 = Some l -> h_locked h1 = false ->
    writes 0 l (set_locked true h1) h2 -> shutdown h (Some (concat (map entry_text l))) ps (set_locked false h2).

(** What a program does with memory. *)
Inductive use : Type := Takes | Gives (p : N).
Inductive uses : list use -> heap -> list N -> heap -> Prop :=
| uses_nil h : uses [] h [] h
| uses_takes l h p h1 ps h2 : alloc h p h1 -> uses l h1 ps h2 -> uses (Takes :: l) h (p :: ps) h2
| uses_gives p l h ps h2 : uses l (dealloc p h) ps h2 -> uses (Gives p :: l) h ps h2.

(** main.rs:100-111 with main.rs:54: [before] is what happens before [main], [during] what happens until [_shutdown] is dropped.
    (If clap ends the program, for [--help] or wrong arguments, or if Ctrl+C does, [shutdown] is not reached.) The result: the blocks
    the program got before and from [init_allocator] on, those taken for creating the file, and what is in the file. *)
Definition no_heap : heap := mk_heap None false [].
Definition program (before during : list use) (old ps create : list N) (file : option bytes) (h : heap) : Prop :=
  exists h1 h2, uses before no_heap old h1 /\ uses during (init_allocator h1) ps h2 /\ shutdown h2 file create h.
End allocator.
