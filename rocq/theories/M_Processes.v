(** Several processes working on the same storage file (harness around M_History).

    Each process has its own [FileIO] (file.rs:19-26, the data in memory) and [Passwords] (passwords.rs:59-64,
    the secrets); the file and the random values of the operating system are shared. The code takes no
    lock on the file: [FileIO::load] (file.rs:41-49) reads it when a process starts, [FileIO::flush]
    (file.rs:77-86) replaces it by the data in memory, and nothing else looks at it.

    Simplification: a call of the library, which writes the file at most once and at its end, is one step.
    Two writes, or a read and a write, at the very same time: see M_Syscalls. *)
From stdpp Require Import gmap.
From Verif Require Import M_Base M_Prims M_Types M_Storage M_Passwords S_Vault M_History.

(** What a process has in memory. *)
Record memory : Type := mk_memory {
  m_data : kvmap; m_key : option bytes; m_hmac : option bytes; m_primary : option bytes
}.
Definition no_memory : memory := mk_memory ∅ None None None.

Record machine : Type := mk_machine {
  ma_procs : nat -> memory; ma_disk : option bytes; ma_tick : nat; ma_flushes : nat; ma_rand : nat
}.

Definition update {A} (p : nat) (x : A) (f : nat -> A) (q : nat) : A := if q =? p then x else f q.

(** The state as process [p] sees it. *)
Definition seen_by (p : nat) (m : machine) : st :=
  let x := ma_procs m p in
  mk_st (m_data x) (m_key x) (m_hmac x) (m_primary x) (ma_disk m) (ma_tick m) (ma_flushes m) (ma_rand m).
Definition left_by (p : nat) (s : st) (m : machine) : machine :=
  mk_machine (update p (mk_memory (s_data s) (s_key s) (s_hmac s) (s_primary s)) (ma_procs m))
             (s_disk s) (s_tick s) (s_flushes s) (s_rand s).

(** Process [p] makes a call; [Restart] is how a process starts. *)
Definition act (P : prims) (p : nat) (o : op) (m : machine) : out * machine :=
  let '(r, s) := exec P o (seen_by p m) in (r, left_by p s m).

(** Calls of several processes in the order in which they happen. *)
Fixpoint interleave (P : prims) (l : list (nat * op)) (m : machine) : list out * machine :=
  match l with
  | [] => ([], m)
  | (p, o) :: l' =>
      let '(r, m1) := act P p o m in
      let '(rs, m2) := interleave P l' m1 in
      (r :: rs, m2)
  end.

(** No process has anything in memory, and there is no usable file. *)
Definition unused (P : prims) (m : machine) : Prop :=
  (forall p, ma_procs m p = no_memory) /\ is_ok (load P (ma_disk m)) = false.

(** As in M_History. *)
Fixpoint all_writes_ok (P : prims) (l : list (nat * op)) (wrs : list write) (m : machine) : Prop :=
  match l, wrs with
  | [], [] => True
  | (p, o) :: l', wr :: wrs' =>
      allowed (p_write P (ma_flushes m)) wr /\ all_writes_ok P l' wrs' (snd (act P p o m))
  | _, _ => False
  end.
Fixpoint calm_all (P : prims) (l : list (nat * op)) (m : machine) : Prop :=
  match l with
  | [] => True
  | (p, o) :: l' =>
      match o with
      | Reset _ => unlocked (seen_by p m) = true -> fst (act P p o m) = ODone
      | _ => True
      end /\ calm_all P l' (snd (act P p o m))
  end.
