(** The trait [StorageIO] (pfp/src/storage_io/mod.rs:31-50), its users, and its two implementations: [FileIO] as modelled in
    M_Storage, and [MemoryIO] (pfp/src/storage_io/memory.rs), with which the unit tests of the library run. *)
From stdpp Require Import gmap.
From Verif Require Import M_Base M_Utf8 M_Prims M_Types M_Serde M_Storage.

(** Code that is generic in [IO: StorageIO] (storage.rs:24, passwords.rs:66) can do nothing with the [IO] but call the
    methods of the trait (mod.rs:33-49): between two calls it computes something from the results so far. *)
Inductive client (A : Type) : Type :=
| Finish (a : A)
| AskKey (key : bytes) (k : bool -> client A)
| GetValue (key : bytes) (k : res bytes -> client A)
| SetValue (key value : bytes) (k : client A)
| DropValue (key : bytes) (k : res unit -> client A)
| ClearAll (k : client A)
| AllKeys (k : list bytes -> client A)
| SaveAll (k : res unit -> client A).
Arguments Finish {A}. Arguments AskKey {A}. Arguments GetValue {A}. Arguments SetValue {A}. Arguments DropValue {A}.
Arguments ClearAll {A}. Arguments AllKeys {A}. Arguments SaveAll {A}.

(** With [FileIO] (file.rs:52-87) *)
Fixpoint with_file {A : Type} (P : prims) (c : client A) (s : st) : A * st :=
  match c with
  | Finish a => (a, s)
  | AskKey key k => with_file P (k (io_contains (s_data s) key)) s
  | GetValue key k => with_file P (k (io_get (s_data s) key)) s
  | SetValue key value k => with_file P k (snd (io_set key value s))
  | DropValue key k => let '(r, s') := io_remove key s in with_file P (k r) s'
  | ClearAll k => with_file P k (snd (io_clear s))
  | AllKeys k => with_file P (k (io_keys P s)) s
  | SaveAll k => let '(r, s') := flush P s in with_file P (k r) s'
  end.

(** memory.rs:12-15; [m_changes] counts the changes of [data], as [s_tick] does: it selects the order of iteration. *)
Record memory : Type := mk_memory { m_file_data : kvmap; m_data : kvmap; m_changes : nat }.
(** memory.rs:20-25 [new] *)
Definition memory_new (d : kvmap) : memory := mk_memory d d 0.
(** memory.rs:34-36 *)
Definition memory_contains (m : memory) (key : bytes) : bool := match m_data m !! key with Some _ => true | None => false end.
(** memory.rs:38-40 *)
Definition memory_get (m : memory) (key : bytes) : res bytes := ok_or (m_data m !! key) KeyMissing.
(** memory.rs:42-44 *)
Definition memory_set (key value : bytes) (m : memory) : memory :=
  mk_memory (m_file_data m) (<[key := value]> (m_data m)) (S (m_changes m)).
(** memory.rs:46-48 *)
Definition memory_remove (key : bytes) (m : memory) : res unit * memory :=
  match m_data m !! key with
  | Some _ => (Ok tt, mk_memory (m_file_data m) (delete key (m_data m)) (S (m_changes m)))
  | None => (Err KeyMissing, m)
  end.
(** memory.rs:54-56 *)
Definition memory_clear (m : memory) : memory := mk_memory (m_file_data m) ∅ (S (m_changes m)).
(** memory.rs:58-61 *)
Definition memory_flush (m : memory) : res unit * memory := (Ok tt, mk_memory (m_data m) (m_data m) (m_changes m)).

(** With [MemoryIO]; [order] is the order of iteration (memory.rs:50-52) *)
Fixpoint with_memory {A : Type} (order : nat -> kvmap -> list bytes) (c : client A) (m : memory) : A * memory :=
  match c with
  | Finish a => (a, m)
  | AskKey key k => with_memory order (k (memory_contains m key)) m
  | GetValue key k => with_memory order (k (memory_get m key)) m
  | SetValue key value k => with_memory order k (memory_set key value m)
  | DropValue key k => let '(r, m') := memory_remove key m in with_memory order (k r) m'
  | ClearAll k => with_memory order k (memory_clear m)
  | AllKeys k => with_memory order (k (order (m_changes m) (m_data m))) m
  | SaveAll k => let '(r, m') := memory_flush m in with_memory order (k r) m'
  end.
