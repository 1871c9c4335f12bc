(** Vocabulary for C82. *)
From stdpp Require Import gmap.
From Verif Require Import M_Base M_Utf8 M_Prims M_Types M_Storage M_Double.

(** All texts set are valid UTF-8: so it is with Rust's [String]. *)
Fixpoint sets_texts {A : Type} (c : client A) : Prop :=
  match c with
  | Finish _ => True
  | AskKey _ k => forall r, sets_texts (k r)
  | GetValue _ k => forall r, sets_texts (k r)
  | SetValue key value k => utf8 key = true /\ utf8 value = true /\ sets_texts k
  | DropValue _ k => forall r, sets_texts (k r)
  | ClearAll k => sets_texts k
  | AllKeys k => forall r, sets_texts (k r)
  | SaveAll k => forall r, sets_texts (k r)
  end.
(** What is done does not depend on the order of the keys. *)
Fixpoint orderless {A : Type} (c : client A) : Prop :=
  match c with
  | Finish _ => True
  | AskKey _ k => forall r, orderless (k r)
  | GetValue _ k => forall r, orderless (k r)
  | SetValue _ _ k => orderless k
  | DropValue _ k => forall r, orderless (k r)
  | ClearAll k => orderless k
  | AllKeys k => (forall l l', l ≡ₚ l' -> k l = k l') /\ forall r, orderless (k r)
  | SaveAll k => forall r, orderless (k r)
  end.
(** Both hold the same. *)
Definition holds_same (m : memory) (s : st) : Prop := m_data m = s_data s /\ m_changes m = s_tick s.
(** Both have saved the same. *)
Definition saved_same (P : prims) (m : memory) (s : st) : Prop := load P (s_disk s) = Ok (m_file_data m).

(** What the library has besides the storage: the other fields of [Passwords] (passwords.rs:59-64) and the random generator. *)
Record owned : Type := mk_owned { o_key : option bytes; o_hmac : option bytes; o_primary : option bytes; o_rand : nat }.
Definition owned_of (s : st) : owned := mk_owned (s_key s) (s_hmac s) (s_primary s) (s_rand s).
Definition with_owned (a : owned) (s : st) : st :=
  mk_st (s_data s) (o_key a) (o_hmac a) (o_primary a) (s_disk s) (s_tick s) (s_flushes s) (o_rand a).
(** Running a client that also gets and returns what the library owns. *)
Definition library {A : Type} (P : prims) (c : owned -> client (A * owned)) (s : st) : A * st :=
  let '((r, a), s') := with_file P (c (owned_of s)) s in (r, with_owned a s').
