(** What stays behind in memory: notions used in the statements. *)
From stdpp Require Import gmap.
From Verif Require Import M_Base M_Types M_Memory.

(** The bytes in the resulting buffer. *)
Definition contents (r : res vec) : res bytes :=
  match r with Ok v => Ok (v_data v) | Err e => Err e | Panic => Panic end.

(** Contents left behind by a buffer of [cap] bytes that grew, each time to twice the size, until [text] fitted:
    the beginnings of [text] that filled it. *)
Definition left_by (cap : nat) (text : bytes) (blocks : list bytes) : Prop :=
  exists m, length text <= cap * 2 ^ m /\ (m = 0 \/ cap * 2 ^ (m - 1) < length text) /\
    blocks = map (fun k => firstn (cap * 2 ^ k) text) (seq 0 m).

(** A stored password without its notes. *)
Definition without_notes (s : stored_password) : stored_password := mk_stored (sp_id s) (sp_password s) [].
