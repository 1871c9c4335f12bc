(** Independent description of the Base32 variant: RFC 4648 read as one bit string. *)
From Verif Require Import M_Base.

(** The [k] lowest bits of [n], most significant first. *)
Fixpoint bits (k : nat) (n : N) : list bool :=
  match k with O => [] | S k' => N.testbit n (N.of_nat k') :: bits k' n end.

(** The bit string of a byte string. *)
Definition byte_bits (l : bytes) : list bool := flat_map (fun b => bits 8 (Byte.to_N b)) l.

(** The 32 characters, in order of their value (documented in crypto.rs:32-34: RFC 4648 letters and
    digits without the ambiguous 0, 1, O, I). *)
Definition alphabet32 : bytes := bs "ABCDEFGHJKLMNPQRSTUVWXYZ23456789".

(** [text] is a Base32 text for [data]: both spell the same bit string, a character standing for the
    five bits of its position in the alphabet. *)
Definition base32_text (data text : bytes) : Prop :=
  exists values : list N,
    Forall2 (fun c v => (v < 32)%N /\ nth_error alphabet32 (N.to_nat v) = Some c) text values /\
    flat_map (bits 5) values = byte_bits data.
