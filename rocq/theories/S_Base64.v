(** Independent description of Base64 (RFC 4648, section 4) as one bit string. *)
From Verif Require Import M_Base S_Codec.

Definition alphabet64 : bytes :=
  bs "ABCDEFGHIJKLMNOPQRSTUVWXYZabcdefghijklmnopqrstuvwxyz0123456789+/".

(** [text] consists of characters standing for six bits each and [pads] times '='; the bits are those
    of [data] followed by [slack] < 6 zero bits. Each '=' stands for two of the slack bits. *)
Definition base64_text (data text : bytes) (pads slack : nat) : Prop :=
  exists values : list N,
    (exists syms,
       text = syms ++ repeat "="%byte pads /\
       Forall2 (fun c v => (v < 64)%N /\ nth_error alphabet64 (N.to_nat v) = Some c) syms values) /\
    flat_map (bits 6) values = byte_bits data ++ repeat false slack /\
    slack < 6.

(** What the encoder produces: fully padded. *)
Definition base64_canonical (data text : bytes) : Prop :=
  exists pads, base64_text data text pads (2 * pads).

(** What the decoder of crate base64 0.13 accepts: padding may be incomplete or missing. *)
Definition base64_accepted (data text : bytes) : Prop :=
  exists pads slack, base64_text data text pads slack /\ 2 * pads <= slack.
