(** Base64 as used by the crate: [base64::encode]/[base64::decode] of crate base64 0.13.0 with the
    [STANDARD] configuration (Cargo.lock). The crate's source is not part of /repo; this file models
    its documented behaviour: encoding pads with '='; decoding rejects bytes outside the alphabet,
    rejects non-zero trailing bits, and (in 0.13) accepts missing padding. Used by
    pfp/src/crypto.rs:112-132,144, storage.rs:84,88,102,112, recovery_codes.rs:80-86,215-217. *)
From Verif Require Import M_Base.

Definition BASE64_ALPHABET : bytes :=
  bs "ABCDEFGHIJKLMNOPQRSTUVWXYZabcdefghijklmnopqrstuvwxyz0123456789+/".

Definition b64_pad : byte := "="%byte.

(** Encoder table; indices are always below 64. *)
Definition b64_sym (i : byte) : byte := nth (b_nat i) BASE64_ALPHABET x00.

Fixpoint b64_encode (l : bytes) : bytes :=
  match l with
  | a :: b :: c :: r =>
      b64_sym (b_shr a 2)
      :: b64_sym (b_or (b_shl (b_and a x03) 4) (b_shr b 4))
      :: b64_sym (b_or (b_shl (b_and b x0f) 2) (b_shr c 6))
      :: b64_sym (b_and c x3f)
      :: b64_encode r
  | [a; b] =>
      [ b64_sym (b_shr a 2);
        b64_sym (b_or (b_shl (b_and a x03) 4) (b_shr b 4));
        b64_sym (b_shl (b_and b x0f) 2);
        b64_pad ]
  | [a] =>
      [ b64_sym (b_shr a 2); b64_sym (b_shl (b_and a x03) 4); b64_pad; b64_pad ]
  | [] => []
  end.

Fixpoint b64_index_from (i : N) (b : byte) (l : bytes) : option N :=
  match l with
  | [] => None
  | x :: l' => if Byte.eqb x b then Some i else b64_index_from (i + 1) b l'
  end.

(** Decoder table: [None] for bytes outside the alphabet (including '='). *)
Definition b64_val (b : byte) : option byte :=
  match b64_index_from 0 b BASE64_ALPHABET with Some i => Some (u8 i) | None => None end.

(** Last group with two symbols: one byte, the four low bits of the second symbol must be zero. *)
Definition b64_tail2 (a b : byte) : option bytes :=
  match b64_val a, b64_val b with
  | Some x, Some y =>
      if Byte.eqb (b_and y x0f) x00 then Some [ b_or (b_shl x 2) (b_shr y 4) ] else None
  | _, _ => None
  end.

(** Last group with three symbols: two bytes, the two low bits of the third symbol must be zero. *)
Definition b64_tail3 (a b c : byte) : option bytes :=
  match b64_val a, b64_val b, b64_val c with
  | Some x, Some y, Some z =>
      if Byte.eqb (b_and z x03) x00
      then Some [ b_or (b_shl x 2) (b_shr y 4); b_or (b_shl y 4) (b_shr z 2) ]
      else None
  | _, _, _ => None
  end.

(** A full group of four symbols: three bytes. *)
Definition b64_quad (a b c d : byte) : option bytes :=
  match b64_val a, b64_val b, b64_val c, b64_val d with
  | Some x, Some y, Some z, Some w =>
      Some [ b_or (b_shl x 2) (b_shr y 4); b_or (b_shl y 4) (b_shr z 2); b_or (b_shl z 6) w ]
  | _, _, _, _ => None
  end.

Fixpoint b64_decode (s : bytes) : option bytes :=
  match s with
  | [] => Some []
  | [_] => None
  | [a; b] => b64_tail2 a b
  | [a; b; c] => if Byte.eqb c b64_pad then b64_tail2 a b else b64_tail3 a b c
  | a :: b :: c :: d :: rest =>
      match rest with
      | [] =>
          if Byte.eqb d b64_pad
          then if Byte.eqb c b64_pad then b64_tail2 a b else b64_tail3 a b c
          else b64_quad a b c d
      | _ :: _ =>
          match b64_quad a b c d, b64_decode rest with
          | Some x, Some y => Some (x ++ y)
          | _, _ => None
          end
      end
  end.
