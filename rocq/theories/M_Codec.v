(** Base32 variant and Pearson checksum: pfp/src/crypto.rs:32-34, 147-224. *)
From Verif Require Import M_Base.

(** crypto.rs:34 [BASE32_ALPHABET] *)
Definition BASE32_ALPHABET : bytes := bs "ABCDEFGHJKLMNPQRSTUVWXYZ23456789".

(** crypto.rs:155-162, one [encoded.push(BASE32_ALPHABET[i as usize])] *)
Definition alphabet_at (i : byte) : res byte := idx BASE32_ALPHABET (b_nat i).

(** crypto.rs:154-163: body of the loop for one chunk of five bytes. A chunk of another size would
    make one of the [chunk[i]] panic. *)
Definition base32_encode_chunk (chunk : bytes) : res bytes :=
  match chunk with
  | [c0; c1; c2; c3; c4] =>
      mapM alphabet_at
        [ b_shr c0 3;
          b_or (b_shl (b_and c0 x07) 2) (b_shr c1 6);
          b_and (b_shr c1 1) x1f;
          b_or (b_shl (b_and c1 x01) 4) (b_shr c2 4);
          b_or (b_shl (b_and c2 x0f) 1) (b_shr c3 7);
          b_and (b_shr c3 2) x1f;
          b_or (b_shl (b_and c3 x03) 3) (b_shr c4 5);
          b_and c4 x1f ]
  | _ => Panic
  end.

(** crypto.rs:147-165 [base32_encode] *)
Definition base32_encode (input : bytes) : res bytes :=
  if negb (length input mod 5 =? 0) then Err UnexpectedData
  else
    let? cs := mapM base32_encode_chunk (chunks 5 input) in
    Ok (concat cs).

(** Position of a byte in a list, counted from [i]. *)
Fixpoint index_from (i : N) (b : byte) (l : bytes) : option N :=
  match l with
  | [] => None
  | x :: l' => if Byte.eqb x b then Some i else index_from (i + 1) b l'
  end.

(** crypto.rs:168-176: the [LOOKUP] table as a function of the index; 255 for bytes that are not in
    the alphabet. (The table is filled from a duplicate-free alphabet.) *)
Definition base32_lookup (b : byte) : byte :=
  match index_from 0 b BASE32_ALPHABET with Some i => u8 i | None => xff end.

(** crypto.rs:198-204: body of the loop for one chunk of eight converted bytes. *)
Definition base32_decode_chunk (chunk : bytes) : res bytes :=
  match chunk with
  | [c0; c1; c2; c3; c4; c5; c6; c7] =>
      Ok [ b_or (b_shl c0 3) (b_shr c1 2);
           b_or (b_or (b_shl (b_and c1 x03) 6) (b_shl c2 1)) (b_shr c3 4);
           b_or (b_shl (b_and c3 x0f) 4) (b_shr c4 1);
           b_or (b_or (b_shl (b_and c4 x01) 7) (b_shl c5 2)) (b_shr c6 3);
           b_or (b_shl (b_and c6 x07) 5) c7 ]
  | _ => Panic
  end.

(** crypto.rs:188: [LOOKUP[byte as usize] >= 32] *)
Definition base32_invalid (b : byte) : bool := (32 <=? Byte.to_N (base32_lookup b))%N.

(** crypto.rs:167-206 [base32_decode] *)
Definition base32_decode (input : bytes) : res bytes :=
  if negb (length input mod 8 =? 0) then Err UnexpectedData
  else
    let input_converted := map base32_lookup input in
    if existsb base32_invalid input then Err UnexpectedData
    else
      let? cs := mapM base32_decode_chunk (chunks 8 input_converted) in
      Ok (concat cs).

(** crypto.rs:209-217: entry [i] of the [PERMUTATIONS] table (index always in range for a [u8]). *)
Definition pearson_perm (b : byte) : byte := u8 ((Byte.to_N b + 379) * 467).

(** crypto.rs:208-224 [pearson_hash] *)
Definition pearson_hash (input : bytes) (virtual_byte : byte) : byte :=
  fold_left (fun hash b => pearson_perm (b_xor hash b)) input (pearson_perm virtual_byte).
