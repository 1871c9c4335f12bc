(** pfp/src/crypto.rs (except Base32 and the checksum, see M_Codec). *)
From Verif Require Import M_Base M_Base64 M_Prims M_Types.

(** crypto.rs:20-30 *)
Definition CHARS_LOWER : bytes := bs "abcdefghjkmnpqrstuvwxyz".
Definition CHARS_UPPER : bytes := bs "ABCDEFGHJKMNPQRSTUVWXYZ".
Definition CHARS_DIGIT : bytes := bs "23456789".
Definition CHARS_SYMBOL : bytes := bs "!#$%&()*+,-./:;<=>?@[]^_{|}~".
Definition CHARS_MAPPING : list (ctype * bytes) :=
  [(Lower, CHARS_LOWER); (Upper, CHARS_UPPER); (Digit, CHARS_DIGIT); (Symbol, CHARS_SYMBOL)].

(** crypto.rs:36-48 [derive_bits]. [scrypt] returns an error for an empty output buffer or one of
    more than (2^32 - 1) * 32 bytes, on which [unwrap] panics. (Allocation failure for huge sizes is
    not modelled.) *)
Definition derive_bits (P : prims) (password salt : bytes) (size : N) : res bytes :=
  if (size =? 0)%N || (4294967295 <? size / 32)%N then Panic
  else Ok (p_scrypt P password salt (N.to_nat size)).

(** crypto.rs:70-76: number of characters in the allowed character types *)
Definition num_chars (allowed : charset) : nat :=
  fold_left (fun acc '(t, chars) => if cs_contains allowed t then acc + length chars else acc)
            CHARS_MAPPING 0.

(** crypto.rs:79-88: inner loop choosing the character; [None] when the loop ends without a push *)
Fixpoint pick_char (allowed : charset) (mapping : list (ctype * bytes)) (index : nat)
  : option (byte * ctype) :=
  match mapping with
  | [] => None
  | (t, chars) :: rest =>
      if cs_contains allowed t then
        match nth_error chars index with
        | Some c => Some (c, t)
        | None => pick_char allowed rest (index - length chars)
        end
      else pick_char allowed rest index
  end.

(** crypto.rs:64-89: outer loop over the derived bytes, [i] counting from 0 to [len]. The two usize
    subtractions cannot underflow ([seen] is a subset of [charset], [i < len]). *)
Fixpoint to_password_loop (cs seen : charset) (len i : nat) (l : bytes) : res bytes :=
  match l with
  | [] => Ok []
  | b :: l' =>
      let allowed := if len - i <=? cs_len cs - cs_len seen then cs_diff cs seen else cs in
      let n := num_chars allowed in
      if n =? 0 then Panic (* remainder by zero *)
      else
        match pick_char allowed CHARS_MAPPING (b_nat b mod n) with
        | Some (c, t) =>
            let? rest := to_password_loop cs (cs_insert seen t) len (S i) l' in Ok (c :: rest)
        | None => to_password_loop cs seen len (S i) l'
        end
  end.

(** crypto.rs:60-91 [to_password] *)
Definition to_password (l : bytes) (cs : charset) : res bytes :=
  to_password_loop cs cs_empty (length l) 0 l.

(** crypto.rs:50-58 [derive_password] *)
Definition derive_password (P : prims) (primary_password salt : bytes) (len : N) (cs : charset)
  : res bytes :=
  let? l := derive_bits P primary_password salt len in to_password l cs.

(** crypto.rs:15-16 *)
Definition AES_KEY_SIZE : N := 256.
Definition AES_NONCE_SIZE : nat := 96.

(** crypto.rs:93-95 [derive_key] *)
Definition derive_key (P : prims) (primary_password salt : bytes) : res bytes :=
  derive_bits P primary_password salt (AES_KEY_SIZE / 8)%N.

(** crypto.rs:107-120 [encrypt_data]; [rnd] is the number of the random value drawn for the nonce.
    [Key::from_slice] panics unless the key has 32 bytes. (The AES-GCM plaintext size limit of 64 GiB
    is not modelled.) *)
Definition encrypt_data (P : prims) (rnd : nat) (value key : bytes) : res bytes :=
  if negb (length key =? 32) then Panic
  else
    let nonce := p_random P rnd (AES_NONCE_SIZE / 8) in
    Ok (b64_encode nonce ++ ["_"%byte] ++ b64_encode (p_seal P key nonce value)).

(** crypto.rs:122-138 [decrypt_data]. [Nonce::from_slice] (line 130) panics unless the decoded nonce
    has 12 bytes; it runs before the ciphertext is decoded. *)
Definition decrypt_data (P : prims) (value key : bytes) : res bytes :=
  if negb (length key =? 32) then Panic
  else
    let? (nonce_base64, ciphertext_base64) := ok_or (split_once "_"%byte value) InvalidCiphertext in
    let? nonce := ok_or (b64_decode nonce_base64) InvalidBase64 in
    if negb (length nonce =? 12) then Panic
    else
      let? ciphertext := ok_or (b64_decode ciphertext_base64) InvalidBase64 in
      ok_or (p_open P key nonce ciphertext) DecryptionFailure.

(** crypto.rs:140-145 [get_digest] ([Hmac::new_from_slice] accepts keys of any size) *)
Definition get_digest (P : prims) (hmac_secret data : bytes) : bytes :=
  b64_encode (p_hmac P hmac_secret data).

(** UTF-8 encoding of the character with code [b] (0..255) *)
Definition latin1_char_utf8 (b : byte) : bytes :=
  if (Byte.to_N b <? 128)%N then [b] else [b_or xc0 (b_shr b 6); b_or x80 (b_and b x3f)].

(** passwords.rs:26-30 [get_encryption_key] *)
Definition get_encryption_key (P : prims) (primary_password salt : bytes) : res bytes :=
  let salt_str := concat (map latin1_char_utf8 salt) in
  derive_key P primary_password salt_str.
