(** pfp/src/recovery_codes.rs *)
From Verif Require Import M_Base M_Base64 M_Codec M_Prims M_Crypto M_Utf8.

(** recovery_codes.rs:14-20 *)
Definition BLOCK_SIZE : nat := 14.
Definition LINE_SIZE : nat := (BLOCK_SIZE + 1) / 5 * 8.
Definition VERSION : byte := x01.
Definition VERSION_SIZE : nat := 1.
Definition SALT_SIZE : nat := 16.
Definition NONCE_SIZE : nat := 12.
Definition TAG_SIZE : nat := 16.

Definition newline : byte := x0a.

(** recovery_codes.rs:148-154: punctuation after the [pos]-th character *)
Definition punctuation (pos : nat) : bytes :=
  if pos mod LINE_SIZE =? 0 then [newline]
  else if pos mod (LINE_SIZE / 2) =? 0 then [":"%byte]
  else if pos mod (LINE_SIZE / 6) =? 0 then ["-"%byte]
  else [].

(** recovery_codes.rs:139-156: the loop, [pos] counting the characters kept so far *)
Fixpoint format_loop (insert_punctuation : bool) (pos : nat) (code : bytes) : bytes :=
  match code with
  | [] => []
  | b :: code' =>
      let uppercased := to_ascii_uppercase b in
      if negb (contains_byte uppercased BASE32_ALPHABET) then
        format_loop insert_punctuation pos code'
      else
        [uppercased] ++ (if insert_punctuation then punctuation (S pos) else [])
                     ++ format_loop insert_punctuation (S pos) code'
  end.

(** recovery_codes.rs:157-164: drop a trailing punctuation character *)
Definition is_punctuation (b : byte) : bool :=
  Byte.eqb b newline || Byte.eqb b ":"%byte || Byte.eqb b "-"%byte.
Fixpoint pop_punctuation (s : bytes) : bytes :=
  match s with
  | [] => []
  | [b] => if is_punctuation b then [] else [b]
  | b :: s' => b :: pop_punctuation s'
  end.

(** recovery_codes.rs:135-166 [format_code] *)
Definition format_code (code : bytes) (insert_punctuation : bool) : bytes :=
  pop_punctuation (format_loop insert_punctuation 0 code).

(** [(255 - i) as u8] for a [usize]: underflow panics with overflow checks, else wraps
    (recovery_codes.rs:106,254) *)
Definition final_virtual_byte (P : prims) (i : nat) : res byte :=
  if i <=? 255 then Ok (u8 (N.of_nat (255 - i)))
  else if p_overflow_checks P then Panic
  else Ok (u8 (255 + (256 - N.of_nat i mod 256))).

(** [i as u8] *)
Definition usize_as_u8 (i : nat) : byte := u8 (N.of_nat i).

(** recovery_codes.rs:100-115: loop adding a checksum byte after each block. [acc] is [output] in
    reverse order, [pos] the index of the next input byte. *)
Fixpoint checksum_loop (P : prims) (blocks pos : nat) (acc input : bytes) : res bytes :=
  match input with
  | [] => Ok (rev acc)
  | b :: input' =>
      let acc := b :: acc in
      if pos mod BLOCK_SIZE =? BLOCK_SIZE - 1 then
        let block_index := pos / BLOCK_SIZE in
        let final_block := block_index =? blocks - 1 in
        let? virtual_byte :=
          (if final_block then final_virtual_byte P block_index else Ok (usize_as_u8 block_index)) in
        checksum_loop P blocks (S pos)
          (pearson_hash (rev (firstn BLOCK_SIZE acc)) virtual_byte :: acc) input'
      else checksum_loop P blocks (S pos) acc input'
  end.

(** recovery_codes.rs:63-67 *)
Definition fill_bytes (password_len : nat) : nat :=
  match (VERSION_SIZE + SALT_SIZE + NONCE_SIZE + TAG_SIZE + password_len) mod BLOCK_SIZE with
  | 0 => 0
  | rest => BLOCK_SIZE - rest
  end.

(** recovery_codes.rs:51-118 [generate]. Simplification: [Vec::with_capacity(n)] gives capacity
    exactly [n] (line 72 pads up to the capacity). *)
Definition generate (P : prims) (rnd : nat) (password salt encryption_key : bytes) : res bytes :=
  if negb (length salt =? SALT_SIZE) then Err UnexpectedData
  else
    let password_len := length password in
    let fill := fill_bytes password_len in
    let password_vec := password ++ repeat x00 fill in
    let? encrypted := encrypt_data P rnd password_vec encryption_key in
    let? (nonce_base64, ciphertext_base64) :=
      ok_or (split_once "_"%byte encrypted) InvalidCiphertext in
    let? nonce := ok_or (b64_decode nonce_base64) InvalidBase64 in
    if negb (length nonce =? NONCE_SIZE) then Err UnexpectedData
    else
      let? ciphertext := ok_or (b64_decode ciphertext_base64) InvalidBase64 in
      if negb (length ciphertext =? password_len + fill + TAG_SIZE) then Err UnexpectedData
      else
        let input := [VERSION] ++ salt ++ nonce ++ ciphertext in
        let blocks := length input / BLOCK_SIZE in
        let? output := checksum_loop P blocks 0 [] input in
        let? encoded := base32_encode output in
        Ok (format_code encoded true).

(** recovery_codes.rs:245-260: loop over the lines. Returns [(seen_last, extra_row)]. *)
Fixpoint validate_loop (P : prims) (i : nat) (lines : list bytes) (seen_last : bool)
  : res (bool * option nat) :=
  match lines with
  | [] => Ok (seen_last, None)
  | chunk :: rest =>
      if seen_last then Ok (true, Some i)
      else
        let? checksum := idx chunk BLOCK_SIZE in
        let? virtual_byte := final_virtual_byte P i in
        if Byte.eqb checksum (pearson_hash (firstn BLOCK_SIZE chunk) virtual_byte) then
          validate_loop P (S i) rest true
        else if negb (Byte.eqb checksum (pearson_hash (firstn BLOCK_SIZE chunk) (usize_as_u8 i))) then
          Err (RecoveryCodeChecksumMismatch i)
        else validate_loop P (S i) rest false
  end.

(** recovery_codes.rs:240-275 [validate] *)
Definition validate (P : prims) (code : bytes) : res bytes :=
  let formatted := format_code code false in
  let? decoded :=
    base32_decode (firstn (length formatted / LINE_SIZE * LINE_SIZE) formatted) in
  let extra_data := negb (length formatted mod LINE_SIZE =? 0) in
  let? (seen_last, extra_row) := validate_loop P 0 (chunks (BLOCK_SIZE + 1) decoded) false in
  if negb seen_last then Err RecoveryCodeIncomplete
  else
    match extra_row with
    | Some row => Err (RecoveryCodeExtraData row)
    | None =>
        if extra_data then Err (RecoveryCodeExtraData (length formatted / LINE_SIZE))
        else Ok decoded
    end.

(** recovery_codes.rs:191-202: drop the checksum bytes, [i] is the index of the next byte *)
Fixpoint strip_checksums (i : nat) (l : bytes) : bytes :=
  match l with
  | [] => []
  | b :: l' =>
      if i mod (BLOCK_SIZE + 1) =? BLOCK_SIZE then strip_checksums (S i) l'
      else b :: strip_checksums (S i) l'
  end.

(** recovery_codes.rs:222-228: the loop looking for the end of the password. [end_pos - 1]
    underflows when everything is NUL: a panic with overflow checks; otherwise the index wraps to
    [usize::MAX], [get] returns [None] and the loop ends. *)
Fixpoint find_end (P : prims) (decrypted : bytes) (end_pos : nat) : res nat :=
  match end_pos with
  | O => if p_overflow_checks P then Panic else Ok 0
  | S e =>
      match nth_error decrypted e with
      | Some b => if Byte.eqb b x00 then find_end P decrypted e else Ok end_pos
      | None => Ok end_pos
      end
  end.

(** recovery_codes.rs:188-238 [decode] *)
Definition decode (P : prims) (code primary_password : bytes) : res bytes :=
  let? decoded := validate P code in
  let without_checksums := strip_checksums 0 decoded in
  if match without_checksums with [] => false | v :: _ => negb (Byte.eqb v VERSION) end
  then Err RecoveryCodeWrongVersion
  else if length without_checksums <? VERSION_SIZE + SALT_SIZE + NONCE_SIZE + TAG_SIZE
  then Err RecoveryCodeInsufficientData
  else
    let salt := firstn SALT_SIZE (skipn VERSION_SIZE without_checksums) in
    let nonce := firstn NONCE_SIZE (skipn (VERSION_SIZE + SALT_SIZE) without_checksums) in
    let ciphertext := skipn (VERSION_SIZE + SALT_SIZE + NONCE_SIZE) without_checksums in
    let encrypted := b64_encode nonce ++ ["_"%byte] ++ b64_encode ciphertext in
    let? encryption_key := get_encryption_key P primary_password salt in
    let? decrypted := decrypt_data P encrypted encryption_key in
    let? end_pos := find_end P decrypted (length decrypted) in
    let stripped := firstn end_pos decrypted in
    if utf8 stripped then Ok stripped else Err InvalidUtf8.
