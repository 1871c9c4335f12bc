(** Buffers on the heap: which contents stay behind in blocks of memory that were given back to the
    allocator without being overwritten. cli/tests/cli/common.rs:186-229 searches the memory of the
    process for secrets; for that purpose cli/src/leaking_allocator.rs:11-17 never reuses a block.

    Modelled are the buffers which the functions below allocate themselves. What called libraries do with
    memory of their own (scrypt, AES-GCM, Base64, QR codes, reading JSON), copies in local variables, and
    the state after a panic are not modelled. *)
From stdpp Require Import gmap.
From Verif Require Import M_Base M_Base64 M_Utf8 M_Json M_Types M_Serde M_Prims M_Crypto M_Recovery M_Cli.

(** A computation together with the contents of the blocks left behind so far, in order. *)
Definition Mem (A : Type) : Type := list bytes -> res A * list bytes.
Definition mret {A} (a : A) : Mem A := fun old => (Ok a, old).
Definition mlift {A} (r : res A) : Mem A := fun old => (r, old).
Definition mbind {A B} (m : Mem A) (f : A -> Mem B) : Mem B := fun old =>
  match m old with
  | (Ok a, old) => f a old
  | (Err e, old) => (Err e, old)
  | (Panic, old) => (Panic, old)
  end.
Notation "'let%' x := m 'in' f" := (mbind m (fun x => f)) (at level 200, x pattern, right associativity).

(** [Vec<u8>] and [String] *)
Record vec : Type := mk_vec { v_cap : nat; v_data : bytes }.

(** [Vec::new], [Vec::with_capacity] *)
Definition vec_new : vec := mk_vec 0 [].
Definition vec_with_capacity (n : nat) : vec := mk_vec n [].

(** Room for [n] more bytes: if there is not enough, a block of at least twice the capacity (and at least
    8 bytes) is allocated, the content copied, and the old block given back as it is. (The allocator may
    be able to enlarge the block where it is; the one of the tests never does.) *)
Definition vec_reserve (n : nat) (v : vec) : Mem vec := fun old =>
  if length (v_data v) + n <=? v_cap v then (Ok v, old)
  else (Ok (mk_vec (Nat.max 8 (Nat.max (2 * v_cap v) (length (v_data v) + n))) (v_data v)),
        if v_cap v =? 0 then old else old ++ [v_data v]).

(** [Vec::extend_from_slice], [Vec::push], [String::push] of an ASCII character *)
Definition vec_extend (s : bytes) (v : vec) : Mem vec :=
  let% v := vec_reserve (length s) v in mret (mk_vec (v_cap v) (v_data v ++ s)).
Definition vec_push (b : byte) (v : vec) : Mem vec := vec_extend [b] v.

(** [Vec::resize] *)
Definition vec_resize (n : nat) (b : byte) (v : vec) : Mem vec :=
  if n <=? length (v_data v) then mret (mk_vec (v_cap v) (firstn n (v_data v)))
  else vec_extend (repeat b (n - length (v_data v))) v.

(** [to_owned], [to_vec]: a block of just the size needed *)
Definition vec_of (s : bytes) : Mem vec := vec_extend s (vec_with_capacity (length s)).

(** Dropping a [Secret<Vec<u8>>] or [Secret<String>] overwrites its block. *)
Definition drop_secret (v : vec) : Mem unit := mret tt.

(** * pfp/src/crypto.rs *)

(** crypto.rs:36-48 [derive_bits] *)
Definition derive_bits_mem (P : prims) (password salt : bytes) (size : N) : Mem vec :=
  let% v := vec_resize (N.to_nat size) x00 vec_new in
  let% output := mlift (derive_bits P password salt size) in
  mret (mk_vec (v_cap v) output).

(** crypto.rs:64-89, as [to_password_loop] *)
Fixpoint to_password_loop_mem (cs seen : charset) (len i : nat) (l : bytes) (result : vec) : Mem vec :=
  match l with
  | [] => mret result
  | b :: l' =>
      let allowed := if len - i <=? cs_len cs - cs_len seen then cs_diff cs seen else cs in
      let n := num_chars allowed in
      if n =? 0 then mlift Panic
      else
        match pick_char allowed CHARS_MAPPING (b_nat b mod n) with
        | Some (c, t) =>
            let% result := vec_push c result in
            to_password_loop_mem cs (cs_insert seen t) len (S i) l' result
        | None => to_password_loop_mem cs seen len (S i) l' result
        end
  end.

(** crypto.rs:60-91 [to_password] *)
Definition to_password_mem (l : vec) (cs : charset) : Mem vec :=
  let len := length (v_data l) in
  to_password_loop_mem cs cs_empty len 0 (v_data l) (vec_with_capacity len).

(** crypto.rs:50-58 [derive_password] *)
Definition derive_password_mem (P : prims) (primary_password salt : bytes) (len : N) (cs : charset) : Mem vec :=
  let% l := derive_bits_mem P primary_password salt len in
  let% result := to_password_mem l cs in
  let% _ := drop_secret l in
  mret result.

(** * pfp/src/recovery_codes.rs *)

(** recovery_codes.rs:69-74: the padded password *)
Definition padded_password_mem (password : bytes) : Mem vec :=
  let% v := vec_extend password (vec_with_capacity (length password + fill_bytes (length password))) in
  vec_resize (v_cap v) x00 v.

(** recovery_codes.rs:221-237: the end of [decode], from the decrypted data on *)
Definition stripped_password_mem (P : prims) (decrypted : vec) : Mem vec :=
  let decrypted_len := length (v_data decrypted) in
  let% end_pos := mlift (find_end P (v_data decrypted) decrypted_len) in
  let% stripped := (if end_pos =? decrypted_len then mret decrypted
                    else let% v := vec_of (firstn end_pos (v_data decrypted)) in
                         let% _ := drop_secret decrypted in mret v) in
  if utf8 (v_data stripped) then
    let% result := vec_of (v_data stripped) in
    let% _ := drop_secret stripped in
    mret result
  else mlift (Err InvalidUtf8).

(** * cli/src/processor/utils.rs *)

(** utils.rs:80-85: reading up to the end of the line; also gives the rest of the input *)
Fixpoint read_line_mem (input : bytes) (buffer : vec) : Mem (vec * bytes) :=
  match input with
  | [] => mret (buffer, [])
  | b :: input' =>
      if Byte.eqb b newline then mret (buffer, input')
      else let% buffer := vec_push b buffer in read_line_mem input' buffer
  end.

(** utils.rs:77-93 [prompt_secret_text], without the prompt *)
Definition prompt_secret_text_mem (input : bytes) : Mem (vec * bytes) :=
  let% (buffer, rest) := read_line_mem input (vec_with_capacity 1024) in
  if utf8 (v_data buffer) then
    let% result := vec_of (v_data buffer) in
    let% _ := drop_secret buffer in
    mret (result, rest)
  else mlift Panic.

(** utils.rs:95-102 [prompt_password] with [stdin_passwords] *)
Definition prompt_password_mem (input : bytes) : Mem (vec * bytes) :=
  let% (secret, rest) := prompt_secret_text_mem input in
  let% result := vec_of (trim (v_data secret)) in
  let% _ := drop_secret secret in
  mret (result, rest).

(** * JSON *)

(** What serde_json's compact formatter writes at a time: the parts of a string between characters that
    have to be escaped, escape sequences, punctuation, other values. *)
Fixpoint string_pieces (s : bytes) (part : bytes) : list bytes :=
  match s with
  | [] => match part with [] => [] | _ => [part] end
  | c :: s' =>
      match escape_byte c with
      | [_] => string_pieces s' (part ++ [c])
      | e => match part with [] => [] | _ => [part] end ++ e :: string_pieces s' []
      end
  end.
Definition quoted_pieces (s : bytes) : list bytes := bs """" :: string_pieces s [] ++ [bs """"].

(** Lists of pieces with a comma in between *)
Fixpoint with_commas (l : list (list bytes)) : list bytes :=
  match l with
  | [] => []
  | [x] => x
  | x :: l' => x ++ bs "," :: with_commas l'
  end.

Fixpoint json_pieces (j : json) : list bytes :=
  match j with
  | JNull => [bs "null"]
  | JBool true => [bs "true"]
  | JBool false => [bs "false"]
  | JPos n => [write_number n]
  | JNum => []
  | JStr s => quoted_pieces s
  | JArr l => bs "[" :: with_commas (map json_pieces l) ++ [bs "]"]
  | JObj l => bs "{" :: with_commas
                (map (fun '(_, k, v) => quoted_pieces k ++ bs ":" :: json_pieces v) l) ++ [bs "}"]
  end.

Fixpoint vec_extend_all (l : list bytes) (v : vec) : Mem vec :=
  match l with
  | [] => mret v
  | s :: l' => let% v := vec_extend s v in vec_extend_all l' v
  end.

(** [serde_json::to_vec]: starts with 128 bytes *)
Definition json_to_vec_mem (j : json) : Mem vec := vec_extend_all (json_pieces j) (vec_with_capacity 128).

(** storage.rs:66-70: the text of a password record, in [set] *)
Definition record_mem (p : password) : Mem vec := json_to_vec_mem (password_json p).

(** storage.rs:112-118 in [set_hmac_secret]: the text of the encoded secret *)
Definition hmac_secret_mem (hmac_secret : bytes) : Mem vec := json_to_vec_mem (JStr (b64_encode hmac_secret)).
