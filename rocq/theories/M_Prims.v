(** Everything outside the two crates, as one explicit argument of the model, and the laws assumed
    about it. *)
From stdpp Require Import gmap.
From Verif Require Export M_Base.

Global Instance byte_eq_dec : EqDecision byte := Byte.byte_eq_dec.
Global Program Instance byte_countable : Countable byte :=
  inj_countable Byte.to_N Byte.of_N _.
Next Obligation. intros b. apply Byte.of_to_N. Qed.

(** The [HashMap<String, String>] of storage_io/file.rs:24. *)
Notation kvmap := (gmap bytes bytes).

(** Outcome of one [FileIO::flush] as far as the operating system decides it
    (storage_io/file.rs:81-85): everything works; [create_dir_all] fails; [fs::write] fails when
    opening the file (file untouched); [fs::write] fails after writing the first [n] bytes of the new
    contents to the already truncated file. *)
Inductive write_outcome : Set :=
| WriteOk
| CreateDirFails
| OpenFails
| WriteFailsAfter (n : nat).

Record prims : Type := mk_prims {
  (** overflow checks: [true] for the dev profile, [false] for release and test (Cargo.toml:7-19) *)
  p_overflow_checks : bool;
  (** HMAC-SHA256: key, message (crypto.rs:140-145) *)
  p_hmac : bytes -> bytes -> bytes;
  (** AES-256-GCM encryption: key, nonce, plaintext; returns ciphertext and tag (crypto.rs:115-117) *)
  p_seal : bytes -> bytes -> bytes -> bytes;
  (** AES-256-GCM decryption: key, nonce, ciphertext and tag (crypto.rs:134-136) *)
  p_open : bytes -> bytes -> bytes -> option bytes;
  (** scrypt with parameters (15, 8, 1): password, salt, output length (crypto.rs:36-48) *)
  p_scrypt : bytes -> bytes -> nat -> bytes;
  (** the [i]-th value drawn from the random generator, of the given size (crypto.rs:97-100) *)
  p_random : nat -> nat -> bytes;
  (** iteration order of a [HashMap]; may change with every mutation, counted by the first argument
      (storage_io/file.rs:69-71) *)
  p_order : nat -> kvmap -> list bytes;
  (** [WildMatch::new(pattern).matches(text)] of crate wildmatch (passwords.rs:431-455) *)
  p_wild : bytes -> bytes -> bool;
  (** outcome of the [i]-th flush *)
  p_write : nat -> write_outcome;
  (** whether serde_json can represent a number literal as [f64] (only matters for numbers that are
      no unsigned 64-bit integers; they never occur in accepted data, see M_Json) *)
  p_float_ok : bytes -> bool
}.

(** Laws assumed about the primitives. All are functional (no cryptographic hardness); they are
    proved for a concrete instance with real primitives in [P_Concrete]. *)
Record prims_ok (P : prims) : Prop := mk_prims_ok {
  ok_hmac_len : forall k m, length (p_hmac P k m) = 32;
  ok_seal_len : forall k n m, length k = 32 -> length n = 12 ->
                length (p_seal P k n m) = length m + 16;
  ok_open_seal : forall k n m, length k = 32 -> length n = 12 ->
                 p_open P k n (p_seal P k n m) = Some m;
  ok_open_len : forall k n c m, p_open P k n c = Some m -> length c = length m + 16;
  ok_scrypt_len : forall p s n, length (p_scrypt P p s n) = n;
  ok_random_len : forall i n, length (p_random P i n) = n;
  ok_order : forall t m, p_order P t m ≡ₚ (map_to_list m).*1
}.
