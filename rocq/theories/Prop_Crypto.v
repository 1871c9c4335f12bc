(** C16-C18: encryption wrapper and key derivation. *)
From Verif Require Import M_Base M_Prims M_Crypto S_Base64 S_Utf8 P_Crypto P_Keys T_Toy.

(** C16. Encryption always works for a 32-byte key, decryption inverts it, and the text consists of
    two canonical Base64 texts around the only underscore, without a colon. *)
Theorem C16_encryption_roundtrip : forall P rnd m k,
  prims_ok P -> length k = 32 ->
  exists c, encrypt_data P rnd m k = Ok c /\ decrypt_data P c k = Ok m.
Proof.
  intros P rnd m k HP Hk. destruct (encrypt_total P rnd m k Hk) as [c Hc].
  exists c. split; [exact Hc|]. exact (encrypt_decrypt P rnd m k c HP Hc).
Qed.
Print Assumptions C16_encryption_roundtrip.

Theorem C16_ciphertext_shape : forall P rnd m k c,
  prims_ok P -> encrypt_data P rnd m k = Ok c ->
  exists a b,
    c = a ++ "_"%byte :: b /\ ~ In "_"%byte a /\ ~ In "_"%byte b /\ ~ In ":"%byte c /\
    base64_canonical (p_random P rnd 12) a /\
    base64_canonical (p_seal P k (p_random P rnd 12) m) b /\
    length a = 16 /\ length b = 4 * ((length m + 18) / 3).
Proof. exact encrypt_shape. Qed.
Print Assumptions C16_ciphertext_shape.

Example C16_example :
  let k := bs "abcdefghijklmnopqrstuvwxyz123456" in
  encrypt_data toy_release 7 (bs "hi") k = Ok (bs "B2FiY2RlZmdoaWpr_aGkHYWJjZGVmZ2hpamthYmNk") /\
  decrypt_data toy_release (bs "B2FiY2RlZmdoaWpr_aGkHYWJjZGVmZ2hpamthYmNk") k = Ok (bs "hi").
Proof. split; vm_compute; reflexivity. Qed.

(** C17. The exact set of texts on which decryption succeeds and on which it panics. *)
Theorem C17_decrypt_success : forall P value k m,
  length k = 32 ->
  decrypt_data P value k = Ok m <->
  exists a b n c, value = a ++ "_"%byte :: b /\ ~ In "_"%byte a /\
    base64_accepted n a /\ length n = 12 /\ base64_accepted c b /\ p_open P k n c = Some m.
Proof. exact decrypt_ok. Qed.
Print Assumptions C17_decrypt_success.

Theorem C17_decrypt_panics : forall P value k,
  length k = 32 ->
  decrypt_data P value k = Panic <->
  exists a b n, value = a ++ "_"%byte :: b /\ ~ In "_"%byte a /\ base64_accepted n a /\ length n <> 12.
Proof. exact decrypt_panic. Qed.
Print Assumptions C17_decrypt_panics.

(** "Corrupt data is always reported as an error" is false. *)
Theorem C17_corrupt_data_always_error_refuted :
  ~ (forall P value k, prims_ok P -> length k = 32 -> decrypt_data P value k <> Panic).
Proof.
  intros H. apply (H toy_release (bs "AAAA_") (bs "abcdefghijklmnopqrstuvwxyz123456") (toy_ok _ _) eq_refl).
  vm_compute. reflexivity.
Qed.
Print Assumptions C17_corrupt_data_always_error_refuted.

(** C18. The scrypt salt is the UTF-8 text of the salt bytes as Latin-1 characters; different salts
    give different scrypt salts; keys have 32 bytes. *)
Theorem C18_key_derivation : forall P pp salt,
  prims_ok P ->
  exists key, get_encryption_key P pp salt = Ok key /\ length key = 32 /\
              key = p_scrypt P pp (utf8_text (latin1_points salt)) 32.
Proof.
  intros P pp salt HP. eexists. split; [apply encryption_key_salt|]. split; [|reflexivity].
  apply (ok_scrypt_len P HP).
Qed.
Print Assumptions C18_key_derivation.

Theorem C18_salt_injective : forall s1 s2,
  utf8_text (latin1_points s1) = utf8_text (latin1_points s2) -> s1 = s2.
Proof. exact encryption_salt_inj. Qed.
Print Assumptions C18_salt_injective.

Example C18_example :
  utf8_text (latin1_points [x61; xe9; xff]) = [x61; xc3; xa9; xc3; xbf] /\
  get_encryption_key toy_release (bs "secret") [x61; xe9; xff] =
    Ok (bs "secret" ++ [x61; xc3; xa9; xc3; xbf] ++ repeat x00 21).
Proof. split; vm_compute; reflexivity. Qed.
