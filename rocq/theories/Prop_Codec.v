(** C01-C03: Base32 variant and block checksum. *)
From Verif Require Import M_Base M_Codec S_Codec P_Codec.

(** C01. [base32_encode] succeeds exactly on multiples of 5 bytes (otherwise UnexpectedData), its
    result spells the same bit string in the 32-character alphabet, 8 characters per 5 bytes, and
    decodes to the input. *)
Theorem C01_base32_encode_meaning : forall data text,
  base32_encode data = Ok text <-> base32_text data text.
Proof. exact base32_encode_spec. Qed.
Print Assumptions C01_base32_encode_meaning.

Theorem C01_base32_encode_domain : forall data,
  (length data mod 5 = 0 /\ exists text, base32_encode data = Ok text) \/
  (length data mod 5 <> 0 /\ base32_encode data = Err UnexpectedData).
Proof. exact base32_encode_total. Qed.
Print Assumptions C01_base32_encode_domain.

Theorem C01_base32_lossless : forall data text,
  base32_encode data = Ok text ->
  base32_decode text = Ok data /\ 5 * length text = 8 * length data /\
  Forall (fun c => In c alphabet32) text.
Proof. exact base32_roundtrip. Qed.
Print Assumptions C01_base32_lossless.

Example C01_example :
  base32_encode (bs "hello world 123") = Ok (bs "PBUY25DREB5Y86VNNSSDCNTV").
Proof. vm_compute. reflexivity. Qed.

(** C02. [base32_decode] accepts exactly the texts over the alphabet whose length is a multiple of 8,
    inverts the encoder on them, and reports UnexpectedData for everything else. *)
Theorem C02_base32_decode_meaning : forall data text,
  base32_decode text = Ok data <-> base32_text data text.
Proof. exact base32_decode_spec. Qed.
Print Assumptions C02_base32_decode_meaning.

Theorem C02_base32_decode_canonical : forall text,
  (length text mod 8 = 0 /\ Forall (fun c => In c alphabet32) text /\
   exists data, base32_decode text = Ok data /\ base32_encode data = Ok text) \/
  (~ (length text mod 8 = 0 /\ Forall (fun c => In c alphabet32) text) /\
   base32_decode text = Err UnexpectedData).
Proof. exact base32_decode_total. Qed.
Print Assumptions C02_base32_decode_canonical.

Example C02_example_ok : base32_decode (bs "AFSYE25E") = Ok [x01; x61; x62; x63; x64].
Proof. vm_compute. reflexivity. Qed.
Example C02_example_bad : base32_decode (bs "AFSYE25O") = Err UnexpectedData.
Proof. vm_compute. reflexivity. Qed.

(** C03. The checksum separates any two blocks of equal length differing in one byte, and any two
    virtual bytes. *)
Theorem C03_pearson_single_byte : forall l1 a b l2 v,
  a <> b -> pearson_hash (l1 ++ a :: l2) v <> pearson_hash (l1 ++ b :: l2) v.
Proof. exact pearson_single. Qed.
Print Assumptions C03_pearson_single_byte.

Theorem C03_pearson_virtual_byte : forall l v1 v2,
  v1 <> v2 -> pearson_hash l v1 <> pearson_hash l v2.
Proof. intros l v1 v2 Hne H. exact (Hne (pearson_virtual_inj l v1 v2 H)). Qed.
Print Assumptions C03_pearson_virtual_byte.

Example C03_example :
  pearson_hash (bs "0123456789") (u8 123) = x2b /\
  pearson_hash (bs "0123456798") (u8 123) <> x2b.
Proof. split; [vm_compute; reflexivity|vm_compute; discriminate]. Qed.
