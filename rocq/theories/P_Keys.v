(** The scrypt salt of the encryption key, as UTF-8 of Latin-1 text. *)
From Verif Require Import M_Base M_Prims M_Crypto P_Base P_Crypto S_Utf8.

Lemma latin1_char_spec b : latin1_char_utf8 b = utf8_char (Byte.to_N b).
Proof.
  pose proof (sweep1 (fun b => bytes_eqb (latin1_char_utf8 b) (utf8_char (Byte.to_N b)))
                     ltac:(vm_compute; reflexivity) b) as H.
  cbn beta in H. apply bytes_eqb_eq, H.
Qed.

Lemma latin1_spec s : latin1 s = utf8_text (latin1_points s).
Proof.
  unfold latin1, utf8_text, latin1_points. induction s as [|b s IH]; [reflexivity|].
  cbn [map concat flat_map]. rewrite IH, latin1_char_spec. reflexivity.
Qed.

Lemma encryption_key_salt P pp salt :
  get_encryption_key P pp salt = Ok (p_scrypt P pp (utf8_text (latin1_points salt)) 32).
Proof. rewrite get_encryption_key_eq, latin1_spec. reflexivity. Qed.

Lemma encryption_salt_inj s1 s2 :
  utf8_text (latin1_points s1) = utf8_text (latin1_points s2) -> s1 = s2.
Proof. rewrite <- !latin1_spec. apply latin1_inj. Qed.
