(** Encryption wrapper and key derivation: proofs. *)
From Verif Require Import M_Base M_Base64 M_Prims M_Crypto P_Base P_Base64 S_Base64.
From Coq Require Import ZArith ZifyBool ZifyNat ZifyN.
Ltac Zify.zify_post_hook ::= Z.div_mod_to_equations.

Definition nonce (P : prims) (rnd : nat) : bytes := p_random P rnd 12.

Lemma encrypt_data_eq P rnd m k :
  length k = 32 ->
  encrypt_data P rnd m k =
  Ok (b64_encode (nonce P rnd) ++ "_"%byte :: b64_encode (p_seal P k (nonce P rnd) m)).
Proof. intros Hk. unfold encrypt_data. rewrite Hk. reflexivity. Qed.

Lemma encrypt_data_ok P rnd m k c :
  encrypt_data P rnd m k = Ok c <->
  length k = 32 /\
  c = b64_encode (nonce P rnd) ++ "_"%byte :: b64_encode (p_seal P k (nonce P rnd) m).
Proof.
  unfold encrypt_data. destruct (Nat.eqb_spec (length k) 32) as [E|E]; cbn [negb].
  - split; [intros [= <-]; split; [exact E|reflexivity]|]. intros [_ ->]. reflexivity.
  - split; [discriminate|]. intros [H _]. contradiction.
Qed.

Lemma decrypt_data_parts P k n c :
  length k = 32 -> length n = 12 ->
  decrypt_data P (b64_encode n ++ "_"%byte :: b64_encode c) k = ok_or (p_open P k n c) DecryptionFailure.
Proof.
  intros Hk Hn. unfold decrypt_data. rewrite Hk. cbn [Nat.eqb negb].
  rewrite split_once_app by (apply b64_encode_no; auto). cbn [ok_or bind].
  rewrite b64_roundtrip. cbn [ok_or bind]. rewrite Hn. cbn [Nat.eqb negb].
  rewrite b64_roundtrip. reflexivity.
Qed.

Lemma nonce_len P rnd : prims_ok P -> length (nonce P rnd) = 12.
Proof. intros HP. apply (ok_random_len P HP). Qed.

Lemma encrypt_decrypt P rnd m k c :
  prims_ok P -> encrypt_data P rnd m k = Ok c -> decrypt_data P c k = Ok m.
Proof.
  intros HP H. apply encrypt_data_ok in H. destruct H as [Hk ->].
  rewrite decrypt_data_parts by (try apply nonce_len; assumption).
  rewrite (ok_open_seal P HP) by (try apply nonce_len; assumption). reflexivity.
Qed.

Lemma encrypt_total P rnd m k : length k = 32 -> exists c, encrypt_data P rnd m k = Ok c.
Proof. intros Hk. rewrite encrypt_data_eq by exact Hk. eexists; reflexivity. Qed.

Lemma encrypt_shape P rnd m k c :
  prims_ok P -> encrypt_data P rnd m k = Ok c ->
  exists a b,
    c = a ++ "_"%byte :: b /\ ~ In "_"%byte a /\ ~ In "_"%byte b /\ ~ In ":"%byte c /\
    base64_canonical (p_random P rnd 12) a /\
    base64_canonical (p_seal P k (p_random P rnd 12) m) b /\
    length a = 16 /\ length b = 4 * ((length m + 18) / 3).
Proof.
  intros HP H. apply encrypt_data_ok in H. destruct H as [Hk ->].
  exists (b64_encode (nonce P rnd)), (b64_encode (p_seal P k (nonce P rnd) m)).
  split; [reflexivity|]. split; [apply b64_encode_no; auto|]. split; [apply b64_encode_no; auto|].
  split.
  { rewrite in_app_iff. intros [H|[H|H]]; [|discriminate|]; eapply b64_encode_no in H; eauto. }
  split; [apply b64_encode_spec|]. split; [apply b64_encode_spec|].
  rewrite !b64_encode_length, (ok_seal_len P HP) by (try apply nonce_len; assumption).
  rewrite nonce_len by exact HP. split; [reflexivity|].
  replace (length m + 16 + 2) with (length m + 18) by lia. reflexivity.
Qed.

(** The exact set of texts on which decryption panics. *)
Lemma decrypt_panic P value k :
  length k = 32 ->
  decrypt_data P value k = Panic <->
  exists a b n, value = a ++ "_"%byte :: b /\ ~ In "_"%byte a /\ base64_accepted n a /\ length n <> 12.
Proof.
  intros Hk. unfold decrypt_data. rewrite Hk. cbn [Nat.eqb negb]. split.
  - destruct (split_once "_"%byte value) as [[a b]|] eqn:Es; cbn [ok_or bind]; [|discriminate].
    apply split_once_some in Es. destruct Es as [-> Hn].
    destruct (b64_decode a) as [n|] eqn:Ea; cbn [ok_or bind]; [|discriminate].
    destruct (Nat.eqb_spec (length n) 12) as [E|E]; cbn [negb].
    + destruct (b64_decode b) as [c|]; cbn [ok_or bind]; [|discriminate].
      destruct (p_open P k n c); discriminate.
    + intros _. exists a, b, n. split; [reflexivity|]. split; [exact Hn|].
      split; [apply b64_decode_spec, Ea|exact E].
  - intros (a & b & n & -> & Hn & Ha & Hl).
    rewrite split_once_app by exact Hn. cbn [ok_or bind].
    apply b64_decode_spec in Ha. rewrite Ha. cbn [ok_or bind].
    apply Nat.eqb_neq in Hl. rewrite Hl. reflexivity.
Qed.

(** Success means: two accepted Base64 texts, a 12-byte nonce, and the cipher accepted. *)
Lemma decrypt_ok P value k m :
  length k = 32 ->
  decrypt_data P value k = Ok m <->
  exists a b n c, value = a ++ "_"%byte :: b /\ ~ In "_"%byte a /\
    base64_accepted n a /\ length n = 12 /\ base64_accepted c b /\ p_open P k n c = Some m.
Proof.
  intros Hk. unfold decrypt_data. rewrite Hk. cbn [Nat.eqb negb]. split.
  - destruct (split_once "_"%byte value) as [[a b]|] eqn:Es; cbn [ok_or bind]; [|discriminate].
    apply split_once_some in Es. destruct Es as [-> Hn].
    destruct (b64_decode a) as [n|] eqn:Ea; cbn [ok_or bind]; [|discriminate].
    destruct (Nat.eqb_spec (length n) 12) as [E|E]; cbn [negb]; [|discriminate].
    destruct (b64_decode b) as [c|] eqn:Eb; cbn [ok_or bind]; [|discriminate].
    destruct (p_open P k n c) as [m'|] eqn:Eo; cbn [ok_or]; [|discriminate]. intros [= <-].
    exists a, b, n, c. apply b64_decode_spec in Ea, Eb. auto 10.
  - intros (a & b & n & c & -> & Hn & Ha & Hl & Hb & Ho).
    rewrite split_once_app by exact Hn. cbn [ok_or bind].
    apply b64_decode_spec in Ha, Hb. rewrite Ha. cbn [ok_or bind]. rewrite Hl. cbn [Nat.eqb negb].
    rewrite Hb. cbn [ok_or bind]. rewrite Ho. reflexivity.
Qed.

(** * Keys *)

Lemma derive_key_eq P pp salt : derive_key P pp salt = Ok (p_scrypt P pp salt 32).
Proof. reflexivity. Qed.

Definition latin1 (salt : bytes) : bytes := concat (map latin1_char_utf8 salt).

Lemma get_encryption_key_eq P pp salt :
  get_encryption_key P pp salt = Ok (p_scrypt P pp (latin1 salt) 32).
Proof. reflexivity. Qed.

Lemma get_encryption_key_ok P pp salt :
  prims_ok P -> exists k, get_encryption_key P pp salt = Ok k /\ length k = 32.
Proof.
  intros HP. rewrite get_encryption_key_eq. eexists. split; [reflexivity|].
  apply (ok_scrypt_len P HP).
Qed.

Lemma latin1_char_cases b :
  ((Byte.to_N b < 128)%N /\ latin1_char_utf8 b = [b]) \/
  (exists h l, latin1_char_utf8 b = [h; l] /\ (192 <= Byte.to_N h)%N).
Proof.
  unfold latin1_char_utf8. destruct (N.ltb_spec (Byte.to_N b) 128) as [H|H]; [left; auto|right].
  eexists; eexists. split; [reflexivity|].
  pose proof (sweep1 (fun b => implb (128 <=? Byte.to_N b)%N (192 <=? Byte.to_N (b_or xc0 (b_shr b 6)))%N)
                     ltac:(vm_compute; reflexivity) b) as Hs.
  cbn beta in Hs. apply N.leb_le in H. rewrite H in Hs. apply N.leb_le, Hs.
Qed.

Lemma latin1_char_inj a b : latin1_char_utf8 a = latin1_char_utf8 b -> a = b.
Proof.
  intros H. pose proof (sweep2 (fun a b =>
      implb (bytes_eqb (latin1_char_utf8 a) (latin1_char_utf8 b)) (Byte.eqb a b))
      ltac:(vm_compute; reflexivity) a b) as Hs.
  cbn beta in Hs. rewrite H, bytes_eqb_refl in Hs. apply eqb_eq, Hs.
Qed.

Lemma latin1_inj a b : latin1 a = latin1 b -> a = b.
Proof.
  revert b; induction a as [|x a IH]; intros [|y b]; unfold latin1; cbn [map concat]; intros H.
  - reflexivity.
  - destruct (latin1_char_cases y) as [[_ E]|(h & l & E & _)]; rewrite E in H; discriminate.
  - destruct (latin1_char_cases x) as [[_ E]|(h & l & E & _)]; rewrite E in H; discriminate.
  - assert (latin1_char_utf8 x = latin1_char_utf8 y) as Hxy.
    { destruct (latin1_char_cases x) as [[Lx Ex]|(h & l & Ex & Hx)],
        (latin1_char_cases y) as [[Ly Ey]|(h' & l' & Ey & Hy)]; rewrite Ex, Ey in H; cbn in H.
      - injection H as -> _. reflexivity.
      - injection H as -> _. lia.
      - injection H as -> _. lia.
      - injection H as -> -> _. rewrite Ex, Ey. reflexivity. }
    rewrite Hxy in H. apply app_inv_head in H. apply latin1_char_inj in Hxy. subst.
    f_equal. apply IH, H.
Qed.
