(** C46: the laws assumed about the primitives hold for SHA-256, HMAC, AES-256-GCM and scrypt as
    their standards define them; what wildcard patterns match. *)
From stdpp Require Import gmap.
From Verif Require Import M_Base M_Prims M_Types M_Crypto M_Storage M_Passwords M_History M_Concrete S_Utf8 S_Vault S_Api
  S_History S_Wild P_Base P_Sound P_Concrete T_History T_Repo.

(** Every law, whatever the random generator, the order of hash maps and the file system do. *)
Theorem C46_laws : forall e, environment_ok e -> prims_ok (real e).
Proof. exact real_ok. Qed.
Print Assumptions C46_laws.

(** A ciphertext opens under a key and a nonce exactly if it is the result of sealing, and then to
    what was sealed. *)
Theorem C46_opens_what_was_sealed : forall e k n c m,
  p_open (real e) k n c = Some m <-> c = p_seal (real e) k n m.
Proof. intros e k n c m. split; [apply gcm_open_exact|intros ->; apply gcm_open_seal]. Qed.
Print Assumptions C46_opens_what_was_sealed.

(** Patterns match as specified in terms of characters. *)
Theorem C46_wildcards : forall e p t, Forall scalar p -> Forall scalar t ->
  (p_wild (real e) (utf8_text p) (utf8_text t) = true <-> fits p t).
Proof. intros e. exact wildmatch_fits. Qed.
Print Assumptions C46_wildcards.

Theorem C46_literal_patterns : forall e p t, literal p -> Forall scalar p -> Forall scalar t ->
  (p_wild (real e) (utf8_text p) (utf8_text t) = true <-> t = p).
Proof. intros e p t Hl Hp Ht. rewrite (wildmatch_fits p t Hp Ht). apply fits_literal, Hl. Qed.
Print Assumptions C46_literal_patterns.

(** Listing the passwords of a site by a pattern, in terms of [has] and of the specification of
    patterns. *)
Theorem C46_listing : forall e sc l s0,
  sound (real e) sc l s0 -> let s1 := snd (run (real e) l s0) in
  forall x p, unlocked s1 = true -> Forall scalar p -> covered sc (ListPasswords x (utf8_text p)) ->
  exists items, fst (exec (real e) (ListPasswords x (utf8_text p)) s1) = OPasswords items /\
    forall n r, Forall scalar n -> covered sc (Has x (utf8_text n) r) ->
      ((exists y, In ((resolved (real e) s1 x, utf8_text n, rev_of r), y) items) <->
       fst (exec (real e) (Has x (utf8_text n) r) s1) = OBool true /\ fits p n).
Proof.
  intros e sc l s0 So s1 x p Hu Hp Hc.
  destruct (list_exact (real e) sc l s0 So x (utf8_text p) Hu Hc) as (items & pp & _ & He & _ & _ & Hi).
  exists items. split; [exact He|]. intros n r Hn Hh. destruct (Hi (utf8_text n) r Hh) as [Hx _]. unfold s1. rewrite <- Hx.
  rewrite <- (wildmatch_fits p n Hp Hn). reflexivity.
Qed.
Print Assumptions C46_listing.

(** [*] lists everything. *)
Theorem C46_listing_all : forall e sc l s0,
  sound (real e) sc l s0 -> let s1 := snd (run (real e) l s0) in
  forall x, unlocked s1 = true -> covered sc (ListPasswords x (bs "*")) ->
  exists items, fst (exec (real e) (ListPasswords x (bs "*")) s1) = OPasswords items /\
    forall n r, covered sc (Has x n r) ->
      ((exists y, In ((resolved (real e) s1 x, n, rev_of r), y) items) <->
       fst (exec (real e) (Has x n r) s1) = OBool true).
Proof.
  intros e sc l s0 So s1 x Hu Hc.
  destruct (list_exact (real e) sc l s0 So x (bs "*") Hu Hc) as (items & pp & _ & He & _ & _ & Hi).
  exists items. split; [exact He|]. intros n r Hh. destruct (Hi n r Hh) as [Hx _]. unfold s1. rewrite <- Hx.
  change (p_wild (real e) (bs "*") n) with (wildmatch (bs "*") n). rewrite wildmatch_star. tauto.
Qed.
Print Assumptions C46_listing_all.

(** ** Cases *)

(** The environment of the unit tests is one. *)
Example C46_laws_example : environment_ok test_environment /\ prims_ok (real test_environment).
Proof. exact (conj test_environment_ok (real_ok _ test_environment_ok)). Qed.

Example C46_wildcards_example :
  fits [0x61; STAR; ANY; 0x62]%N [0x61; 0x78; 0x20AC; 0x79; 0x62]%N /\
  wildmatch (bs "a*?b") (utf8_text [0x61; 0x78; 0x20AC; 0x79; 0x62]%N) = true /\
  wildmatch (bs "?") (utf8_text [0x1F600]%N) = true /\
  wildmatch (bs "a*?b") (bs "ab") = false /\ wildmatch (bs "*am*i*") (bs "example.info") = true /\
  wildmatch (bs "example.info") (bs "example.infos") = false.
Proof.
  split.
  - apply (fits_itself [STAR; ANY; 0x62] 0x61)%N; [discriminate|discriminate|].
    apply (fits_star [ANY; 0x62] [0x78; 0x20AC] [0x79; 0x62])%N. apply fits_any. apply fits_itself; [discriminate|discriminate|]. constructor.
  - vm_compute. repeat split; reflexivity.
Qed.

(** A history with primitives equal to the written-out ones (up to a table of values of scrypt) for
    which the hypotheses of the theorems about histories hold. *)
Example C46_history_example :
  prims_ok tests /\ sound tests (mentioned tests_story) tests_story start /\
  (forall k m, p_hmac tests k m = p_hmac (real test_environment) k m) /\
  (forall k n m, p_seal tests k n m = p_seal (real test_environment) k n m) /\
  (forall k n c, p_open tests k n c = p_open (real test_environment) k n c).
Proof.
  exact (conj tests_ok (conj tests_story_sound (conj tabled_hmac_eq (conj tabled_seal_eq tabled_open_eq)))).
Qed.

(** ** Test vectors of the standards (those of the repository are in [T_Repo]) *)

(** FIPS 180-2, appendix B. *)
Example sha256_vectors :
  be_num (sha256 (bs "abc")) = 0xba7816bf8f01cfea414140de5dae2223b00361a396177a9cb410ff61f20015ad%N /\
  be_num (sha256 (bs "abcdbcdecdefdefgefghfghighijhijkijkljklmklmnlmnomnopnopq")) =
    0x248d6a61d20638b8e5c026930c3e6039a33ce45964ff2167f6ecedd419db06c1%N.
Proof. vm_compute. split; reflexivity. Qed.

(** RFC 4231, test cases 2 and 6. *)
Example hmac_vectors :
  be_num (hmac_sha256 (bs "Jefe") (bs "what do ya want for nothing?")) =
    0x5bdcc146bf60754e6a042426089575c75a003f089d2739839dec58b964ec3843%N /\
  be_num (hmac_sha256 (repeat xaa 131) (bs "Test Using Larger Than Block-Size Key - Hash Key First")) =
    0x60e431591ee0b67f0d8a26aacbf5b77f8e0bc6213728c5140546040f0ee37f54%N.
Proof. vm_compute. split; reflexivity. Qed.

(** FIPS 197, appendix C.3. *)
Example aes_vector :
  be_num (aes_block (round_keys (be_bytes 32 0x000102030405060708090a0b0c0d0e0f101112131415161718191a1b1c1d1e1f))
                    (be_bytes 16 0x00112233445566778899aabbccddeeff)) = 0x8ea2b7ca516745bfeafc49904b496089%N.
Proof. vm_compute. reflexivity. Qed.

(** The GCM specification by McGrew and Viega, test cases 14 and 15. *)
Example gcm_vectors :
  be_num (gcm_seal (be_bytes 32 0) (be_bytes 12 0) (be_bytes 16 0)) =
    0xcea7403d4d606b6e074ec5d3baf39d18d0d1c8a799996bf0265b98b5d48ab919%N /\
  be_num (gcm_seal (be_bytes 32 0xfeffe9928665731c6d6a8f9467308308feffe9928665731c6d6a8f9467308308)
                   (be_bytes 12 0xcafebabefacedbaddecaf888)
                   (be_bytes 64 0xd9313225f88406e5a55909c5aff5269a86a7a9531534f7da2e4c303d8a318a721c3c0c95956809532fcf0e2449a6b525b16aedf5aa0de657ba637b391aafd255)) =
    0x522dc1f099567d07f47f37a32a84427d643a8cdcbfe5c0c97598a2bd2555d1aa8cb08e48590dbb3da7b08b1056828838c5f61e6393ba7a0abcc9f662898015adb094dac5d93471bdec1a502270e3cc6c%N.
Proof. vm_compute. split; reflexivity. Qed.

(** RFC 7914, section 12, first vector. *)
Example scrypt_vector :
  be_num (scrypt 4 1 1 [] [] 64) =
    0x77d6576238657b203b19ca42c18a0497f16b4844e3074ae8dfdffa3fede21442fcd0069ded0948f8326a753a0fc81f17e8d3e0fb2e0d3628cf35e20c38d18906%N.
Proof. vm_compute. reflexivity. Qed.

(** Computed with OpenSSL: keys as long as a block and one byte longer; blocks that are shuffled. *)
Example more_vectors :
  be_num (hmac_sha256 (repeat "a"%byte 64) (bs "text")) = 0xca0bbc7dfa99fa4fb6d2071aebe288238850d1d8f6606ee72efc4cb71b9d00b3%N /\
  be_num (hmac_sha256 (repeat "a"%byte 65) (bs "text")) = 0xad4b1ec8eea6b7e9e247eefa90554f50be022adad79b0a68008e84589528a691%N /\
  be_num (scrypt 1 2 1 (repeat "a"%byte 65) (bs "salt") 32) = 0xf14fa649fc39b27cf7e3276db8a2916773f33f46d1cc6b57b35ebd5d72b2d83a%N.
Proof. vm_compute. split; [reflexivity|split; reflexivity]. Qed.
