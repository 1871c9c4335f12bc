(** The unit tests of the repository, run on the model with the written-out primitives.

    The tests call scrypt with parameters (15, 8, 1), which the kernel cannot evaluate in reasonable
    time. The seven values needed are in a table (computed with an independent implementation); for all
    other inputs the primitive is the written-out one. *)
From stdpp Require Import gmap.
From Verif Require Import M_Base M_Codec M_Base64 M_Utf8 M_Prims M_Types M_Crypto M_Recovery M_Json M_Serde M_Storage
  M_Passwords M_History M_Concrete S_Vault S_Api S_History P_Base P_Concrete T_History.

Definition scrypt_values : list (bytes * bytes * bytes) :=
  [([x66; x6f; x6f; x62; x61; x72],
    [x63; x62; x61],
    [x9b; x4f; x2d; x17; x37; xb6; xc2; x57; xf7; x50; x49; x51; x8c; x84; x49; x87; xb5; xde; x40; x1b; x3a; x87; x04; x8b; x26; x2d; x9b; x40; xae; xf8; xb0; xe2]);
   ([x61; x73; x64; x66; x79; x78; x63; x76],
    [x63; x62; x61],
    [x08; x90; xcf; xe0; x27; xb6; xa5; x1b; x11; xa2; x58; x98; x23; x62; x09; xf7; xc0; x92; xab; x1d; xfc; xf9; xc8; x60; x7c; xc6; x28; xd3; x96; xa0; x51; x51]);
   ([x66; x6f; x6f; x62; x61; x72],
    [x61; x62; x63; x64; x65; x66; x67; x68; x69; x6a; x6b; x6c; x6d; x6e; x6f; x70],
    [x2e; x0b; x2f; xdb; xc5; x34; x4b; x4d; xcb; xed; x97; xd9; x68; x40; xf4; x7d; xea; xe2; xdc; xf0; xd7; x8c; xc3; x22; x7a; x42; x17; xf5; xf7; x92; x85; xef]);
   ([x77; x72; x6f; x6e; x67],
    [x61; x62; x63; x64; x65; x66; x67; x68; x69; x6a; x6b; x6c; x6d; x6e; x6f; x70],
    [x83; xd4; x21; x89; x7a; x86; x61; xe6; xb5; xf2; x1f; x90; xdb; x3b; x5e; x5b; x90; xb0; x04; x38; x35; x9c; x11; xa1; x23; x0b; x1e; xf3; x39; xff; xa0; xd5]);
   ([x66; x6f; x6f; x62; x61; x72],
    [x65; x78; x61; x6d; x70; x6c; x65; x2e; x63; x6f; x6d; x00; x62; x6c; x75; x62; x62; x65; x72],
    [x78; x28; x6c; x1f; x5a; x0b; x8c; x8b; x43; xaf; x6a; xfa; xa2; xa6; x60; x1e]);
   ([x66; x6f; x6f; x62; x61; x72],
    [x65; x78; x61; x6d; x70; x6c; x65; x2e; x69; x6e; x66; x6f; x00; x74; x65; x73; x74; x00; x79; x65; x74; x20; x61; x6e; x6f; x74; x68; x65; x72],
    [xa9; x65; xe9; x05; xce; x2c; x81; x4a]);
   ([x66; x6f; x6f; x62; x61; x72],
    [xc3; x94; xc2; xa7; x25; xc2; x9d; xc2; x86; x01; x40; xc2; x92; xc3; xa5; xc3; x89; x03; xc3; x97; xc3; xbf; xc3; x90; x21; x4a],
    [x12; xc0; x93; x4b; xeb; xe4; x2c; xe0; x18; x45; xc2; x0d; x58; x9c; x48; x77; xcb; x04; xb6; x9c; x2a; xc9; x4d; xd7; x88; x9c; x50; xc5; xb7; x08; x63; xdf])].

Definition tabled_scrypt (p s : bytes) (n : nat) : bytes :=
  match find (fun '(p', s', v) => bytes_eqb p p' && bytes_eqb s s' && (length v =? n)) scrypt_values with
  | Some (_, _, v) => v
  | None => scrypt 15 8 1 p s n
  end.

Lemma tabled_scrypt_length p s n : length (tabled_scrypt p s n) = n.
Proof.
  unfold tabled_scrypt. destruct (find _ _) as [[[p' s'] v]|] eqn:E; [|apply scrypt_length].
  apply find_some in E. destruct E as [_ E]. apply andb_true_iff in E. apply Nat.eqb_eq, E.
Qed.

(** crypto.rs:102-105: in the tests the random generator counts up from 97, starting anew for every
    value. *)
Definition test_random (i n : nat) : bytes := map (fun j => u8 (97 + N.of_nat j)) (seq 0 n).

Definition test_environment : environment :=
  mk_environment false test_random (fun _ m => (map_to_list m).*1) (fun _ => WriteOk).

(** storage.rs:325-326 *)
Definition HMAC_SECRET : bytes := Eval vm_compute in bs "abc".
Definition ENCRYPTION_KEY : bytes := Eval vm_compute in bs "abcdefghijklmnopqrstuvwxyz123456".
(** passwords.rs:497: the key derived from the primary password [foobar] *)
Definition FOOBAR_KEY : bytes := Eval vm_compute in tabled_scrypt (bs "foobar") (bs "cba") 32.

(** storage.rs:336-347 [empty_data] *)
Definition storage_empty : list (bytes * bytes) := Eval vm_compute in
  [(bs "salt",
    bs "Y2Jh");
   (bs "hmac-secret",
    bs "YWJjZGVmZ2hpamts_IjTSu0kFnBz6wSrzs73IKmBRi8zn9w==")].

(** storage.rs:349-380 [default_data] *)
Definition storage_data : list (bytes * bytes) := Eval vm_compute in
  [(bs "salt",
    bs "Y2Jh");
   (bs "hmac-secret",
    bs "YWJjZGVmZ2hpamts_IjTSu0kFnBz6wSrzs73IKmBRi8zn9w==");
   (bs "site:fRTOldDD+lTwIBS8G+eUkrIzvNsfdGRSWQXrXqszDHM=",
    bs "YWJjZGVmZ2hpamts_e0/2mFdCrXFftagc/uRqX1zVWlVX2CndVHow98vMbf1CEoCMinc=");
   (bs "site:fRTOldDD+lTwIBS8G+eUkrIzvNsfdGRSWQXrXqszDHM=:/uudghlPp4TDZPtfZFPj6nJs/zMDAE2AqVfz6Hu8N9I=",
    bs "YWJjZGVmZ2hpamts_e0/xiFNCrXFft7UT9uZnThfSBxpZh7InA7TxwRchhB8xNUCP8AQBt60o0dplkj0d85WabgV46VFsKYTYFREBpwu0V2UXOYtfLQs57L0+RhGX8DLb6mfNMvwdeQ6tYPZdSNhdrqVOBlYbdeOA1HTq+OcNoPb4MDZ+TJeVX2kK+88Hj0mn4QSrloOrHS7WRBuHsAJM4DOPrxOLF00=");
   (bs "site:fRTOldDD+lTwIBS8G+eUkrIzvNsfdGRSWQXrXqszDHM=:h2pnx6RFyNbAUBLcuQYz9w79/vnf4fgJlY/c+EP44d8=",
    bs "YWJjZGVmZ2hpamts_e0/xiFNCrXFfo6QS4fFiGF6URlEBwON0VbSrmlg0kBtyJkOH/EtMtO5plpY+3TpTqNWaZwI4pxZsbt6TFB0YoFrnGjkXL4sNYFom/rwrVluP6GKeoiODcakWZFjyZ6YSD5wW+6FWBlZcbrWPk+fjsf0XL5/BV5QzwcVsSA==");
   (bs "site:Gd2Cx/SbNs6BWf2KlmHZrOY7SNi5GnjBLG58eJdgqdc=",
    bs "YWJjZGVmZ2hpamts_e0/2mFdCrXFftagc/uRqX1zfW14ah7y+PC4vvSZR2oUnodSsOmi/");
   (bs "site:Gd2Cx/SbNs6BWf2KlmHZrOY7SNi5GnjBLG58eJdgqdc=:BSjLwWY3MLEPQdG1f/jwKOtJRKCxwXpRH5qkMrUnVsI=",
    bs "YWJjZGVmZ2hpamts_e0/xiFNCrXFft7UT9uZnThfSBxpZh7InA7TxwRchhB8xNUCP8A4AvOAm35ZqnjVa643adhVp/xYyKdqfER0EpxezGjEXeswJIUg75qcxVwuX5iGBoyvGKeNaMRS7NuhHWpEN+e9KEVFcY7WH0WGjqKtCq/XxMXFoGouVVydN+pRQmVS+phL9l4+jAu/UlX6+yWgvwY0cwJrMJPhEFv7deuVtWnHNzEuJ22zSEY0cYQ9Q6M7GC7W4pP5Uiww=");
   (bs "site:5IS/IdH3aaMwyzRv0fwy+2oh5OsXZ2emV8991dFWrko=",
    bs "YWJjZGVmZ2hpamts_e0/2mFdCrXFftagc/uRqX1zZR19XieMvG7iyiBd+3hskJEGasgJAueBp0cngww8j0ruPmOiqFSkDcdc0")].

(** passwords.rs:480-491 [empty_data] *)
Definition passwords_empty : list (bytes * bytes) := Eval vm_compute in
  [(bs "salt",
    bs "Y2Jh");
   (bs "hmac-secret",
    bs "YWJjZGVmZ2hpamts_Nosk0g9vPYtLPn9QzyFXLQ/1ZuAHVw==")].

(** passwords.rs:493-524 [default_data] *)
Definition passwords_data : list (bytes * bytes) := Eval vm_compute in
  [(bs "salt",
    bs "Y2Jh");
   (bs "hmac-secret",
    bs "YWJjZGVmZ2hpamts_Nosk0g9vPYtLPn9QzyFXLQ/1ZuAHVw==");
   (bs "site:fRTOldDD+lTwIBS8G+eUkrIzvNsfdGRSWQXrXqszDHM=",
    bs "YWJjZGVmZ2hpamts_b/AA8REorsFjuwlGDYB+KVw/fqoHPv2Ehc7sBIYqhR+ygcsd/t4=");
   (bs "site:fRTOldDD+lTwIBS8G+eUkrIzvNsfdGRSWQXrXqszDHM=:/uudghlPp4TDZPtfZFPj6nJs/zMDAE2AqVfz6Hu8N9I=",
    bs "YWJjZGVmZ2hpamts_b/AH4RUorsFjuRRJBYJzOBc4I+UJYXWhqhFXbEC9Aw5pRRO/Q31d6d/+RQhdj8wH0SWpEXk/ZkVXSAjSqpbqKsEek2JzzOetQNutMR4tblZGzTsPxWZogaKazYGFvg+J43L9ugBf7PjDfk+Rx3QbGdWaScEdCdciXlv6z/drMjyK0b8+kKgrdjdaIT7NuJwpEiZxzMngRiqPqZI=");
   (bs "site:fRTOldDD+lTwIBS8G+eUkrIzvNsfdGRSWQXrXqszDHM=:h2pnx6RFyNbAUBLcuQYz9w79/vnf4fgJlY/c+EP44d8=",
    bs "YWJjZGVmZ2hpamts_b/AH4RUorsFjrQVIEpV2bl5+Yq5RJiTy/BENNw+oFwoqVhC3TzIQ6py/AkQGwMtJimWpGH5/KAJXD1KZq5rzLZBN3j5z2uf/DYqyIx84fhxe1WtKjSImwveR0NfauV/GpDa27wRH7PiEZRmeoJNQ8MV3Bopr61xNEWK0ew==");
   (bs "site:Gd2Cx/SbNs6BWf2KlmHZrOY7SNi5GnjBLG58eJdgqdc=",
    bs "YWJjZGVmZ2hpamts_b/AA8REorsFjuwlGDYB+KVw1f6FKYXsPR37ZtYXddpCecTwncBIM");
   (bs "site:Gd2Cx/SbNs6BWf2KlmHZrOY7SNi5GnjBLG58eJdgqdc=:BSjLwWY3MLEPQdG1f/jwKOtJRKCxwXpRH5qkMrUnVsI=",
    bs "YWJjZGVmZ2hpamts_b/AH4RUorsFjuRRJBYJzOBc4I+UJYXWhqhFXbEC9Aw5pRRO/Q3dc4pLwS0RSg8RAyT3pCWkucAIJSFaVrprvKt0Z3jZzj6D7TJivOwQif0xG2yhVjCpjmr3dhZuT6BGT8Tut7Upb+/+EaBmWwmFSSZnVQsIUCJA0CEf6x7ksM2fdx6In1759dztSPv4LAx+oMQrVG2lMD14TzIctWTOQysV+9JdUWXZRkyZDOtnHHTfVanjSaON/wEY2P5w=");
   (bs "site:5IS/IdH3aaMwyzRv0fwy+2oh5OsXZ2emV8991dFWrko=",
    bs "YWJjZGVmZ2hpamts_b/AA8REorsFjuwlGDYB+KVwzY6AHbySpsh0UJUDiWQp8VBKqAXsc55K/RRsY3NAIQzDdtK+4TrjLOu3X")].

(** The same functions, with arguments and results in normal form when the kernel evaluates them,
    and with the values that occur often in tables (checked below). *)
Definition forced_hmac (k m : bytes) : bytes :=
  force_bytes k (fun k' => force_bytes m (fun m' => force_bytes (hmac_sha256 k' m') (fun h => h))).
Definition forced_seal (k n m : bytes) : bytes :=
  force_bytes k (fun k' => force_bytes n (fun n' => force_bytes m (fun m' =>
  force_bytes (gcm_seal k' n' m') (fun c => c)))).
Definition forced_open (k n c : bytes) : option bytes :=
  force_bytes k (fun k' => force_bytes n (fun n' => force_bytes c (fun c' =>
  force_option (gcm_open k' n' c') (fun o => o)))).

Definition RANDOM_SECRET : bytes := Eval vm_compute in test_random 0 32.
Definition known_hmacs : list (bytes * bytes * bytes) := Eval vm_compute in
  map (fun '(k, m) => (k, m, hmac_sha256 k m))
    (map (pair HMAC_SECRET)
      [bs "example.com"; bs "example.info"; bs "example.org"; bs "example.net"; bs "www2.example.com";
       id_string (bs "example.com") (bs "blubber") []; id_string (bs "example.com") (bs "blabber") (bs "2");
       id_string (bs "example.org") (bs "blubber") []; id_string (bs "example.org") (bs "blabber") (bs "2");
       id_string (bs "example.info") (bs "test") (bs "yet another"); id_string (bs "example.info") (bs "blubber") []] ++
     map (pair RANDOM_SECRET)
      [bs "example.com"; bs "example.org";
       id_string (bs "example.com") (bs "blubber") []; id_string (bs "example.com") (bs "blabber") (bs "2");
       id_string (bs "example.org") (bs "blubber") []; id_string (bs "example.org") (bs "blabber") (bs "2")]).

Definition test_nonce : bytes := Eval vm_compute in bs "abcdefghijkl".
Definition opened (key : bytes) (l : list (bytes * bytes)) : list (bytes * bytes * bytes) :=
  flat_map (fun '(_, v) => match split_once "_"%byte v with
                           | Some (_, c) => match b64_decode c with
                                            | Some c' => match gcm_open key test_nonce c' with
                                                         | Some m => [(key, m, c')]
                                                         | None => []
                                                         end
                                            | None => []
                                            end
                           | None => []
                           end) l.
Definition known_sealed : list (bytes * bytes * bytes) := Eval vm_compute in
  opened ENCRYPTION_KEY storage_data ++ opened FOOBAR_KEY passwords_data.

Definition tabled_hmac (k m : bytes) : bytes :=
  match find (fun '(k', m', _) => bytes_eqb k k' && bytes_eqb m m') known_hmacs with
  | Some (_, _, h) => h
  | None => forced_hmac k m
  end.
Definition tabled_seal (k n m : bytes) : bytes :=
  match find (fun '(k', m', _) => bytes_eqb n test_nonce && bytes_eqb k k' && bytes_eqb m m') known_sealed with
  | Some (_, _, c) => c
  | None => forced_seal k n m
  end.
Definition tabled_open (k n c : bytes) : option bytes :=
  match find (fun '(k', _, c') => bytes_eqb n test_nonce && bytes_eqb k k' && bytes_eqb c c') known_sealed with
  | Some (_, m, _) => Some m
  | None => forced_open k n c
  end.

(** The tables are right. *)
Lemma known_hmacs_ok : forallb (fun '(k, m, h) => bytes_eqb (hmac_sha256 k m) h) known_hmacs = true.
Proof. vm_compute. reflexivity. Qed.
Lemma known_sealed_ok : forallb (fun '(k, m, c) => bytes_eqb (gcm_seal k test_nonce m) c) known_sealed = true.
Proof. vm_compute. reflexivity. Qed.
Lemma known_sealed_length : length known_sealed = 14.
Proof. reflexivity. Qed.

Lemma tabled_hmac_eq k m : tabled_hmac k m = hmac_sha256 k m.
Proof.
  unfold tabled_hmac. destruct (find _ _) as [[[k' m'] h]|] eqn:E.
  - apply find_some in E. destruct E as [Hin E]. apply andb_true_iff in E. destruct E as [Ek Em].
    apply bytes_eqb_eq in Ek, Em. subst. pose proof known_hmacs_ok as H. rewrite forallb_forall in H.
    specialize (H _ Hin). cbn beta iota in H. apply bytes_eqb_eq in H. symmetry. exact H.
  - unfold forced_hmac. rewrite !force_bytes_eq. reflexivity.
Qed.
Lemma tabled_seal_eq k n m : tabled_seal k n m = gcm_seal k n m.
Proof.
  unfold tabled_seal. destruct (find _ _) as [[[k' m'] c]|] eqn:E.
  - apply find_some in E. destruct E as [Hin E]. rewrite !andb_true_iff in E. destruct E as [[En Ek] Em].
    apply bytes_eqb_eq in En, Ek, Em. subst. pose proof known_sealed_ok as H. rewrite forallb_forall in H.
    specialize (H _ Hin). cbn beta iota in H. apply bytes_eqb_eq in H. symmetry. exact H.
  - unfold forced_seal. rewrite !force_bytes_eq. reflexivity.
Qed.
Lemma tabled_open_eq k n c : tabled_open k n c = gcm_open k n c.
Proof.
  unfold tabled_open. destruct (find _ _) as [[[k' m'] c']|] eqn:E.
  - apply find_some in E. destruct E as [Hin E]. rewrite !andb_true_iff in E. destruct E as [[En Ek] Em].
    apply bytes_eqb_eq in En, Ek, Em. subst. pose proof known_sealed_ok as H. rewrite forallb_forall in H.
    specialize (H _ Hin). cbn beta iota in H. apply bytes_eqb_eq in H. rewrite <- H. symmetry. apply gcm_open_seal.
  - unfold forced_open. rewrite !force_bytes_eq, force_option_eq. reflexivity.
Qed.

Definition tests : prims :=
  mk_prims false tabled_hmac tabled_seal tabled_open tabled_scrypt test_random
           (fun _ m => (map_to_list m).*1) wildmatch (fun _ => WriteOk) (fun _ => true).

Lemma test_environment_ok : environment_ok test_environment.
Proof.
  split; cbn; [|reflexivity]. intros i n. unfold test_random. rewrite map_length. apply seq_length.
Qed.

Lemma tests_ok : prims_ok tests.
Proof.
  pose proof (with_scrypt_ok tabled_scrypt test_environment test_environment_ok tabled_scrypt_length) as [H1 H2 H3 H4 H5 H6 H7].
  split; cbn in *; intros; rewrite ?tabled_hmac_eq, ?tabled_seal_eq, ?tabled_open_eq in *; eauto.
Qed.

Definition of_pairs (l : list (bytes * bytes)) : st := mk_st (list_to_map l) None None None None 0 0 0.

(** Sorted, as [assert_eq!] compares hash maps. *)
Definition same_entries (d : kvmap) (l : list (bytes * bytes)) : bool :=
  (length (map_to_list d) =? length l) &&
  forallb (fun '(k, v) => match d !! k with Some v' => bytes_eqb v' v | None => false end) l.

(** ** crypto.rs:226-287 *)

Definition hex (n : nat) (x : N) : bytes := be_bytes n x.

Example test_base32_encode :
  base32_encode (hex 5 0) = Ok (bs "AAAAAAAA") /\
  base32_encode (hex 5 0x0842108421) = Ok (bs "BBBBBBBB") /\
  base32_encode (hex 5 0xffffffffff) = Ok (bs "99999999") /\
  base32_encode (hex 10 0x0000000000ffffffffff) = Ok (bs "AAAAAAAA99999999") /\
  base32_encode (hex 20 0x00443214c74254b635cf84653a56d7c675be77df) = Ok (bs "ABCDEFGHJKLMNPQRSTUVWXYZ23456789").
Proof. vm_compute. repeat split; reflexivity. Qed.

Example test_base32_decode :
  base32_decode (bs "AAAAAAAA") = Ok (hex 5 0) /\
  base32_decode (bs "BBBBBBBB") = Ok (hex 5 0x0842108421) /\
  base32_decode (bs "99999999") = Ok (hex 5 0xffffffffff) /\
  base32_decode (bs "AAAAAAAA99999999") = Ok (hex 10 0x0000000000ffffffffff) /\
  base32_decode (bs "ABCDEFGHJKLMNPQRSTUVWXYZ23456789") = Ok (hex 20 0x00443214c74254b635cf84653a56d7c675be77df).
Proof. vm_compute. repeat split; reflexivity. Qed.

Example test_pearson_hash :
  pearson_hash [] x00 = x61 /\ pearson_hash [] x61 = x54 /\ pearson_hash [] x54 = x9d /\
  pearson_hash [] x9d = xc8 /\ pearson_hash [] xc8 = x39 /\
  pearson_hash [b_xor x61 x54; b_xor x9d xc8] x00 = x39 /\ pearson_hash (bs "0123456789") x7b = x2b.
Proof. vm_compute. repeat split; reflexivity. Qed.

(** ** storage.rs:400-960 *)

Section storage_tests.
Let key := ENCRYPTION_KEY.
Let secret := HMAC_SECRET.
Let empty := s_data (of_pairs storage_empty).
Let full := s_data (of_pairs storage_data).
Let com := bs "example.com".
Let info := bs "example.info".
Let org := bs "example.org".
Let net := bs "example.net".
Let all := mk_charset true true true true.

Let blubber := Generated (mk_generated (mk_id com (bs "blubber") []) 16 all []).
Let blabber := Stored (mk_stored (mk_id com (bs "blabber") (bs "2")) (bs "asdf") (bs "hi there!")).
Let test := Generated (mk_generated (mk_id info (bs "test") (bs "yet another")) 8 (mk_charset true false true false) (bs "nothing here")).

Example read_empty_data :
  get_salt ∅ = Err StorageNotInitialized /\ get_hmac_secret tests ∅ key = Err StorageNotInitialized.
Proof. split; reflexivity. Qed.

Example read_missing :
  get_hmac_secret tests (list_to_map [(bs "salt", bs "asdf")]) key = Err StorageNotInitialized /\
  get_salt (list_to_map [(bs "hmac-secret", bs "fdsa")]) = Err StorageNotInitialized.
Proof. vm_compute. split; reflexivity. Qed.

Example read_success :
  storage_initialized full = true /\ get_salt full = Ok (bs "cba") /\ get_hmac_secret tests full key = Ok secret.
Proof. vm_compute. repeat split; reflexivity. Qed.

Example clear_uninitialized :
  let '(r, s) := storage_clear tests (bs "cba") secret key (of_pairs []) in
  r = Ok tt /\ storage_initialized (s_data s) = true /\ storage_list_sites tests s key = Ok [] /\
  same_entries (s_data s) storage_empty = true.
Proof. vm_compute. repeat split; reflexivity. Qed.

Example clear_initialized :
  let '(r, s) := storage_clear tests (bs "cba") secret key (of_pairs storage_data) in
  r = Ok tt /\ storage_initialized (s_data s) = true /\ storage_list_sites tests s key = Ok [] /\
  same_entries (s_data s) storage_empty = true.
Proof. vm_compute. repeat split; reflexivity. Qed.

Example list_empty :
  storage_list_sites tests (of_pairs storage_empty) key = Ok [] /\
  list_passwords tests (of_pairs storage_empty) com secret key = Ok [].
Proof. vm_compute. split; reflexivity. Qed.

Example list_non_empty :
  storage_list_sites tests (of_pairs storage_data) key =
    Ok [mk_site com None; mk_site info None; mk_site org (Some com)] /\
  list_passwords tests (of_pairs storage_data) com secret key = Ok [blubber; blabber] /\
  list_passwords tests (of_pairs storage_data) info secret key = Ok [test] /\
  list_passwords tests (of_pairs storage_data) org secret key = Ok [] /\
  list_passwords tests (of_pairs storage_data) net secret key = Ok [].
Proof. vm_compute. repeat split; reflexivity. Qed.

Example get_password_test :
  get_site tests full com secret key = Ok (mk_site com None) /\
  get_site tests full info secret key = Ok (mk_site info None) /\
  get_site tests full org secret key = Ok (mk_site org (Some com)) /\
  get_site tests full net secret key = Err KeyMissing /\
  has_password tests full (password_id_new com (bs "blabber") (bs "2")) secret = true /\
  get_password tests full (password_id_new com (bs "blabber") (bs "2")) secret key = Ok blabber /\
  has_password tests full (password_id_new com (bs "blubber") []) secret = true /\
  get_password tests full (password_id_new com (bs "blubber") []) secret key = Ok blubber /\
  has_password tests full (password_id_new info (bs "test") (bs "yet another")) secret = true /\
  get_password tests full (password_id_new info (bs "test") (bs "yet another")) secret key = Ok test /\
  has_password tests full (password_id_new org (bs "blubber") []) secret = false /\
  get_password tests full (password_id_new org (bs "blubber") []) secret key = Err KeyMissing.
Proof. vm_compute. repeat split; reflexivity. Qed.

Example get_alias_test :
  storage_get_alias tests full com secret key = Err NoSuchAlias /\
  storage_get_alias tests full org secret key = Ok com.
Proof. vm_compute. split; reflexivity. Qed.

Example resolve_site_test :
  normalize_site com = com /\ resolve_site tests full com secret key = Ok com /\
  normalize_site (bs "www.example.com") = com /\
  resolve_site tests full (bs "www.example.com") secret key = Ok com /\
  normalize_site (bs "www2.example.com") = bs "www2.example.com" /\
  resolve_site tests full (bs "www2.example.com") secret key = Ok (bs "www2.example.com") /\
  normalize_site (bs "www.example.net") = net /\
  resolve_site tests full (bs "www.example.net") secret key = Ok net /\
  normalize_site org = org /\ resolve_site tests full org secret key = Ok com /\
  normalize_site (bs "www.example.org") = org /\
  resolve_site tests full (bs "www.example.org") secret key = Ok com.
Proof. vm_compute. repeat split; reflexivity. Qed.

(** The passwords of the test are given as JSON there; the notes set first are replaced. *)
Example add_passwords :
  let steps :=
    let! _ := ensure_site_data tests com secret key in
    let! _ := ensure_site_data tests com secret key in
    let! _ := set_password tests (pass_set_notes blubber (bs "whatever")) secret key in
    let! p := reads (fun s => get_password tests (s_data s) (password_id_new com (bs "blubber") []) secret key) in
    let! _ := set_password tests (pass_set_notes p []) secret key in
    let! _ := set_password tests (pass_set_notes blabber (bs "hi!")) secret key in
    let! p := reads (fun s => get_password tests (s_data s) (password_id_new com (bs "blabber") (bs "2")) secret key) in
    let! _ := set_password tests (pass_set_notes p (bs "hi there!")) secret key in
    let! _ := ensure_site_data tests info secret key in
    let! _ := ensure_site_data tests info secret key in
    let! _ := set_password tests (pass_set_notes test []) secret key in
    let! p := reads (fun s => get_password tests (s_data s) (password_id_new info (bs "test") (bs "yet another")) secret key) in
    set_password tests (pass_set_notes p (bs "nothing here")) secret key in
  let '(r, s) := steps (of_pairs storage_empty) in
  r = Ok tt /\ fst (storage_set_alias tests com com secret key s) = Err AliasToSelf /\
  let '(r', s') := (let! _ := storage_set_alias tests org com secret key in ensure_site_data tests org secret key) s in
  r' = Ok tt /\ same_entries (s_data s') storage_data = true.
Proof. vm_compute. repeat split; reflexivity. Qed.

Example remove_passwords :
  let s := of_pairs storage_data in
  fst (storage_remove_alias tests com secret key s) = Err NoSuchAlias /\
  fst (storage_remove_alias tests net secret key s) = Err NoSuchAlias /\
  fst (remove_password tests (password_id_new info (bs "blubber") []) secret s) = Err KeyMissing /\
  let '(r, s') :=
    (let! _ := remove_password tests (password_id_new com (bs "blubber") []) secret in
     let! _ := remove_password tests (password_id_new com (bs "blabber") (bs "2")) secret in
     let! _ := remove_password tests (password_id_new info (bs "test") (bs "yet another")) secret in
     let! _ := storage_remove_alias tests org secret key in
     let! _ := storage_remove_site tests com secret in
     storage_remove_site tests info secret) s in
  r = Ok tt /\ same_entries (s_data s') storage_empty = true.
Proof. vm_compute. repeat split; reflexivity. Qed.
End storage_tests.

(** ** recovery_codes.rs:277-457 *)

Definition lines (l : list bytes) : bytes := concat (map (fun x => x ++ [x0a]) l).

Example formatting :
  format_code (bs "+.-abcdEFG%&/HJKLMNPQRSTUvWXYZ<>!") true = bs "ABCD-EFGH-JKLM:NPQR-STUV-WXYZ" /\
  format_code (bs "+.-abcdEFG%&/HJKLMNPQRSTUvWXYZ<>!") false = bs "ABCDEFGHJKLMNPQRSTUVWXYZ" /\
  format_code (bs "ABCDEFGHJKLMNPQRSTUVWXYZ23456789") true =
    bs "ABCD-EFGH-JKLM:NPQR-STUV-WXYZ" ++ [x0a] ++ bs "2345-6789" /\
  format_code (bs "ABCDEFGHJKLMNPQRSTUVWXYZ23456789ABCD") true =
    bs "ABCD-EFGH-JKLM:NPQR-STUV-WXYZ" ++ [x0a] ++ bs "2345-6789-ABCD" /\
  format_code (bs "ABCDEFGHJKLMNPQRSTUVWXYZ23456789ABCDEFGHJKLMNPQR") true =
    bs "ABCD-EFGH-JKLM:NPQR-STUV-WXYZ" ++ [x0a] ++ bs "2345-6789-ABCD:EFGH-JKLM-NPQR".
Proof. vm_compute. repeat split; reflexivity. Qed.

(** Line ends as in the tests, the last line without. *)
Definition code_lines (l : list bytes) : bytes := join [x0a] l.

Example generation :
  generate tests 0 (bs "asdf") (bs "abcdefghijklmnop") ENCRYPTION_KEY =
    Ok (code_lines [bs "AFSY-E25E-NXVG:Q4DK-PKXY-25KP"; bs "P3ZZ-A2MC-NPUG:L3VH-PBWY-W48F";
                    bs "PTST-72NZ-ENV2:8U57-4DJQ-XDFB"; bs "GK6N-MXKF-GTMT:MKLU-CNZE-ES85"]) /\
  generate tests 0 (bs "01234567890") (bs "abcdefghijklmnop") ENCRYPTION_KEY =
    Ok (code_lines [bs "AFSY-E25E-NXVG:Q4DK-PKXY-25KP"; bs "P3ZZ-A2MC-NPUG:L3VH-PBWY-W48F";
                    bs "PS2F-3P8C-C6KM:U9CF-7HSN-A9HG"; bs "8WLJ-UJFY-QF3W:36EF-7TP2-H6RP"]) /\
  generate tests 0 (bs "012345678901") (bs "abcdefghijklmnop") ENCRYPTION_KEY =
    Ok (code_lines [bs "AFSY-E25E-NXVG:Q4DK-PKXY-25KP"; bs "P3ZZ-A2MC-NPUG:L3VH-PBWY-W48F";
                    bs "PS2F-3P8C-C6KM:U9CF-7HSE-3E5P"; bs "USDD-W6XY-GW6H:MKQB-K35Z-ULUW";
                    bs "W6KA-BV2P-W3TG:TUUJ-NJDD-R6KX"]).
Proof. vm_compute. repeat split; reflexivity. Qed.

Example recovery :
  let l1 := bs "                    AHLL-QKN7-S2AW:BEZF-3EB7-R923" in
  let l2 := bs "                    4ASW-WSGA-2YMR:TMB7-5WZ5-MRZJ" in
  let l3 := bs "                    2VCY-FK9C-5BUX:NH86-RDC6-QYMY" in
  let l4 := bs "                    ELVM-RQ44-VB8T:VGPW-AW6K-DUQD" in
  let decoding l := decode tests (lines ([] :: l) ++ bs "                ") (bs "foobar") in
  decoding [l1; l2; l3; l4] = Ok (bs "asdf") /\
  decoding [bs "  ahll-QKN7-S2AW:BEZF-3EB7-R923+4ASW"; bs "  WSGA-2YMRTMB7-5WZ5-MRZJ"; l3;
            bs "  ELVM-RQ44-vb8t:VGPW-AW6K-DUQD"] = Ok (bs "asdf") /\
  decoding [l1; l3; l2; l4] = Err (RecoveryCodeChecksumMismatch 1) /\
  decoding [l1; l2; bs "  2VCY-YK9C-5BUX:NH86-RDC6-QYMY"; l4] = Err (RecoveryCodeChecksumMismatch 2) /\
  decoding [l1; l2; l3; l4; l4] = Err (RecoveryCodeExtraData 4) /\
  decoding [l1; l2; l3; bs "  ELVM-RQ44-VB8T:"] = Err RecoveryCodeIncomplete /\
  decoding [l1; l2; l3; bs "  ELVM-RQ44-"] = Err RecoveryCodeIncomplete /\
  decoding [l1; l2; l3] = Err RecoveryCodeIncomplete.
Proof. vm_compute. repeat split; reflexivity. Qed.

(** ** passwords.rs:466-1290 *)

(** The names in a listing, in the order of the map. *)
Definition shown (o : out) : option (list bytes) :=
  match o with
  | OPasswords l => Some (map (fun x => pid_name (fst x)) l)
  | OSites l => Some (map fst l)
  | _ => None
  end.

Section passwords_tests.
Let foobar := bs "foobar".
Let com := bs "example.com".
Let info := bs "example.info".
Let org := bs "example.org".
Let net := bs "example.net".
Let wcom := bs "www.example.com".
Let winfo := bs "www.example.info".
Let worg := bs "www.example.org".
Let blubber := bs "blubber".
Let blabber := bs "blabber".
Let test := bs "test".
Let two := bs "2".
Let yet := bs "yet another".
Let all := mk_charset true true true true.

Example initialization_test :
  outs tests [Initialized; Unlocked] (of_pairs []) = [OBool false; OBool false] /\
  outs tests [Initialized; Unlocked] (of_pairs passwords_empty) = [OBool true; OBool false] /\
  outs tests [Unlock (bs "asdfyxcv"); Unlock foobar] (of_pairs passwords_data) = [OErr DecryptionFailure; ODone].
Proof. vm_compute. repeat split; reflexivity. Qed.

Let after_reset (s : st) : Prop :=
  get_salt (s_data s) = Ok (bs "abcdefghijklmnop") /\
  s_hmac s = Some (bs "abcdefghijklmnopqrstuvwxyz{|}~" ++ [x7f; x80]) /\ s_primary s = Some foobar.

Example reset_uninitialized :
  outs tests [Initialized; Reset foobar; Initialized; Unlocked; ListSites (bs "*"); Lock; Unlock foobar] (of_pairs []) =
    [OBool false; ODone; OBool true; OBool true; OSites []; ODone; ODone] /\
  final tests [Reset foobar] (of_pairs []) after_reset /\
  final tests [Reset foobar; Lock; Unlock foobar] (of_pairs []) after_reset.
Proof. vm_compute. repeat split; reflexivity. Qed.

Example reset_initialized :
  outs tests [Reset foobar; Initialized; Unlocked; ListSites (bs "*"); Lock; Unlock foobar] (of_pairs passwords_data) =
    [ODone; OBool true; OBool true; OSites []; ODone; ODone] /\
  final tests [Reset foobar] (of_pairs passwords_data) after_reset /\
  final tests [Reset foobar; Lock; Unlock foobar] (of_pairs passwords_data) after_reset.
Proof. vm_compute. repeat split; reflexivity. Qed.

Example list_sites_wildcards :
  map shown (outs tests
    [Unlock foobar; ListSites (bs "*"); ListSites (bs "ex*"); ListSites (bs "*.com"); ListSites (bs "*am*i*");
     ListSites info; ListSites net; ListSites (bs "blub*")] (of_pairs passwords_data)) =
  [None; Some [com; info; org]; Some [com; info; org]; Some [com; org]; Some [info]; Some [info]; Some []; Some []].
Proof. vm_compute. reflexivity. Qed.

Example list_passwords_wildcards :
  map shown (outs tests
    [Unlock foobar;
     ListPasswords com (bs "*"); ListPasswords wcom (bs "*"); ListPasswords org (bs "*"); ListPasswords worg (bs "*");
     ListPasswords info (bs "*"); ListPasswords winfo (bs "*"); ListPasswords com (bs "b*"); ListPasswords wcom (bs "b*");
     ListPasswords org (bs "b*"); ListPasswords worg (bs "b*"); ListPasswords info (bs "b*"); ListPasswords winfo (bs "b*");
     ListPasswords com (bs "blu*"); ListPasswords wcom (bs "blu*"); ListPasswords org (bs "blu*"); ListPasswords worg (bs "blu*");
     ListPasswords info (bs "blu*"); ListPasswords winfo (bs "blu*"); ListPasswords com (bs "*a*"); ListPasswords wcom (bs "*a*");
     ListPasswords org (bs "*a*"); ListPasswords worg (bs "*a*"); ListPasswords info (bs "t*t"); ListPasswords winfo (bs "t*t")] (of_pairs passwords_data)) =
    [None;
     Some [blubber; blabber]; Some [blubber; blabber]; Some [blubber; blabber]; Some [blubber; blabber];
     Some [test]; Some [test]; Some [blubber; blabber]; Some [blubber; blabber];
     Some [blubber; blabber]; Some [blubber; blabber]; Some []; Some [];
     Some [blubber]; Some [blubber]; Some [blubber]; Some [blubber];
     Some []; Some []; Some [blabber]; Some [blabber];
     Some [blabber]; Some [blabber]; Some [test]; Some [test]].
Proof. vm_compute. reflexivity. Qed.

Example query_passwords :
  outs tests
    [Unlock foobar;
     Has com blubber []; Get com blubber []; Has wcom blubber []; Get wcom blubber [];
     Has org blubber []; Get org blubber []; Has worg blubber []; Get worg blubber [];
     Has com blabber two; Get com blabber two; Has wcom blabber two; Get wcom blabber two;
     Has org blabber two; Get org blabber two; Has worg blabber two; Get worg blabber two;
     Has info test yet; Get info test yet; Has winfo test yet; Get winfo test yet;
     Has info blubber []; Get info blubber []; Has winfo blubber []; Get winfo blubber []] (of_pairs passwords_data) =
  let v := bs "SUDJjn&%:nBe}cr8" in
  [ODone;
   OBool true; OText v; OBool true; OText v; OBool true; OText v; OBool true; OText v;
   OBool true; OText (bs "asdf"); OBool true; OText (bs "asdf"); OBool true; OText (bs "asdf"); OBool true; OText (bs "asdf");
   OBool true; OText (bs "rjtfxqf4"); OBool true; OText (bs "rjtfxqf4");
   OBool false; OErr KeyMissing; OBool false; OErr KeyMissing].
Proof. vm_compute. reflexivity. Qed.

Example addition_test :
  outs tests
    [Unlock foobar; GetAlias org; SetAlias worg org; SetAlias worg wcom; SetAlias wcom org; GetAlias org;
     SetGenerated com blubber [] 16 all; SetStored com blabber two (bs "asdf");
     SetGenerated info test yet 8 (mk_charset true false true false); SetAlias wcom info;
     Get com blubber []; Get org blubber []; Get wcom blabber two; Get worg blabber two;
     Get info test yet; Get info blubber []] (of_pairs passwords_empty) =
  let v := bs "SUDJjn&%:nBe}cr8" in
  [ODone; OErr NoSuchAlias; OErr AliasToSelf; ODone; OErr AliasToSelf; OText com;
   ODone; ODone; ODone; OErr SiteHasPasswords;
   OText v; OText v; OText (bs "asdf"); OText (bs "asdf"); OText (bs "rjtfxqf4"); OErr KeyMissing].
Proof. vm_compute. reflexivity. Qed.

Example notes_test :
  outs tests
    [Unlock foobar; GetNotes wcom blubber []; GetNotes wcom blabber two; GetNotes info test yet; GetNotes info blubber [];
     SetNotes com blubber [] (bs "hey!"); SetNotes com blabber two []; SetNotes winfo test yet (bs "something here");
     SetNotes info blubber [] [];
     GetNotes wcom blubber []; GetNotes wcom blabber two; GetNotes info test yet; GetNotes info blubber []]
    (of_pairs passwords_data) =
  [ODone; OText []; OText (bs "hi there!"); OText (bs "nothing here"); OErr KeyMissing;
   ODone; ODone; ODone; OErr KeyMissing;
   OText (bs "hey!"); OText []; OText (bs "something here"); OErr KeyMissing].
Proof. vm_compute. reflexivity. Qed.

Example removal_test :
  outs tests
    [Unlock foobar; RemoveAlias net; Remove worg blubber []; GetAlias org; RemoveAlias worg; GetAlias org;
     Remove org blabber two; Remove com blabber two; Remove info test yet; Remove info test yet;
     ListPasswords com (bs "*"); ListPasswords info (bs "*"); RemoveSites [com; info]; ListSites (bs "*")]
    (of_pairs passwords_data) =
  [ODone; OErr NoSuchAlias; ODone; OText com; ODone; OErr NoSuchAlias;
   OErr KeyMissing; ODone; ODone; OErr KeyMissing;
   OPasswords []; OPasswords []; ODone; OSites []].
Proof. vm_compute. reflexivity. Qed.
End passwords_tests.

(** ** The assumptions of the theorems about histories hold for a history with these primitives *)

Definition tests_story : list op :=
  let com := bs "example.com" in let worg := bs "www.example.org" in
  [Reset (bs "foobar"); SetAlias worg com; SetGenerated com (bs "blubber") [] 16 (mk_charset true true true true);
   SetStored worg (bs "blabber") (bs "2") (bs "asdf"); Lock; Unlock (bs "wrong"); Unlock (bs "foobar");
   ListPasswords worg (bs "bl*")].

Lemma tests_story_sound : sound tests (mentioned tests_story) tests_story start.
Proof. apply check_sound_ok; [exact tests_ok|]. vm_compute. reflexivity. Qed.

Example tests_story_outs : map shown (outs tests tests_story start) =
  [None; None; None; None; None; None; None; Some [bs "blabber"; bs "blubber"]].
Proof. vm_compute. reflexivity. Qed.
