(** pfp/src/storage_io/file.rs and pfp/src/storage.rs *)
From stdpp Require Import gmap.
From Verif Require Import M_Base M_Base64 M_Utf8 M_Prims M_Types M_Crypto M_Json M_Serde.

(** The state of one process and of the file it uses:
    - [s_data]: the map held by [FileIO] (storage_io/file.rs:24)
    - [s_key], [s_hmac], [s_primary]: the other fields of [Passwords] (passwords.rs:59-64)
    - [s_disk]: contents of the storage file, [None] if there is none
    - [s_tick], [s_flushes], [s_rand]: number of changes made to a map, of flushes, and of random
      values drawn so far; they select the answers of [p_order], [p_write] and [p_random]. *)
Record st : Type := mk_st {
  s_data : kvmap;
  s_key : option bytes;
  s_hmac : option bytes;
  s_primary : option bytes;
  s_disk : option bytes;
  s_tick : nat;
  s_flushes : nat;
  s_rand : nat
}.

(** Computations with access to the state: an error keeps the changes made before it. *)
Definition M (A : Type) : Type := st -> res A * st.
Definition ret {A} (a : A) : M A := fun s => (Ok a, s).
Definition lift {A} (r : res A) : M A := fun s => (r, s).
Definition bindM {A B} (m : M A) (f : A -> M B) : M B := fun s =>
  match m s with
  | (Ok a, s') => f a s'
  | (Err e, s') => (Err e, s')
  | (Panic, s') => (Panic, s')
  end.
(** A computation that only reads. *)
Definition reads {A} (f : st -> res A) : M A := fun s => (f s, s).

Notation "'let!' x ':=' m 'in' k" := (bindM m (fun x => k))
  (at level 200, x pattern, m at level 100, k at level 200, right associativity).

(** [crypto::get_rng().gen()] (crypto.rs:97-100) *)
Definition draw (P : prims) (n : nat) : M bytes := fun s =>
  (Ok (p_random P (s_rand s) n),
   mk_st (s_data s) (s_key s) (s_hmac s) (s_primary s) (s_disk s) (s_tick s) (s_flushes s)
         (S (s_rand s))).

(** * storage_io/file.rs *)

Definition put_data (d : kvmap) : M unit := fun s =>
  (Ok tt, mk_st d (s_key s) (s_hmac s) (s_primary s) (s_disk s) (S (s_tick s)) (s_flushes s)
                (s_rand s)).

(** file.rs:57-59 [get] *)
Definition io_get (d : kvmap) (key : bytes) : res bytes := ok_or (d !! key) KeyMissing.
(** file.rs:53-55 [contains_key] *)
Definition io_contains (d : kvmap) (key : bytes) : bool :=
  match d !! key with Some _ => true | None => false end.
(** file.rs:61-63 [set] *)
Definition io_set (key value : bytes) : M unit := fun s => put_data (<[key := value]> (s_data s)) s.
(** file.rs:65-67 [remove] *)
Definition io_remove (key : bytes) : M unit := fun s =>
  match s_data s !! key with
  | Some _ => put_data (delete key (s_data s)) s
  | None => (Err KeyMissing, s)
  end.
(** file.rs:73-75 [clear] *)
Definition io_clear : M unit := put_data ∅.
(** file.rs:69-71 [keys] *)
Definition io_keys (P : prims) (s : st) : list bytes := p_order P (s_tick s) (s_data s).

(** The entries in iteration order, as serde serializes a [HashMap]. *)
Definition pairs_of (order : list bytes) (d : kvmap) : list (bytes * bytes) :=
  flat_map (fun k => match d !! k with Some v => [(k, v)] | None => [] end) order.

(** file.rs:77-80: the text written by [flush]. *)
Definition flush_text (P : prims) (s : st) : bytes := file_to_string (pairs_of (io_keys P s) (s_data s)).

(** file.rs:77-86 [flush]. Serialization cannot fail. (A storage path without parent directory is not
    modelled separately: [create_dir_all] then is not called.) *)
Definition flush (P : prims) : M unit := fun s =>
  let done disk := mk_st (s_data s) (s_key s) (s_hmac s) (s_primary s) disk (s_tick s)
                         (S (s_flushes s)) (s_rand s) in
  match p_write P (s_flushes s) with
  | WriteOk => (Ok tt, done (Some (flush_text P s)))
  | CreateDirFails => (Err CreateDirFailure, done (s_disk s))
  | OpenFails => (Err FileWriteFailure, done (s_disk s))
  | WriteFailsAfter n => (Err FileWriteFailure, done (Some (firstn n (flush_text P s))))
  end.

(** [HashMap] built from pairs: a later pair replaces an earlier one with the same key. *)
Definition map_of_pairs (l : list (bytes * bytes)) : kvmap :=
  fold_left (fun m '(k, v) => <[k := v]> m) l ∅.

(** file.rs:41-49 [load]: [read_to_string] fails when there is no file or it is not UTF-8. *)
Definition load (P : prims) (disk : option bytes) : res kvmap :=
  let? text := ok_or disk FileReadFailure in
  if utf8 text then
    let? pairs := from_slice (p_float_ok P) file_of_json text in Ok (map_of_pairs pairs)
  else Err FileReadFailure.

(** * storage.rs *)

(** storage.rs:15-17 *)
Definition SALT_KEY : bytes := bs "salt".
Definition HMAC_SECRET_KEY : bytes := bs "hmac-secret".
Definition STORAGE_PREFIX : bytes := bs "site:".

(** storage.rs:45-47 [initialized] *)
Definition storage_initialized (d : kvmap) : bool :=
  io_contains d SALT_KEY && io_contains d HMAC_SECRET_KEY.

(** storage.rs:53-60 [get]; the type of the value is given by its deserializer *)
Definition storage_get {A} (P : prims) (conv : json -> option A) (d : kvmap) (key encryption_key : bytes)
  : res A :=
  let? value := io_get d key in
  let? decrypted := decrypt_data P value encryption_key in
  from_slice (p_float_ok P) conv decrypted.

(** Encrypt with a fresh nonce and store. *)
Definition set_encrypted (P : prims) (key plaintext encryption_key : bytes) : M unit := fun s =>
  match encrypt_data P (s_rand s) plaintext encryption_key with
  | Ok c => io_set key c (mk_st (s_data s) (s_key s) (s_hmac s) (s_primary s) (s_disk s) (s_tick s)
                                (s_flushes s) (S (s_rand s)))
  | Err e => (Err e, s)
  | Panic => (Panic, s)
  end.

(** storage.rs:62-73 [set]; the value is given as its JSON text *)
Definition storage_set (P : prims) (key json_text encryption_key : bytes) : M unit :=
  set_encrypted P key json_text encryption_key.

(** storage.rs:79-85 [get_salt] *)
Definition get_salt (d : kvmap) : res bytes :=
  let? encoded := ok_or (d !! SALT_KEY) StorageNotInitialized in
  ok_or (b64_decode encoded) InvalidBase64.

(** storage.rs:87-89 [set_salt] *)
Definition set_salt (salt : bytes) : M unit := io_set SALT_KEY (b64_encode salt).

(** storage.rs:91-105 [get_hmac_secret] *)
Definition get_hmac_secret (P : prims) (d : kvmap) (encryption_key : bytes) : res bytes :=
  let? ciphertext := ok_or (d !! HMAC_SECRET_KEY) StorageNotInitialized in
  let? decrypted := decrypt_data P ciphertext encryption_key in
  let? hmac_secret := from_slice (p_float_ok P) as_str decrypted in
  ok_or (b64_decode hmac_secret) InvalidBase64.

(** storage.rs:107-119 [set_hmac_secret] *)
Definition set_hmac_secret (P : prims) (hmac_secret encryption_key : bytes) : M unit :=
  set_encrypted P HMAC_SECRET_KEY (string_to_vec (b64_encode hmac_secret)) encryption_key.

(** storage.rs:29-39 [clear] *)
Definition storage_clear (P : prims) (salt hmac_secret encryption_key : bytes) : M unit :=
  let! _ := io_clear in
  let! _ := set_salt salt in
  set_hmac_secret P hmac_secret encryption_key.

(** storage.rs:121-125 [get_site_key] *)
Definition get_site_key (P : prims) (site hmac_secret : bytes) : bytes :=
  STORAGE_PREFIX ++ get_digest P hmac_secret site.

(** storage.rs:127-131 [get_site_prefix] *)
Definition get_site_prefix (P : prims) (site hmac_secret : bytes) : bytes :=
  get_site_key P site hmac_secret ++ [":"%byte].

(** storage.rs:133-144 [get_password_key] *)
Definition get_password_key (P : prims) (id : password_id) (hmac_secret : bytes) : bytes :=
  let input := id_site id ++ [x00] ++ id_name id ++ [x00] ++ id_revision id in
  get_site_prefix P (id_site id) hmac_secret ++ get_digest P hmac_secret input.

(** storage.rs:189-197 [get_site] *)
Definition get_site (P : prims) (d : kvmap) (site hmac_secret encryption_key : bytes) : res M_Types.site :=
  storage_get P site_of_json d (get_site_key P site hmac_secret) encryption_key.

(** [map_err] *)
Definition map_err {A} (r : res A) (e : error) : res A :=
  match r with Err _ => Err e | r => r end.

(** storage.rs:146-158 [get_alias] *)
Definition storage_get_alias (P : prims) (d : kvmap) (site hmac_secret encryption_key : bytes)
  : res bytes :=
  let? s := map_err (get_site P d site hmac_secret encryption_key) NoSuchAlias in
  ok_or (site_alias s) NoSuchAlias.

(** storage.rs:160-162 [normalize_site] *)
Definition normalize_site (site : bytes) : bytes :=
  match strip_prefix (bs "www.") site with Some r => r | None => site end.

(** storage.rs:164-173 [resolve_site] *)
Definition resolve_site (P : prims) (d : kvmap) (site hmac_secret encryption_key : bytes) : res bytes :=
  let normalized := normalize_site site in
  match storage_get_alias P d normalized hmac_secret encryption_key with
  | Ok a => Ok a
  | Err _ => Ok normalized
  | Panic => Panic
  end.

(** storage.rs:175-187 [ensure_site_data] *)
Definition ensure_site_data (P : prims) (site hmac_secret encryption_key : bytes) : M unit := fun s =>
  let key := get_site_key P site hmac_secret in
  match storage_get P site_of_json (s_data s) key encryption_key with
  | Ok _ => (Ok tt, s)
  | Err _ => storage_set P key (site_to_vec (mk_site site None)) encryption_key s
  | Panic => (Panic, s)
  end.

(** storage.rs:199-212 [set_alias] *)
Definition storage_set_alias (P : prims) (site alias hmac_secret encryption_key : bytes) : M unit :=
  if bytes_eqb site alias then lift (Err AliasToSelf)
  else storage_set P (get_site_key P site hmac_secret) (site_to_vec (mk_site site (Some alias)))
                   encryption_key.

(** storage.rs:214-227 [remove_alias] *)
Definition storage_remove_alias (P : prims) (site hmac_secret encryption_key : bytes) : M unit :=
  let key := get_site_key P site hmac_secret in
  let! s := reads (fun s => map_err (storage_get P site_of_json (s_data s) key encryption_key) NoSuchAlias) in
  match site_alias s with
  | None => lift (Err NoSuchAlias)
  | Some _ => io_remove key
  end.

(** storage.rs:229-232 [remove_site] *)
Definition storage_remove_site (P : prims) (site hmac_secret : bytes) : M unit :=
  io_remove (get_site_key P site hmac_secret).

(** storage.rs:234-237 [has_password] *)
Definition has_password (P : prims) (d : kvmap) (id : password_id) (hmac_secret : bytes) : bool :=
  io_contains d (get_password_key P id hmac_secret).

(** storage.rs:269-277 [set_password]; 239-247 [set_generated] and 249-257 [set_stored] are the same
    after wrapping their argument in [Password]. *)
Definition set_password (P : prims) (p : password) (hmac_secret encryption_key : bytes) : M unit :=
  storage_set P (get_password_key P (pass_id p) hmac_secret) (password_to_vec p) encryption_key.

(** storage.rs:259-267 [get_password] *)
Definition get_password (P : prims) (d : kvmap) (id : password_id) (hmac_secret encryption_key : bytes)
  : res password :=
  storage_get P password_of_json d (get_password_key P id hmac_secret) encryption_key.

(** storage.rs:279-286 [remove_password] *)
Definition remove_password (P : prims) (id : password_id) (hmac_secret : bytes) : M unit :=
  io_remove (get_password_key P id hmac_secret).

(** [Iterator::filter_map] with a closure that may panic, all items consumed *)
Fixpoint filter_map {A B} (f : A -> res (option B)) (l : list A) : res (list B) :=
  match l with
  | [] => Ok []
  | x :: l' =>
      let? o := f x in
      let? r := filter_map f l' in
      Ok (match o with Some y => y :: r | None => r end)
  end.

(** The first item of the same iterator ([next()]): later items are not looked at. *)
Fixpoint find_map {A B} (f : A -> res (option B)) (l : list A) : res (option B) :=
  match l with
  | [] => Ok None
  | x :: l' =>
      let? o := f x in
      match o with Some y => Ok (Some y) | None => find_map f l' end
  end.

(** [Result::ok()] *)
Definition res_ok {A} (r : res A) : res (option A) :=
  match r with Ok a => Ok (Some a) | Err _ => Ok None | Panic => Panic end.

(** storage.rs:294-301: closure of [list_passwords] *)
Definition password_item (P : prims) (d : kvmap) (site hmac_secret encryption_key key : bytes)
  : res (option password) :=
  if starts_with (get_site_prefix P site hmac_secret) key
  then res_ok (storage_get P password_of_json d key encryption_key)
  else Ok None.

(** storage.rs:288-302 [list_passwords] *)
Definition list_passwords (P : prims) (s : st) (site hmac_secret encryption_key : bytes)
  : res (list password) :=
  filter_map (password_item P (s_data s) site hmac_secret encryption_key) (io_keys P s).

(** [list_passwords(..).next().is_some()] (passwords.rs:173-178) *)
Definition any_password (P : prims) (s : st) (site hmac_secret encryption_key : bytes) : res bool :=
  let? o := find_map (password_item P (s_data s) site hmac_secret encryption_key) (io_keys P s) in
  Ok (match o with Some _ => true | None => false end).

(** storage.rs:308-314: closure of [list_sites] *)
Definition site_item (P : prims) (d : kvmap) (encryption_key key : bytes) : res (option M_Types.site) :=
  if starts_with STORAGE_PREFIX key && negb (contains_byte ":"%byte (skipn (length STORAGE_PREFIX) key))
  then res_ok (storage_get P site_of_json d key encryption_key)
  else Ok None.

(** storage.rs:304-315 [list_sites] *)
Definition storage_list_sites (P : prims) (s : st) (encryption_key : bytes) : res (list M_Types.site) :=
  filter_map (site_item P (s_data s) encryption_key) (io_keys P s).
