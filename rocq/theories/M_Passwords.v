(** pfp/src/passwords.rs *)
From stdpp Require Import gmap.
From Verif Require Import M_Base M_Prims M_Types M_Crypto M_Recovery M_Json M_Serde M_Storage.

(** passwords.rs:69-76 [new] for an instance with the given data; the rest of the state is what the
    process finds. *)
Definition passwords_new (d : kvmap) (s : st) : st :=
  mk_st d None None None (s_disk s) (S (s_tick s)) (s_flushes s) (s_rand s).

Definition set_secrets (key hmac primary : option bytes) : M unit := fun s =>
  (Ok tt, mk_st (s_data s) key hmac primary (s_disk s) (s_tick s) (s_flushes s) (s_rand s)).

(** [self.hmac_secret.as_ref().ok_or(Error::PasswordsLocked)?] and likewise for the key *)
Definition the_hmac : M bytes := reads (fun s => ok_or (s_hmac s) PasswordsLocked).
Definition the_key : M bytes := reads (fun s => ok_or (s_key s) PasswordsLocked).
Definition the_primary : M bytes := reads (fun s => ok_or (s_primary s) PasswordsLocked).

(** passwords.rs:85-87 [initialized], 95-97 [unlocked] *)
Definition initialized (s : st) : bool := storage_initialized (s_data s).
Definition unlocked (s : st) : bool := match s_key s with Some _ => true | None => false end.

(** passwords.rs:106-118 [reset] *)
Definition reset (P : prims) (primary_password : bytes) : M unit :=
  let! salt := draw P 16 in
  let! key := lift (get_encryption_key P primary_password salt) in
  let! hmac_secret := draw P 32 in
  let! _ := storage_clear P salt hmac_secret key in
  let! _ := flush P in
  set_secrets (Some key) (Some hmac_secret) (Some primary_password).

(** passwords.rs:127-136 [unlock] *)
Definition unlock (P : prims) (primary_password : bytes) : M unit :=
  let! salt := reads (fun s => get_salt (s_data s)) in
  let! key := lift (get_encryption_key P primary_password salt) in
  let! hmac_secret := reads (fun s => get_hmac_secret P (s_data s) key) in
  set_secrets (Some key) (Some hmac_secret) (Some primary_password).

(** passwords.rs:142-146 [lock] (also [Drop], 460-464) *)
Definition lock : M unit := set_secrets None None None.

(** passwords.rs:153-159 [get_alias] *)
Definition get_alias (P : prims) (site : bytes) : M bytes :=
  let! hmac_secret := the_hmac in
  let! key := the_key in
  reads (fun s => storage_get_alias P (s_data s) (normalize_site site) hmac_secret key).

(** passwords.rs:167-185 [set_alias] *)
Definition set_alias (P : prims) (site alias : bytes) : M unit :=
  let! hmac_secret := the_hmac in
  let! key := the_key in
  let site_normalized := normalize_site site in
  let! alias_resolved := reads (fun s => resolve_site P (s_data s) alias hmac_secret key) in
  let! has := reads (fun s => any_password P s site_normalized hmac_secret key) in
  if has then lift (Err SiteHasPasswords)
  else
    let! _ := storage_set_alias P site_normalized alias_resolved hmac_secret key in
    flush P.

(** passwords.rs:192-200 [remove_alias] *)
Definition remove_alias (P : prims) (site : bytes) : M unit :=
  let! hmac_secret := the_hmac in
  let! key := the_key in
  let! _ := storage_remove_alias P (normalize_site site) hmac_secret key in
  flush P.

(** passwords.rs:213-215: the loop of [remove_sites] *)
Fixpoint remove_sites_loop (P : prims) (sites : list bytes) (hmac_secret : bytes) : M unit :=
  match sites with
  | [] => ret tt
  | site :: rest =>
      let! _ := storage_remove_site P site hmac_secret in
      remove_sites_loop P rest hmac_secret
  end.

(** passwords.rs:207-217 [remove_sites] *)
Definition remove_sites (P : prims) (sites : list bytes) : M unit :=
  match sites with
  | [] => ret tt
  | _ =>
      let! hmac_secret := the_hmac in
      let! _ := remove_sites_loop P sites hmac_secret in
      flush P
  end.

(** passwords.rs:231-252 [set_generated] *)
Definition set_generated (P : prims) (site name revision : bytes) (len : N) (cs : charset) : M unit :=
  let! hmac_secret := the_hmac in
  let! key := the_key in
  let! site_resolved := reads (fun s => resolve_site P (s_data s) site hmac_secret key) in
  let! _ := ensure_site_data P site_resolved hmac_secret key in
  let! _ := set_password P (Generated (generated_password_new site_resolved name revision len cs))
                         hmac_secret key in
  flush P.

(** passwords.rs:266-286 [set_stored] *)
Definition set_stored (P : prims) (site name revision password : bytes) : M unit :=
  let! hmac_secret := the_hmac in
  let! key := the_key in
  let! site_resolved := reads (fun s => resolve_site P (s_data s) site hmac_secret key) in
  let! _ := ensure_site_data P site_resolved hmac_secret key in
  let! _ := set_password P (Stored (stored_password_new site_resolved name revision password))
                         hmac_secret key in
  flush P.

(** passwords.rs:293-302 [has] *)
Definition has (P : prims) (site name revision : bytes) : M bool :=
  let! hmac_secret := the_hmac in
  let! key := the_key in
  let! site_resolved := reads (fun s => resolve_site P (s_data s) site hmac_secret key) in
  reads (fun s => Ok (has_password P (s_data s) (password_id_new site_resolved name revision) hmac_secret)).

(** passwords.rs:325-335: the value of a password *)
Definition password_value (P : prims) (primary_password : bytes) (p : password) : res bytes :=
  match p with
  | Generated g =>
      derive_password P primary_password (generated_salt g) (gp_length g) (gp_charset g)
  | Stored s => Ok (sp_password s)
  end.

(** passwords.rs:312-336 [get] *)
Definition get (P : prims) (site name revision : bytes) : M bytes :=
  let! hmac_secret := the_hmac in
  let! key := the_key in
  let! primary_password := the_primary in
  let! site_resolved := reads (fun s => resolve_site P (s_data s) site hmac_secret key) in
  let! p := reads (fun s => get_password P (s_data s) (password_id_new site_resolved name revision)
                                         hmac_secret key) in
  lift (password_value P primary_password p).

(** passwords.rs:340-344 [get_recovery_code]; drawing the nonce advances the random generator *)
Definition get_recovery_code (P : prims) (p : stored_password) : M bytes :=
  let! salt := reads (fun s => get_salt (s_data s)) in
  let! key := the_key in
  fun s => (generate P (s_rand s) (sp_password p) salt key,
            mk_st (s_data s) (s_key s) (s_hmac s) (s_primary s) (s_disk s) (s_tick s) (s_flushes s)
                  (S (s_rand s))).

(** passwords.rs:351-357 [decode_recovery_code] *)
Definition decode_recovery_code (P : prims) (code : bytes) : M bytes :=
  let! primary_password := the_primary in
  lift (decode P code primary_password).

(** passwords.rs:363-374 [get_notes] *)
Definition get_notes (P : prims) (site name revision : bytes) : M bytes :=
  let! hmac_secret := the_hmac in
  let! key := the_key in
  let! site_resolved := reads (fun s => resolve_site P (s_data s) site hmac_secret key) in
  let! p := reads (fun s => get_password P (s_data s) (password_id_new site_resolved name revision)
                                         hmac_secret key) in
  ret (pass_notes p).

(** passwords.rs:380-399 [set_notes] *)
Definition set_notes (P : prims) (site name revision notes : bytes) : M unit :=
  let! hmac_secret := the_hmac in
  let! key := the_key in
  let! site_resolved := reads (fun s => resolve_site P (s_data s) site hmac_secret key) in
  let! p := reads (fun s => get_password P (s_data s) (password_id_new site_resolved name revision)
                                         hmac_secret key) in
  let! _ := set_password P (pass_set_notes p notes) hmac_secret key in
  flush P.

(** passwords.rs:409-419 [remove] *)
Definition remove (P : prims) (site name revision : bytes) : M unit :=
  let! hmac_secret := the_hmac in
  let! key := the_key in
  let! site_resolved := reads (fun s => resolve_site P (s_data s) site hmac_secret key) in
  let! _ := remove_password P (password_id_new site_resolved name revision) hmac_secret in
  flush P.

(** [assert!(self.unlocked())] and the [unwrap]s after it (passwords.rs:426-429, 446-448) *)
Definition unwrap (o : option bytes) : res bytes := match o with Some x => Ok x | None => Panic end.

(** passwords.rs:425-437 [list], all items consumed *)
Definition list_ (P : prims) (site name : bytes) : M (list password) :=
  reads (fun s =>
    if negb (unlocked s) then Panic
    else
      let? hmac_secret := unwrap (s_hmac s) in
      let? key := unwrap (s_key s) in
      let? site_resolved := resolve_site P (s_data s) site hmac_secret key in
      let? ps := list_passwords P s site_resolved hmac_secret key in
      Ok (List.filter (fun p => p_wild P name (id_name (pass_id p))) ps)).

(** passwords.rs:445-457 [list_sites], all items consumed *)
Definition list_sites (P : prims) (site : bytes) : M (list M_Types.site) :=
  reads (fun s =>
    if negb (unlocked s) then Panic
    else
      let? key := unwrap (s_key s) in
      let? l := storage_list_sites P s key in
      Ok (List.filter (fun x => match site_alias x with Some a => p_wild P site a | None => false end
                                || p_wild P site (site_name x)) l)).
