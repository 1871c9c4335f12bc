(** Storage types: pfp/src/storage_types/*.rs (data part; serialization is in M_Serde). *)
From Verif Require Import M_Base.

(** character_set.rs:11-20 [CharacterType] *)
Inductive ctype : Set := Lower | Upper | Digit | Symbol.

(** character_set.rs:23 [CharacterSet] = [EnumSet<CharacterType>], a set of at most four flags. *)
Record charset : Set := mk_charset {
  cs_lower : bool; cs_upper : bool; cs_digit : bool; cs_symbol : bool
}.

(** [EnumSet::empty], [contains], [insert], [-], [len], [is_empty] *)
Definition cs_empty : charset := mk_charset false false false false.
Definition cs_contains (s : charset) (t : ctype) : bool :=
  match t with
  | Lower => cs_lower s | Upper => cs_upper s | Digit => cs_digit s | Symbol => cs_symbol s
  end.
Definition cs_insert (s : charset) (t : ctype) : charset :=
  match t with
  | Lower => mk_charset true (cs_upper s) (cs_digit s) (cs_symbol s)
  | Upper => mk_charset (cs_lower s) true (cs_digit s) (cs_symbol s)
  | Digit => mk_charset (cs_lower s) (cs_upper s) true (cs_symbol s)
  | Symbol => mk_charset (cs_lower s) (cs_upper s) (cs_digit s) true
  end.
Definition cs_diff (a b : charset) : charset :=
  mk_charset (cs_lower a && negb (cs_lower b)) (cs_upper a && negb (cs_upper b))
             (cs_digit a && negb (cs_digit b)) (cs_symbol a && negb (cs_symbol b)).
Definition cs_len (s : charset) : nat :=
  Nat.b2n (cs_lower s) + Nat.b2n (cs_upper s) + Nat.b2n (cs_digit s) + Nat.b2n (cs_symbol s).
Definition cs_is_empty (s : charset) : bool := cs_len s =? 0.

(** password.rs:17-21 [PasswordId] *)
Record password_id : Type := mk_id { id_site : bytes; id_name : bytes; id_revision : bytes }.

(** password.rs:28-38 [PasswordId::new] *)
Definition password_id_new (site name revision : bytes) : password_id :=
  mk_id site name (if negb (bytes_eqb revision (bs "1")) then revision else []).

(** password.rs:59-71 [GeneratedPassword]. [length : usize] is an [N]. *)
Record generated_password : Type := mk_generated {
  gp_id : password_id; gp_length : N; gp_charset : charset; gp_notes : bytes
}.

(** password.rs:76-89 [GeneratedPassword::new] *)
Definition generated_password_new (site name revision : bytes) (len : N) (cs : charset)
  : generated_password :=
  mk_generated (password_id_new site name revision) len cs [].

(** password.rs:108-117 [GeneratedPassword::salt] *)
Definition generated_salt (p : generated_password) : bytes :=
  let salt := id_site (gp_id p) ++ [x00] ++ id_name (gp_id p) in
  match id_revision (gp_id p) with
  | [] => salt
  | r => salt ++ [x00] ++ r
  end.

(** password.rs:132-143 [StoredPassword] *)
Record stored_password : Type := mk_stored {
  sp_id : password_id; sp_password : bytes; sp_notes : bytes
}.

(** password.rs:148-154 [StoredPassword::new] *)
Definition stored_password_new (site name revision password : bytes) : stored_password :=
  mk_stored (password_id_new site name revision) password [].

(** password.rs:180-187 [Password] *)
Inductive password : Type :=
| Generated (p : generated_password)
| Stored (p : stored_password).

(** password.rs:191-196 [Password::id] *)
Definition pass_id (p : password) : password_id :=
  match p with Generated g => gp_id g | Stored s => sp_id s end.

(** password.rs:199-204 [Password::notes] *)
Definition pass_notes (p : password) : bytes :=
  match p with Generated g => gp_notes g | Stored s => sp_notes s end.

(** password.rs:207-212 [Password::set_notes], 125-127, 172-174 *)
Definition pass_set_notes (p : password) (notes : bytes) : password :=
  match p with
  | Generated g => Generated (mk_generated (gp_id g) (gp_length g) (gp_charset g) notes)
  | Stored s => Stored (mk_stored (sp_id s) (sp_password s) notes)
  end.

(** site.rs:12-17 [Site], 21-26 [Site::new] *)
Record site : Type := mk_site { site_name : bytes; site_alias : option bytes }.
