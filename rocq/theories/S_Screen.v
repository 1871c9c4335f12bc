(** What is printed if only secrets differ: notions used in the statements. *)
From stdpp Require Import gmap.
From Verif Require Import M_Base M_Prims M_Types M_Crypto M_Json M_Serde M_Storage M_Passwords M_Utf8 M_Cli S_Vault S_History S_Cli.

(** Two records that agree in site, name, revision and kind, and, if [notes], in everything but the stored password. *)
Definition alike_records (notes : bool) (p q : password) : Prop :=
  match p, q with
  | Stored a, Stored b => sp_id a = sp_id b /\ (notes = true -> sp_notes a = sp_notes b)
  | Generated a, Generated b => gp_id a = gp_id b /\ (notes = true -> a = b)
  | _, _ => False
  end.

(** The record behind an encrypted value. *)
Definition reads_as (P : prims) (key value : bytes) (p : password) : Prop :=
  exists text, decrypt_data P value key = Ok text /\ from_slice (p_float_ok P) password_of_json text = Ok p.

(** Where passwords are stored: site:...:... *)
Definition password_slot (slot : bytes) : Prop := exists a b, slot = bs "site:" ++ a ++ ":"%byte :: b.

(** The keys that can come up when some primary passwords are tried. *)
Definition tried_key (P : prims) (d : kvmap) (passwords : bytes -> Prop) (key : bytes) : Prop :=
  exists pp salt, passwords pp /\ get_salt d = Ok salt /\ get_encryption_key P pp salt = Ok key.
(** Those that are accepted. *)
Definition accepted_key (P : prims) (d : kvmap) (passwords : bytes -> Prop) (key : bytes) : Prop :=
  tried_key P d passwords key /\ exists secret, get_hmac_secret P d key = Ok secret.

(** The same salt, the same result when trying the passwords, the same slots; read with an accepted key, the values say
    the same about sites, and passwords are alike. A value that cannot be read has to be the same. *)
Record alike_data (P : prims) (notes : bool) (passwords : bytes -> Prop) (d d' : kvmap) : Prop := {
  al_salt : d !! bs "salt" = d' !! bs "salt";
  al_secret : forall key, tried_key P d passwords key -> get_hmac_secret P d key = get_hmac_secret P d' key;
  al_slots : forall slot, d !! slot = None <-> d' !! slot = None;
  al_site : forall key slot c c', accepted_key P d passwords key -> ~ password_slot slot ->
    d !! slot = Some c -> d' !! slot = Some c' ->
    c = c' \/ exists text, decrypt_data P c key = Ok text /\ decrypt_data P c' key = Ok text;
  al_password : forall key slot c c', accepted_key P d passwords key -> password_slot slot ->
    d !! slot = Some c -> d' !! slot = Some c' ->
    c = c' \/ exists p q, reads_as P key c p /\ reads_as P key c' q /\ alike_records notes p q
}.

(** What may be entered as the primary password. *)
Definition candidate (es : list (option bytes)) (pp : bytes) : Prop := 6 <= length pp /\ exists e, In (Some e) es /\ pp = trim e.

(** The order of a [HashMap] depends on the keys (and on what happened to it), not on the values. *)
Definition order_of_slots (P : prims) : Prop :=
  forall n (d d' : kvmap), (forall slot, d !! slot = None <-> d' !! slot = None) -> p_order P n d = p_order P n d'.

(** Commands that do not show secrets; if [notes] is set, notes and parameters of generated passwords are not
    considered secret. *)
Definition discreet (notes : bool) (c : command) : Prop :=
  match c with
  | Add _ _ _ _ _ _ _ _ _ | AddStored _ _ _ _ _ | RemoveCmd _ _ _ | Alias _ _ _ | Shell => True
  | List _ _ show recovery verbose => show = false /\ recovery = false /\ (verbose = true -> notes = true)
  | Notes _ _ _ set => notes = true /\ set = false
  | Show _ _ _ _ | SetPrimary _ => False
  end.
(** In the shell, every command is; set-primary is refused there. *)
Definition discreet_lines (E : externals) (notes : bool) (l : list readline) : Prop :=
  forall line c, In (Line line) l -> e_parse E line = SCommand c -> (forall y, c <> SetPrimary y) -> discreet notes c.

(** The same but for the contents of the file. *)
Definition with_disk (disk : option bytes) (t : term) : term :=
  let s := t_st t in
  with_st (mk_st (s_data s) (s_key s) (s_hmac s) (s_primary s) disk (s_tick s) (s_flushes s) (s_rand s)) t.

(** The same on the screen, and the same input still to come. *)
Definition same_screen (t t' : term) : Prop :=
  t_shown t = t_shown t' /\ t_buf t = t_buf t' /\ t_err t = t_err t' /\ t_stdin t = t_stdin t' /\ t_tty t = t_tty t' /\
  t_confirms t = t_confirms t' /\ t_asks t = t_asks t' /\ t_lines t = t_lines t'.

(** Vaults that agree in everything but the texts of stored passwords and, unless [notes], notes and the parameters of
    generated passwords. *)
Definition alike_entries (notes : bool) (e e' : entry) : Prop :=
  (notes = true -> e_notes e = e_notes e') /\
  match e_secret e, e_secret e' with
  | SGenerated len cs, SGenerated len' cs' => notes = true -> len = len' /\ cs = cs'
  | SFixed _, SFixed _ => True
  | _, _ => False
  end.
Record alike_vaults (notes : bool) (v v' : vault) : Prop := {
  av_sites : v_sites v = v_sites v';
  av_names : forall i, v_pw v !! i = None <-> v_pw v' !! i = None;
  av_entries : forall i e e', v_pw v !! i = Some e -> v_pw v' !! i = Some e' -> alike_entries notes e e'
}.

(** Everything is text, and lengths are 64 bit numbers. *)
Definition texts_only (v : vault) : Prop :=
  forall x n r e, v_pw v !! (x, n, r) = Some e ->
    utf8 x = true /\ utf8 n = true /\ utf8 r = true /\ utf8 (e_notes e) = true /\
    match e_secret e with SGenerated len _ => (len < 18446744073709551616)%N | SFixed t => utf8 t = true end.
