(** When calls and processes panic. *)
From stdpp Require Import gmap.
From Verif Require Import M_Base M_Base64 M_Utf8 M_Prims M_Types M_Crypto M_Json M_Serde M_Storage M_Passwords S_Base64 S_Vault M_History S_Api
  M_Cli S_Cli.

(** A stored text the part of which before the first underscore is Base64 of something that cannot be a nonce. *)
Definition wrong_nonce (v : bytes) : Prop :=
  exists a b n, v = a ++ "_"%byte :: b /\ ~ In "_"%byte a /\ base64_accepted n a /\ length n <> 12.

(** Something generated passwords can be made from. *)
Definition usable (len : N) (cs : charset) : Prop := (0 < len <= 137438953471)%N /\ cs <> cs_empty.

(** An entry of a generated password. *)
Definition generated_entry (P : prims) (key : bytes) (d : kvmap) (len : N) (cs : charset) : Prop :=
  exists k v m g, d !! k = Some v /\ decrypt_data P v key = Ok m /\
    from_slice (p_float_ok P) password_of_json m = Ok (Generated g) /\ gp_length g = len /\ gp_charset g = cs.

(** Why a call panics: listing while locked, an entry with a nonce of the wrong size, an unusable entry of a generated
    password, or overflow checks in the code for recovery codes. *)
Definition lists (o : op) : bool := match o with ListPasswords _ _ | ListSites _ => true | _ => false end.
Inductive reason (P : prims) (s : st) : op -> Prop :=
| lists_locked o : lists o = true -> locked s -> reason P s o
| bad_nonce o k v : k <> SALT_KEY -> s_data s !! k = Some v -> wrong_nonce v -> reason P s o
| bad_entry x n r key len cs : s_key s = Some key -> generated_entry P key (s_data s) len cs -> ~ usable len cs ->
    reason P s (Get x n r)
| overflow_decode c : p_overflow_checks P = true -> reason P s (DecodeCode c)
| overflow_encode x n r t : p_overflow_checks P = true -> reason P s (RecoveryCode x n r t).

(** Data nothing can go wrong with: nonces are fine; [key] is the only key that opens it; the entries of generated
    passwords that can be read with [key] are usable. *)
Definition harmless (P : prims) (key : bytes) (d : kvmap) : Prop :=
  (forall k v, k <> SALT_KEY -> d !! k = Some v -> ~ wrong_nonce v) /\
  (forall pp salt k h, get_salt d = Ok salt -> get_encryption_key P pp salt = Ok k -> get_hmac_secret P d k = Ok h -> k = key) /\
  (forall len cs, generated_entry P key d len cs -> usable len cs).

(** A process working on such data, and the file is the same or harmless as well. *)
Definition unharmed (P : prims) (key : bytes) (s : st) : Prop :=
  length key = 32 /\ (locked s \/ exists h pp, unlocked_with s key h pp) /\ texts (s_data s) /\ harmless P key (s_data s) /\
  forall d, load P (s_disk s) = Ok d -> harmless P key d.

(** Calls that do not panic there. *)
Definition careful (o : op) (s : st) : Prop :=
  op_valid o /\ is_reset o = false /\ (lists o = true -> unlocked s = true) /\
  match o with SetGenerated _ _ _ len cs => usable len cs | _ => True end.

(** Everything that is going to be typed can be read and is text. *)
Definition readable (t : term) : Prop :=
  utf8 (t_stdin t) = true /\ Forall (fun o => exists p, o = Some p /\ utf8 p = true) (t_tty t).

(** A history of careful calls. *)
Fixpoint careful_run (P : prims) (l : list op) (s : st) : Prop :=
  match l with [] => True | o :: l' => careful o s /\ careful_run P l' (snd (exec P o s)) end.

(** A process that is used normally, other than by [set-primary]. *)
Definition plain_process (p : args * term) : Prop :=
  command_valid (a_command (fst p)) /\ (forall y, a_command (fst p) <> SetPrimary y) /\ readable (snd p).
(** How processes end. *)
Fixpoint exits (P : prims) (E : externals) (path : bytes) (l : list (args * term)) (s : st) : list exit :=
  match l with
  | [] => []
  | (a, t) :: l' => fst (main P E path a (with_st s t)) :: exits P E path l' (t_st (snd (main P E path a (with_st s t))))
  end.
