(** Histories of calls of the library (harness around M_Passwords). *)
From stdpp Require Import gmap.
From Verif Require Import M_Base M_Prims M_Types M_Crypto M_Recovery M_Json M_Serde M_Storage M_Passwords
  S_Vault.

(** A password as identifier and entry. *)
Definition pid_of (i : password_id) : pid := (id_site i, id_name i, id_revision i).
Definition show_password (p : password) : pid * entry :=
  match p with
  | Generated g => (pid_of (gp_id g), mk_entry (SGenerated (gp_length g) (gp_charset g)) (gp_notes g))
  | Stored s => (pid_of (sp_id s), mk_entry (SFixed (sp_password s)) (sp_notes s))
  end.
Definition show_site (s : M_Types.site) : bytes * option bytes := (site_name s, site_alias s).

Definition as_out {A} (f : A -> out) (r : res A * st) : out * st :=
  (match fst r with Ok a => f a | Err e => OErr e | Panic => OPanic end, snd r).

(** One call. [Restart]: [FileIO::load] (file.rs:41-49) or, failing that, [FileIO::new] (file.rs:31-39),
    then [Passwords::new] (passwords.rs:69-76), as in main.rs:74-96. *)
Definition exec (P : prims) (o : op) (s : st) : out * st :=
  let done := fun _ : unit => ODone in
  match o with
  | Reset pp => as_out done (reset P pp s)
  | Unlock pp => as_out done (unlock P pp s)
  | Lock => as_out done (lock s)
  | Restart =>
      (ODone, passwords_new (match load P (s_disk s) with Ok d => d | _ => ∅ end) s)
  | Initialized => (OBool (initialized s), s)
  | Unlocked => (OBool (unlocked s), s)
  | GetAlias x => as_out OText (get_alias P x s)
  | SetAlias x a => as_out done (set_alias P x a s)
  | RemoveAlias x => as_out done (remove_alias P x s)
  | RemoveSites l => as_out done (remove_sites P l s)
  | SetGenerated x n r len cs => as_out done (set_generated P x n r len cs s)
  | SetStored x n r t => as_out done (set_stored P x n r t s)
  | Has x n r => as_out OBool (has P x n r s)
  | Get x n r => as_out OText (get P x n r s)
  | GetNotes x n r => as_out OText (get_notes P x n r s)
  | SetNotes x n r t => as_out done (set_notes P x n r t s)
  | Remove x n r => as_out done (remove P x n r s)
  | ListPasswords x p => as_out (fun l => OPasswords (map show_password l)) (list_ P x p s)
  | ListSites p => as_out (fun l => OSites (map show_site l)) (list_sites P p s)
  | RecoveryCode x n r t => as_out OCode (get_recovery_code P (stored_password_new x n r t) s)
  | DecodeCode c => as_out OText (decode_recovery_code P c s)
  end.

(** A history: results and final state. *)
Fixpoint run (P : prims) (l : list op) (s : st) : list out * st :=
  match l with
  | [] => ([], s)
  | o :: l' =>
      let '(r, s1) := exec P o s in
      let '(rs, s2) := run P l' s1 in
      (r :: rs, s2)
  end.

(** Nothing in memory and no usable file. *)
Definition fresh (P : prims) (s : st) : Prop :=
  s_data s = ∅ /\ s_key s = None /\ s_hmac s = None /\ s_primary s = None /\
  is_ok (load P (s_disk s)) = false.

(** What the storage file does during a history: at each call the next write ends as [p_write] says. *)
Fixpoint writes_ok (P : prims) (l : list op) (wrs : list write) (s : st) : Prop :=
  match l, wrs with
  | [], [] => True
  | o :: l', wr :: wrs' =>
      allowed (p_write P (s_flushes s)) wr /\ writes_ok P l' wrs' (snd (exec P o s))
  | _, _ => False
  end.

(** No [reset] of an unlocked instance fails (C32 is about what happens then). *)
Fixpoint calm_run (P : prims) (l : list op) (s : st) : Prop :=
  match l with
  | [] => True
  | o :: l' =>
      match o with
      | Reset _ => unlocked s = true -> fst (exec P o s) = ODone
      | _ => True
      end /\ calm_run P l' (snd (exec P o s))
  end.
