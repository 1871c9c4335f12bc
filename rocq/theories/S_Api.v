(** Vocabulary for statements about single calls. *)
From stdpp Require Import gmap.
From Verif Require Import M_Base M_Base64 M_Utf8 M_Prims M_Types M_Storage M_Passwords S_Recovery S_Vault M_History.

(** Nothing secret in memory. *)
Definition locked (s : st) : Prop := s_key s = None /\ s_hmac s = None /\ s_primary s = None.
Definition secrets (s : st) : option bytes * option bytes * option bytes := (s_key s, s_hmac s, s_primary s).

(** Calls that may change the stored data. *)
Definition modifies (o : op) : bool :=
  match o with
  | Reset _ | SetAlias _ _ | RemoveAlias _ | SetGenerated _ _ _ _ _ | SetStored _ _ _ _
  | SetNotes _ _ _ _ | Remove _ _ _ => true
  | RemoveSites l => match l with [] => false | _ => true end
  | _ => false
  end.
Definition is_reset (o : op) : bool := match o with Reset _ => true | _ => false end.

(** Calls that only look at things. *)
Definition reading (o : op) : bool :=
  match o with
  | Initialized | Unlocked | GetAlias _ | RemoveSites [] | Has _ _ _ | Get _ _ _ | GetNotes _ _ _
  | ListPasswords _ _ | ListSites _ | RecoveryCode _ _ _ _ | DecodeCode _ => true
  | _ => false
  end.

(** Calls that cannot work without the secrets and report that. *)
Definition needs_secrets (o : op) : bool :=
  match o with
  | GetAlias _ | SetAlias _ _ | RemoveAlias _ | SetGenerated _ _ _ _ _ | SetStored _ _ _ _ | Has _ _ _
  | Get _ _ _ | GetNotes _ _ _ | SetNotes _ _ _ _ | Remove _ _ _ | DecodeCode _ => true
  | RemoveSites l => match l with [] => false | _ => true end
  | _ => false
  end.

(** Everything the data consists of is text. *)
Definition texts (d : kvmap) : Prop := forall k v, d !! k = Some v -> utf8 k = true /\ utf8 v = true.

(** A process that just started, with the data it found in the file or none. *)
Definition started (P : prims) (s : st) : Prop :=
  locked s /\ (s_data s = ∅ \/ load P (s_disk s) = Ok (s_data s)).

(** Everything but the number of random values drawn. *)
Definition same_but_random (s s' : st) : Prop :=
  s_data s' = s_data s /\ secrets s' = secrets s /\ s_disk s' = s_disk s /\ s_tick s' = s_tick s /\
  s_flushes s' = s_flushes s.

(** The same environment with other write outcomes. *)
Definition with_writes (P : prims) (w : nat -> write_outcome) : prims := {|
  p_overflow_checks := p_overflow_checks P; p_hmac := p_hmac P; p_seal := p_seal P; p_open := p_open P;
  p_scrypt := p_scrypt P; p_random := p_random P; p_order := p_order P; p_wild := p_wild P;
  p_write := w; p_float_ok := p_float_ok P |}.

(** The slots a call may change. [set_notes] writes to the slot of the identifier found in the entry. *)
Definition touched (P : prims) (o : op) (s : st) (slot : bytes) : Prop :=
  exists h, s_hmac s = Some h /\
  let site_slot x := slot = get_site_key P x h in
  let resolved x (f : bytes -> bytes -> Prop) :=
    exists k y, s_key s = Some k /\ resolve_site P (s_data s) x h k = Ok y /\ f k y in
  match o with
  | SetAlias x _ | RemoveAlias x => site_slot (host x)
  | RemoveSites l => exists x, In x l /\ site_slot x
  | SetGenerated x n r _ _ | SetStored x n r _ =>
      resolved x (fun _ y => site_slot y \/ slot = get_password_key P (mk_id y n (rev_of r)) h)
  | SetNotes x n r _ =>
      resolved x (fun k y => exists p, get_password P (s_data s) (mk_id y n (rev_of r)) h k = Ok p /\
                                       slot = get_password_key P (pass_id p) h)
  | Remove x n r => resolved x (fun _ y => slot = get_password_key P (mk_id y n (rev_of r)) h)
  | _ => False
  end.

(** The same call for other spellings of its sites; [remove_sites] takes names as they are stored. *)
Definition respell (f : bytes -> bytes) (o : op) : op :=
  match o with
  | GetAlias x => GetAlias (f x)
  | SetAlias x a => SetAlias (f x) (f a)
  | RemoveAlias x => RemoveAlias (f x)
  | SetGenerated x n r len cs => SetGenerated (f x) n r len cs
  | SetStored x n r t => SetStored (f x) n r t
  | Has x n r => Has (f x) n r
  | Get x n r => Get (f x) n r
  | GetNotes x n r => GetNotes (f x) n r
  | SetNotes x n r t => SetNotes (f x) n r t
  | Remove x n r => Remove (f x) n r
  | ListPasswords x p => ListPasswords (f x) p
  | o => o
  end.

(** The same call for another site, for the calls about passwords. *)
Definition at_site (x : bytes) (o : op) : op :=
  match o with
  | SetGenerated _ n r len cs => SetGenerated x n r len cs
  | SetStored _ n r t => SetStored x n r t
  | Has _ n r => Has x n r
  | Get _ n r => Get x n r
  | GetNotes _ n r => GetNotes x n r
  | SetNotes _ n r t => SetNotes x n r t
  | Remove _ n r => Remove x n r
  | ListPasswords _ p => ListPasswords x p
  | o => o
  end.

(** The same call for another revision. *)
Definition at_revision (r : bytes) (o : op) : op :=
  match o with
  | SetGenerated x n _ len cs => SetGenerated x n r len cs
  | SetStored x n _ t => SetStored x n r t
  | Has x n _ => Has x n r
  | Get x n _ => Get x n r
  | GetNotes x n _ => GetNotes x n r
  | SetNotes x n _ t => SetNotes x n r t
  | Remove x n _ => Remove x n r
  | RecoveryCode x n _ t => RecoveryCode x n r t
  | o => o
  end.

(** * Nonces (C36) *)

(** Nonce of an encrypted entry, and of a recovery code. *)
Definition entry_nonce (v n : bytes) : Prop :=
  exists c, v = b64_encode n ++ "_"%byte :: b64_encode c.
Definition code_nonce (code n : bytes) : Prop :=
  exists lines version salt c, code_lines code lines /\
    concat (map (firstn 14) lines) = version :: salt ++ n ++ c /\ length salt = 16 /\ length n = 12.

(** Result and state after each call of a history. *)
Fixpoint trace (P : prims) (l : list op) (s : st) : list (out * st) :=
  match l with
  | [] => []
  | o :: l' => exec P o s :: trace P l' (snd (exec P o s))
  end.

(** * States that occur *)

(** After some calls of a process that started with what it found in the file. *)
Definition reachable (P : prims) (s : st) : Prop :=
  exists l s0, started P s0 /\ s = snd (run P l s0).
(** The same if no [reset] of an unlocked instance failed. *)
Definition calmly_reachable (P : prims) (s : st) : Prop :=
  exists l s0, started P s0 /\ calm_run P l s0 /\ s = snd (run P l s0).

(** Unlocked with these secrets. *)
Definition unlocked_with (s : st) (key hmac pp : bytes) : Prop :=
  secrets s = (Some key, Some hmac, Some pp).

(** Results of calls that work on existing entries or create them: the call did its work, even if saving
    failed. *)
Definition performed (o : out) : Prop :=
  o = ODone \/ o = OErr CreateDirFailure \/ o = OErr FileWriteFailure.

(** The same result, lists up to order. *)
Definition same_out (a b : out) : Prop :=
  match a, b with
  | OPasswords l, OPasswords l' => l ≡ₚ l'
  | OSites l, OSites l' => l ≡ₚ l'
  | _, _ => a = b
  end.
