(** An abstract password vault: what a user of the library should observe. No encryption, no
    serialization, no storage keys, no iteration order, no random values. *)
From stdpp Require Import gmap.
From Verif Require Import M_Base M_Base64 M_Utf8 M_Prims M_Types M_Crypto M_Recovery M_Serde.

(** A password is identified by site, name and revision; it is generated on demand or a given text. *)
Notation pid := (bytes * bytes * bytes)%type.
Inductive secret : Type := SGenerated (len : N) (cs : charset) | SFixed (text : bytes).
Record entry : Type := mk_entry { e_secret : secret; e_notes : bytes }.

(** [v_sites]: the known sites, with the target if the site is an alias. *)
Record vault : Type := mk_vault { v_sites : gmap bytes (option bytes); v_pw : gmap pid entry }.
Definition empty_vault : vault := mk_vault ∅ ∅.

(** A leading "www." does not matter. *)
Definition host (s : bytes) : bytes :=
  match s with
  | a :: b :: c :: d :: r => if bytes_eqb [a; b; c; d] (bs "www.") then r else s
  | _ => s
  end.
(** Revision 1 and the empty revision are the same. *)
Definition rev_of (r : bytes) : bytes := if bytes_eqb r (bs "1") then [] else r.

(** The site an operation on [s] is about. *)
Definition target (v : vault) (s : bytes) : bytes :=
  match v_sites v !! host s with Some (Some a) => a | _ => host s end.

Definition pid_site (i : pid) : bytes := i.1.1.
Definition pid_name (i : pid) : bytes := i.1.2.
Definition has_passwords (v : vault) (s : bytes) : bool :=
  existsb (fun '(i, _) => bytes_eqb (pid_site i) s) (map_to_list (v_pw v)).

(** The history of calls. *)
Inductive op : Type :=
| Reset (pp : bytes) | Unlock (pp : bytes) | Lock
| Restart                                   (* the process ends and is started again *)
| Initialized | Unlocked
| GetAlias (s : bytes) | SetAlias (s a : bytes) | RemoveAlias (s : bytes) | RemoveSites (l : list bytes)
| SetGenerated (s n r : bytes) (len : N) (cs : charset)
| SetStored (s n r text : bytes)
| Has (s n r : bytes) | Get (s n r : bytes)
| GetNotes (s n r : bytes) | SetNotes (s n r notes : bytes)
| Remove (s n r : bytes)
| ListPasswords (s pattern : bytes) | ListSites (pattern : bytes)
| RecoveryCode (s n r text : bytes) | DecodeCode (code : bytes).

(** What a call returns. *)
Inductive out : Type :=
| ODone
| OBool (b : bool)
| OText (t : bytes)
| OPasswords (l : list (pid * entry))
| OSites (l : list (bytes * option bytes))
| OCode (code : bytes)               (* a recovery code ... *)
| ORecovers (pp text : bytes)        (* ... from which [text] can be recovered knowing [pp] *)
| OErr (e : error)
| OPanic.

(** What a call that saves does to the file: saved; failed without touching it; failed leaving an
    unreadable file; failed although everything was written. *)
Inductive write : Type := Saved | Kept (e : error) | Torn | SavedLate.
Definition allowed (o : write_outcome) (wr : write) : Prop :=
  match o with
  | WriteOk => wr = Saved
  | CreateDirFails => wr = Kept CreateDirFailure
  | OpenFails => wr = Kept FileWriteFailure
  | WriteFailsAfter _ => wr = Torn \/ wr = SavedLate
  end.

(** A process and the file: primary password and contents, [None] if there is nothing usable. *)
Record world : Type := mk_world {
  w_mem : option (bytes * vault);
  w_open : bool;
  w_file : option (bytes * vault)
}.

(** Nothing in memory, no usable file. *)
Definition nothing : world := mk_world None false None.

(** Continue with the given contents and save them. *)
Definition commit (wr : write) (w : world) (pp : bytes) (v : vault) : world * out :=
  let m := Some (pp, v) in
  match wr with
  | Saved => (mk_world m (w_open w) m, ODone)
  | Kept e => (mk_world m (w_open w) (w_file w), OErr e)
  | Torn => (mk_world m (w_open w) None, OErr FileWriteFailure)
  | SavedLate => (mk_world m (w_open w) m, OErr FileWriteFailure)
  end.

(** Remove site entries one after the other until one is missing. *)
Fixpoint drop_sites (m : gmap bytes (option bytes)) (l : list bytes) : gmap bytes (option bytes) * bool :=
  match l with
  | [] => (m, true)
  | s :: l' => match m !! s with Some _ => drop_sites (delete s m) l' | None => (m, false) end
  end.

(** The text a generated password is derived from: site and name, and the revision unless empty,
    separated by NUL characters. *)
Definition generation_input (i : pid) : bytes :=
  let '(s, n, r) := i in
  match r with [] => s ++ x00 :: n | _ => s ++ x00 :: n ++ x00 :: r end.

Definition text_out (r : res bytes) : out :=
  match r with Ok t => OText t | Err e => OErr e | Panic => OPanic end.

Definition reveal (P : prims) (pp : bytes) (i : pid) (x : secret) : out :=
  match x with
  | SFixed text => OText text
  | SGenerated len cs =>
      text_out (derive_password P pp (generation_input i) len cs)
  end.

Definition put (v : vault) (i : pid) (e : entry) : vault :=
  mk_vault (match v_sites v !! pid_site i with
            | Some _ => v_sites v
            | None => <[pid_site i := None]> (v_sites v)
            end)
           (<[i := e]> (v_pw v)).

Definition vstep (P : prims) (wr : write) (w : world) (o : op)
  : world * out :=
  let opened (k : bytes -> vault -> world * out) : world * out :=
    match w_open w, w_mem w with
    | true, Some (pp, v) => k pp v
    | _, _ => (w, OErr PasswordsLocked)
    end in
  let on (k : pid -> bytes -> vault -> world * out) (s n r : bytes) : world * out :=
    opened (fun pp v => k (target v s, n, rev_of r) pp v) in
  let at_ (k : entry -> pid -> bytes -> vault -> world * out) (s n r : bytes) : world * out :=
    on (fun i pp v => match v_pw v !! i with
                      | Some e => k e i pp v
                      | None => (w, OErr KeyMissing)
                      end) s n r in
  match o with
  | Reset pp =>
      let '(w', r) := commit wr w pp empty_vault in
      (mk_world (w_mem w') (match r with ODone => true | _ => w_open w end) (w_file w'), r)
  | Unlock pp =>
      match w_mem w with
      | None => (w, OErr StorageNotInitialized)
      | Some (pp', _) =>
          if bytes_eqb pp pp' then (mk_world (w_mem w) true (w_file w), ODone)
          else (w, OErr DecryptionFailure)
      end
  | Lock => (mk_world (w_mem w) false (w_file w), ODone)
  | Restart => (mk_world (w_file w) false (w_file w), ODone)
  | Initialized => (w, OBool (match w_mem w with Some _ => true | None => false end))
  | Unlocked => (w, OBool (w_open w))
  | GetAlias s =>
      opened (fun _ v => (w, match v_sites v !! host s with
                             | Some (Some a) => OText a
                             | _ => OErr NoSuchAlias
                             end))
  | SetAlias s a =>
      opened (fun pp v =>
        if has_passwords v (host s) then (w, OErr SiteHasPasswords)
        else if bytes_eqb (host s) (target v a) then (w, OErr AliasToSelf)
        else commit wr w pp (mk_vault (<[host s := Some (target v a)]> (v_sites v)) (v_pw v)))
  | RemoveAlias s =>
      opened (fun pp v =>
        match v_sites v !! host s with
        | Some (Some _) => commit wr w pp (mk_vault (delete (host s) (v_sites v)) (v_pw v))
        | _ => (w, OErr NoSuchAlias)
        end)
  | RemoveSites [] => (w, ODone)
  | RemoveSites l =>
      opened (fun pp v =>
        match drop_sites (v_sites v) l with
        | (m, true) => commit wr w pp (mk_vault m (v_pw v))
        | (m, false) =>
            (mk_world (Some (pp, mk_vault m (v_pw v))) (w_open w) (w_file w), OErr KeyMissing)
        end)
  | SetGenerated s n r len cs =>
      on (fun i pp v => commit wr w pp (put v i (mk_entry (SGenerated len cs) []))) s n r
  | SetStored s n r text =>
      on (fun i pp v => commit wr w pp (put v i (mk_entry (SFixed text) []))) s n r
  | Has s n r =>
      on (fun i _ v => (w, OBool (match v_pw v !! i with Some _ => true | None => false end))) s n r
  | Get s n r => at_ (fun e i pp _ => (w, reveal P pp i (e_secret e))) s n r
  | GetNotes s n r => at_ (fun e _ _ _ => (w, OText (e_notes e))) s n r
  | SetNotes s n r notes =>
      at_ (fun e i pp v =>
        commit wr w pp (mk_vault (v_sites v) (<[i := mk_entry (e_secret e) notes]> (v_pw v)))) s n r
  | Remove s n r =>
      at_ (fun _ i pp v => commit wr w pp (mk_vault (v_sites v) (delete i (v_pw v)))) s n r
  | ListPasswords s pattern =>
      match w_open w, w_mem w with
      | true, Some (_, v) =>
          (w, OPasswords (List.filter (fun '(i, _) => bytes_eqb (pid_site i) (target v s) &&
                                                      p_wild P pattern (pid_name i))
                                      (map_to_list (v_pw v))))
      | _, _ => (w, OPanic)
      end
  | ListSites pattern =>
      match w_open w, w_mem w with
      | true, Some (_, v) =>
          (w, OSites (List.filter (fun '(s, a) =>
                match a with Some t => p_wild P pattern t | None => false end || p_wild P pattern s)
                                  (map_to_list (v_sites v))))
      | _, _ => (w, OPanic)
      end
  | RecoveryCode _ _ _ text =>
      match w_mem w, w_open w with
      | None, _ => (w, OErr StorageNotInitialized)
      | Some _, false => (w, OErr PasswordsLocked)
      | Some (pp, _), true => (w, ORecovers pp text)
      end
  | DecodeCode code => opened (fun pp _ => (w, text_out (decode P code pp)))
  end.

Fixpoint vrun (P : prims) (wrs : list write) (w : world) (l : list op)
  : world * list out :=
  match l, wrs with
  | o :: l', wr :: wrs' =>
      let '(w1, r) := vstep P wr w o in
      let '(w2, rs) := vrun P wrs' w1 l' in
      (w2, r :: rs)
  | _, _ => (w, [])
  end.

(** * What a history mentions *)

Definition op_sites (o : op) : list bytes :=
  match o with
  | GetAlias s | RemoveAlias s | ListPasswords s _ => [host s]
  | SetAlias s a => [host s; host a]
  | RemoveSites l => l
  | SetGenerated s _ _ _ _ | SetStored s _ _ _ | Has s _ _ | Get s _ _ | GetNotes s _ _
  | SetNotes s _ _ _ | Remove s _ _ => [host s]
  | _ => []
  end.
Definition op_ids (o : op) : list (bytes * bytes) :=
  match o with
  | SetGenerated _ n r _ _ | SetStored _ n r _ | Has _ n r | Get _ n r | GetNotes _ n r
  | SetNotes _ n r _ | Remove _ n r => [(n, rev_of r)]
  | _ => []
  end.
Definition op_passwords (o : op) : list bytes :=
  match o with Reset pp | Unlock pp => [pp] | _ => [] end.

(** Rust strings are UTF-8, lengths are 64-bit. *)
Definition op_valid (o : op) : Prop :=
  match o with
  | GetAlias s => utf8 s = true
  | SetAlias s a => utf8 s = true /\ utf8 a = true
  | RemoveAlias s => utf8 s = true
  | RemoveSites l => Forall (fun s => utf8 s = true) l
  | SetGenerated s n r len _ =>
      utf8 s = true /\ utf8 n = true /\ utf8 r = true /\ (len <= 18446744073709551615)%N
  | SetStored s n r t | SetNotes s n r t =>
      utf8 s = true /\ utf8 n = true /\ utf8 r = true /\ utf8 t = true
  | Has s n r | Get s n r | GetNotes s n r | Remove s n r =>
      utf8 s = true /\ utf8 n = true /\ utf8 r = true
  | ListPasswords s _ => utf8 s = true
  | RecoveryCode _ _ _ t => utf8 t = true
  | _ => True
  end.

(** No password name contains a NUL character (C21 shows what happens otherwise). *)
Definition names_ok (l : list op) : Prop := Forall (fun '(n, _) => ~ In x00 n) (flat_map op_ids l).

(** * Comparing results *)

(** Lists are compared up to order; a recovery code has to decode to the text (C07, C13, C14 say when
    that cannot be expected). *)
Definition agrees (P : prims) (actual expected : out) : Prop :=
  match expected with
  | OPasswords l => exists l', actual = OPasswords l' /\ l' ≡ₚ l
  | OSites l => exists l', actual = OSites l' /\ l' ≡ₚ l
  | ORecovers pp text =>
      (exists code, actual = OCode code /\
         (text <> [] -> (forall r, text <> r ++ [x00]) -> decode P code pp = Ok text)) \/
      (actual = OPanic /\ p_overflow_checks P = true /\ (3539 < N.of_nat (length text))%N)
  | _ => actual = expected
  end.

(** * Cryptographic assumptions, about the finitely many values that matter *)

Definition id_string (s n r : bytes) : bytes := s ++ x00 :: n ++ x00 :: r.

(** Key belonging to a primary password and the salt drawn as [i]-th random value. *)
Definition key_for (P : prims) (pp : bytes) (i : nat) : bytes :=
  p_scrypt P pp (concat (map latin1_char_utf8 (p_random P i 16))) 32.

(** [assumptions P sites ids pws bound]: HMAC under each of the first [bound] random values has no
    collision on the sites and on the identifiers of one site; the HMAC secret drawn right after the
    salt and encrypted under the key for one primary password cannot be decrypted with the key for
    another one. *)
Record assumptions (P : prims) (sites : list bytes) (ids : list (bytes * bytes)) (pws : list bytes)
                   (bound : nat) : Prop := {
  as_site : forall i x y, i < bound -> In x sites -> In y sites ->
    p_hmac P (p_random P i 32) x = p_hmac P (p_random P i 32) y -> x = y;
  as_id : forall i s n r n' r', i < bound -> In s sites -> In (n, r) ids -> In (n', r') ids ->
    p_hmac P (p_random P i 32) (id_string s n r) = p_hmac P (p_random P i 32) (id_string s n' r') ->
    id_string s n r = id_string s n' r';
  as_open : forall i p q, i < bound -> In p pws -> In q pws -> p <> q ->
    p_open P (key_for P q i) (p_random P (i + 2) 12)
      (p_seal P (key_for P p i) (p_random P (i + 2) 12)
              (string_to_vec (b64_encode (p_random P (i + 1) 32)))) = None
}.
