(** Vocabulary for statements about histories of calls. *)
From stdpp Require Import gmap.
From Verif Require Import M_Base M_Base64 M_Utf8 M_Prims M_Types M_Storage M_Passwords M_Serde S_Vault M_History S_Api.

(** The sites, (name, revision) pairs and primary passwords that are used. *)
Record scope : Type := mk_scope { sc_sites : list bytes; sc_ids : list (bytes * bytes); sc_pws : list bytes }.

Definition covered (sc : scope) (o : op) : Prop :=
  op_valid o /\ incl (op_sites o) (sc_sites sc) /\ incl (op_ids o) (sc_ids sc) /\ incl (op_passwords o) (sc_pws sc).

(** Exactly what a history mentions. *)
Definition mentioned (l : list op) : scope :=
  mk_scope (flat_map op_sites l) (flat_map op_ids l) (flat_map op_passwords l).

(** A history that starts with nothing and stays within a scope; nothing in the scope causes trouble by
    hash collisions, wrong keys that work or NUL characters in names (C21), and no [reset] of an unlocked
    instance fails (C32). *)
Record sound (P : prims) (sc : scope) (l : list op) (s : st) : Prop := {
  so_prims : prims_ok P;
  so_fresh : fresh P s;
  so_sites : forall x, In x (sc_sites sc) -> utf8 x = true;
  so_ids : forall n r, In (n, r) (sc_ids sc) -> utf8 n = true /\ utf8 r = true /\ ~ In x00 n;
  so_covered : Forall (covered sc) l;
  so_calm : calm_run P l s;
  so_assumptions : assumptions P (sc_sites sc) (sc_ids sc) (sc_pws sc) (s_rand (snd (run P l s)))
}.

(** The site that calls about passwords of [x] are about. *)
Definition resolved (P : prims) (s : st) (x : bytes) : bytes :=
  match fst (exec P (GetAlias x) s) with OText a => a | _ => host x end.

(** The entry a call changes. *)
Definition addresses (P : prims) (s : st) (o : op) (i : pid) : Prop :=
  match o with
  | SetGenerated x n r _ _ | SetStored x n r _ | SetNotes x n r _ | Remove x n r => i = (resolved P s x, n, rev_of r)
  | _ => False
  end.

(** * What the data looks like (C38) *)

(** An encrypted value: nonce and ciphertext. *)
Definition encrypts (P : prims) (key text value : bytes) : Prop :=
  exists rnd, let nonce := p_random P rnd 12 in
  value = b64_encode nonce ++ "_"%byte :: b64_encode (p_seal P key nonce text).

Definition entry_of (i : pid) (e : entry) : password :=
  let id := mk_id i.1.1 i.1.2 i.2 in
  match e_secret e with
  | SGenerated len cs => Generated (mk_generated id len cs (e_notes e))
  | SFixed t => Stored (mk_stored id t (e_notes e))
  end.

Definition hashed (P : prims) (i : nat) (text : bytes) : bytes := b64_encode (p_hmac P (p_random P (i + 1) 32) text).

(** The data for vault [v], for primary password [pp] and the salt drawn as [i]-th random value. *)
Record contents (P : prims) (pp : bytes) (i : nat) (d : kvmap) (v : vault) : Prop := {
  co_salt : d !! bs "salt" = Some (b64_encode (p_random P i 16));
  co_hmac : exists c, d !! bs "hmac-secret" = Some c /\
    encrypts P (key_for P pp i) (x22 :: b64_encode (p_random P (i + 1) 32) ++ [x22]) c;
  co_site : forall x a, v_sites v !! x = Some a ->
    exists c, d !! (bs "site:" ++ hashed P i x) = Some c /\
      encrypts P (key_for P pp i) (site_to_vec (mk_site x a)) c;
  co_pw : forall x n r e, v_pw v !! (x, n, r) = Some e ->
    exists c, d !! (bs "site:" ++ hashed P i x ++ ":"%byte :: hashed P i (id_string x n r)) = Some c /\
      encrypts P (key_for P pp i) (password_to_vec (entry_of (x, n, r) e)) c;
  co_nothing_else : forall k, is_Some (d !! k) ->
    k = bs "salt" \/ k = bs "hmac-secret" \/
    (exists x, is_Some (v_sites v !! x) /\ k = bs "site:" ++ hashed P i x) \/
    (exists x n r, is_Some (v_pw v !! (x, n, r)) /\
                   k = bs "site:" ++ hashed P i x ++ ":"%byte :: hashed P i (id_string x n r))
}.

(** Length of an encrypted value: 16 characters nonce, underscore, padded base64 of text and 16 byte tag. *)
Definition sealed_size (text : bytes) : nat := 17 + 4 * ((length text + 18) / 3).
(** Length of a member ["key":"value",] in the file. *)
Definition member_size (key value : nat) : nat := key + value + 6.
Fixpoint total (l : list nat) : nat := match l with [] => 0 | n :: l' => n + total l' end.
Definition file_size (v : vault) : nat :=
  total (map (fun '(x, a) => member_size 49 (sealed_size (site_to_vec (mk_site x a)))) (map_to_list (v_sites v))) +
  total (map (fun '(i, e) => member_size 94 (sealed_size (password_to_vec (entry_of i e)))) (map_to_list (v_pw v))).

(** Histories that differ only in the stored texts and notes, which are equally long in JSON. *)
Definition same_size (t t' : bytes) : Prop := length (string_to_vec t) = length (string_to_vec t').
Inductive similar : op -> op -> Prop :=
| sim_stored x n r t t' : same_size t t' -> similar (SetStored x n r t) (SetStored x n r t')
| sim_notes x n r t t' : same_size t t' -> similar (SetNotes x n r t) (SetNotes x n r t')
| sim_code x n r t x' n' r' t' : similar (RecoveryCode x n r t) (RecoveryCode x' n' r' t')
| sim_same o : similar o o.
