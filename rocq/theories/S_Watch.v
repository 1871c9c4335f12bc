(** Vocabulary for C77: somebody who sees the storage file after every call, without the primary password. *)
From stdpp Require Import gmap.
From Verif Require Import M_Base M_Prims M_Types M_Json M_Serde M_Storage S_Vault S_Api S_History.

(** Other names for sites, other names and revisions, other primary passwords. *)
Record renaming : Type := mk_renaming {
  on_site : bytes -> bytes;
  on_id : bytes * bytes -> bytes * bytes;
  on_primary : bytes -> bytes
}.
(** Different things get different names, equally long when written as JSON. The length of primary passwords does not matter. *)
Record fair (f : renaming) : Prop := {
  fa_site : forall x y, on_site f x = on_site f y -> x = y;
  fa_id : forall i j, on_id f i = on_id f j -> i = j;
  fa_primary : forall p q, on_primary f p = on_primary f q -> p = q;
  fa_site_size : forall x, same_size x (on_site f x);
  fa_id_size : forall n r, same_size n (on_id f (n, r)).1 /\ same_size r (on_id f (n, r)).2
}.

(** Calls the file of which looks the same: calls that only read are invisible; what is written has the same kind and the same size. *)
Section calls.
Context (f : renaming).
Definition site_for (s s' : bytes) : Prop := host s' = on_site f (host s).
Definition id_for (n r n' r' : bytes) : Prop := (n', rev_of r') = on_id f (n, rev_of r).
Inductive corresponds : op -> op -> Prop :=
| co_read o o' : reading o = true -> reading o' = true -> corresponds o o'
| co_reset p : corresponds (Reset p) (Reset (on_primary f p))
| co_unlock p : corresponds (Unlock p) (Unlock (on_primary f p))
| co_lock : corresponds Lock Lock
| co_restart : corresponds Restart Restart
| co_set_alias s a s' a' : site_for s s' -> site_for a a' -> corresponds (SetAlias s a) (SetAlias s' a')
| co_remove_alias s s' : site_for s s' -> corresponds (RemoveAlias s) (RemoveAlias s')
| co_remove_sites l : corresponds (RemoveSites l) (RemoveSites (map (on_site f) l))
| co_generated s n r len cs s' n' r' len' cs' : site_for s s' -> id_for n r n' r' ->
    length (write_number len) = length (write_number len') -> cs_len cs = cs_len cs' ->
    corresponds (SetGenerated s n r len cs) (SetGenerated s' n' r' len' cs')
| co_stored s n r t s' n' r' t' : site_for s s' -> id_for n r n' r' -> same_size t t' ->
    corresponds (SetStored s n r t) (SetStored s' n' r' t')
| co_notes s n r t s' n' r' t' : site_for s s' -> id_for n r n' r' -> same_size t t' ->
    corresponds (SetNotes s n r t) (SetNotes s' n' r' t')
| co_remove s n r s' n' r' : site_for s s' -> id_for n r n' r' -> corresponds (Remove s n r) (Remove s' n' r').
End calls.

(** A pairing of the keys in two files: one to one; salt and secret keep their places; the keys that start with another key
    and a colon - the passwords of a site - are paired with such keys. *)
Record pairing (b : bytes -> bytes -> Prop) : Prop := {
  pa_one : forall k k' m m', b k k' -> b m m' -> (k = m <-> k' = m');
  pa_salt : b (bs "salt") (bs "salt");
  pa_secret : b (bs "hmac-secret") (bs "hmac-secret");
  pa_prefix : forall k k' m m', b k k' -> b m m' ->
    ((exists t, m = k ++ ":"%byte :: t) <-> (exists t', m' = k' ++ ":"%byte :: t'))
}.

(** Two files with the same number of entries, paired ones equally long. *)
Definition matched (b : bytes -> bytes -> Prop) (d d' : kvmap) : Prop :=
  (forall k c, d !! k = Some c -> exists k' c', b k k' /\ d' !! k' = Some c' /\ length k' = length k /\ length c' = length c) /\
  (forall k' c', d' !! k' = Some c' -> exists k c, b k k' /\ d !! k = Some c /\ length k' = length k /\ length c' = length c).

(** What can be read from two files: both are usable and look alike, or neither is usable. *)
Definition look_alike (b : bytes -> bytes -> Prop) (r r' : res kvmap) : Prop :=
  match r, r' with
  | Ok d, Ok d' => matched b d d'
  | Ok _, _ | _, Ok _ => False
  | _, _ => True
  end.
