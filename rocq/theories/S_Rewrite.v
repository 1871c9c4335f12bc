(** Vocabulary for C78: which values in the file are replaced by a call. *)
From stdpp Require Import gmap.
From Verif Require Import M_Base M_Prims M_Types M_Storage S_Vault S_Api S_History S_Watch.

(** An entry of a vault: a site or a password. The entries that a call encrypts anew in an unlocked vault. *)
Definition slot : Type := bytes + pid.
Definition rewrites (v : vault) (o : op) (y : slot) : Prop :=
  match o with
  | SetAlias s a => y = inl (host s) /\ has_passwords v (host s) = false /\ host s <> target v a
  | SetGenerated s n r _ _ | SetStored s n r _ =>
      y = inr (target v s, n, rev_of r) \/ (y = inl (target v s) /\ v_sites v !! target v s = None)
  | SetNotes s n r _ => y = inr (target v s, n, rev_of r) /\ is_Some (v_pw v !! (target v s, n, rev_of r))
  | _ => False
  end.

(** Four files, two of each history: what is equal in the two files of one history is equal in those of the other. *)
Definition same_equalities (b : bytes -> bytes -> Prop) (r1 r2 r1' r2' : res kvmap) : Prop :=
  match r1, r2, r1', r2' with
  | Ok d1, Ok d2, Ok d1', Ok d2' => forall k k' c1 c2 c1' c2', b k k' ->
      d1 !! k = Some c1 -> d2 !! k = Some c2 -> d1' !! k' = Some c1' -> d2' !! k' = Some c2' -> (c1 = c2 <-> c1' = c2')
  | _, _, _, _ => True
  end.

(** A call replaces the value of an entry. *)
Definition replaces (w : world) (o : op) (y : slot) : Prop :=
  w_open w = true /\ exists p v, w_mem w = Some (p, v) /\ rewrites v o y.
Definition present (v : vault) (y : slot) : Prop :=
  match y with inl x => is_Some (v_sites v !! x) | inr z => is_Some (v_pw v !! z) end.
(** The vault after a history when every write succeeds. *)
Definition world_after (P : prims) (l : list op) : world := fst (vrun P (repeat Saved (length l)) nothing l).
