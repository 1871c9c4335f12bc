(** Vocabulary for C79: whether it shows how a vault came about. *)
From stdpp Require Import gmap.
From Verif Require Import M_Base M_Prims M_Types M_Storage S_Vault S_Api S_History.

(** The same entries. *)
Definition same_entries (v v' : vault) : Prop :=
  (forall x, v_sites v !! x = v_sites v' !! x) /\ (forall i, v_pw v !! i = v_pw v' !! i).
(** The same entries; the primary passwords may differ. *)
Definition same_contents (a b : option (bytes * vault)) : Prop :=
  match a, b with
  | Some (_, v), Some (_, v') => same_entries v v'
  | None, None => True
  | _, _ => False
  end.
(** The same entries and primary passwords in memory and in the file, both locked or both unlocked. *)
Definition same_saved (a b : option (bytes * vault)) : Prop := option_map fst a = option_map fst b /\ same_contents a b.
Definition same_state (w w' : world) : Prop :=
  same_saved (w_mem w) (w_mem w') /\ w_open w = w_open w' /\ same_saved (w_file w) (w_file w').

(** Results that are right for the same state: equal, but for the order of lists and the random part of recovery codes. *)
Definition same_answer (P : prims) (a b : out) : Prop := exists r, agrees P a r /\ agrees P b r.

(** * Calls that have nothing to do with each other *)

Section calls.
Context (v : vault).
(** The site whose alias, if it has one, the call follows or checks. *)
Definition follows (o : op) (x : bytes) : Prop :=
  match o with
  | SetGenerated s _ _ _ _ | SetStored s _ _ _ | SetNotes s _ _ _ | Remove s _ _ | SetAlias _ s | RemoveAlias s => x = host s
  | _ => False
  end.
(** The site that gets or loses an alias. *)
Definition redirects (o : op) (x : bytes) : Prop := match o with SetAlias s _ | RemoveAlias s => x = host s | _ => False end.
(** The site that is added if it is not there yet. *)
Definition adds (o : op) (x : bytes) : Prop :=
  match o with SetGenerated s _ _ _ _ | SetStored s _ _ _ => x = target v s | _ => False end.
(** The password that is set, changed or removed. *)
Definition edits (o : op) (i : pid) : Prop :=
  match o with
  | SetGenerated s n r _ _ | SetStored s n r _ | SetNotes s n r _ | Remove s n r => i = (target v s, n, rev_of r)
  | _ => False
  end.
Definition writing (o : op) : Prop :=
  match o with
  | SetGenerated _ _ _ _ _ | SetStored _ _ _ _ | SetNotes _ _ _ _ | Remove _ _ _ | SetAlias _ _ | RemoveAlias _ => True
  | _ => False
  end.
(** The first call does not touch what the second one is about. *)
Definition apart (a b : op) : Prop :=
  (forall x, redirects a x -> ~ follows b x /\ ~ redirects b x /\ ~ adds b x) /\
  (forall i, edits a i -> ~ edits b i /\ ~ (exists s t, b = SetAlias s t /\ pid_site i = host s)).
Definition independent (a b : op) : Prop := writing a /\ writing b /\ apart a b /\ apart b a.
End calls.

(** Calls of which no two have anything to do with each other. *)
Definition unrelated (v : vault) (l : list op) : Prop := Forall writing l /\ ForallOrdPairs (independent v) l.
