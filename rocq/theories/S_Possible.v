(** Vocabulary for C81: which vaults can come about. *)
From stdpp Require Import gmap.
From Verif Require Import M_Base M_Utf8 M_Prims M_Types S_Vault.

(** No site is an alias of itself; no revision is written as 1; texts are UTF-8, lengths are 64-bit. *)
Record possible (v : vault) : Prop := {
  po_self : forall x y, v_sites v !! x = Some (Some y) -> x <> y;
  po_site : forall x a, v_sites v !! x = Some a -> utf8 x = true /\ match a with Some y => utf8 y = true | None => True end;
  po_id : forall s n r e, v_pw v !! (s, n, r) = Some e -> utf8 s = true /\ utf8 n = true /\ utf8 r = true /\ r <> bs "1";
  po_entry : forall i e, v_pw v !! i = Some e -> utf8 (e_notes e) = true /\
    match e_secret e with SGenerated len _ => (len <= 18446744073709551615)%N | SFixed t => utf8 t = true end
}.

(** What a call may report: no alias is the site itself, no revision is written as 1. *)
Definition plausible (o : op) (r : out) : Prop :=
  match o, r with
  | GetAlias x, OText y => y <> host x
  | _, OSites l => forall x y, In (x, Some y) l -> x <> y
  | _, OPasswords l => forall s n r e, In ((s, n, r), e) l -> r <> bs "1"
  | _, _ => True
  end.
(** Sites that are aliases of each other. *)
Definition circular (v : vault) : Prop := exists x y, v_sites v !! x = Some (Some y) /\ v_sites v !! y = Some (Some x).
(** A password whose site is not among the sites. *)
Definition orphaned (v : vault) : Prop := exists i, is_Some (v_pw v !! i) /\ v_sites v !! pid_site i = None.
