(** What is printed does not depend on chance: notions used in the statements. *)
From stdpp Require Import gmap.
From Verif Require Import M_Base M_Base64 M_Prims M_Types M_Serde M_Storage M_Passwords M_Utf8 M_Cli M_History S_Vault S_Api S_History S_Cli S_Screen.

(** The same environment, but for the random values drawn, the order of the [HashMap] and how writing the file ends. *)
Definition with_luck (P : prims) (random : nat -> nat -> bytes) (order : nat -> kvmap -> list bytes)
  (writes : nat -> write_outcome) : prims := {|
  p_overflow_checks := p_overflow_checks P; p_hmac := p_hmac P; p_seal := p_seal P; p_open := p_open P;
  p_scrypt := p_scrypt P; p_random := random; p_order := order; p_wild := p_wild P;
  p_write := writes; p_float_ok := p_float_ok P |}.

(** Sites, names and revisions are texts; no name contains a NUL character (C21). *)
Record scope_texts (sc : scope) : Prop := {
  st_sites : forall x, In x (sc_sites sc) -> utf8 x = true;
  st_ids : forall n r, In (n, r) (sc_ids sc) -> utf8 n = true /\ utf8 r = true /\ ~ In x00 n
}.

(** The data is that of vault [v] for primary password [pp], and all of it is within the scope. Salt, HMAC secret and its
    nonce are random values drawn one after the other, as [reset] does it; they cause no trouble (C21, C32). *)
Record saved (P : prims) (sc : scope) (pp : bytes) (v : vault) (i : nat) (d : kvmap) : Prop := {
  sv_contents : contents P pp i d v;
  sv_nonce : let nonce := p_random P (i + 2) 12 in
    d !! bs "hmac-secret" = Some (b64_encode nonce ++ "_"%byte ::
      b64_encode (p_seal P (key_for P pp i) nonce (string_to_vec (b64_encode (p_random P (i + 1) 32)))));
  sv_password : In pp (sc_pws sc);
  sv_sites : forall x a, v_sites v !! x = Some a -> In x (sc_sites sc) /\ forall y, a = Some y -> In y (sc_sites sc);
  sv_ids : forall x n r, is_Some (v_pw v !! (x, n, r)) -> In x (sc_sites sc) /\ In (n, r) (sc_ids sc);
  sv_texts : texts_only v;
  sv_assumptions : assumptions P (sc_sites sc) (sc_ids sc) (sc_pws sc) (i + 3)
}.

(** What [list] finds under one site is looked up again: "www." may be dropped another time. *)
Record closed (sc : scope) : Prop := {
  cl_sites : forall x, In x (sc_sites sc) -> In (host x) (sc_sites sc);
  cl_ids : forall n r, In (n, r) (sc_ids sc) -> In (n, rev_of r) (sc_ids sc)
}.
(** No two passwords of a site look the same to [list] when sorting: a name, a space, a revision. *)
Definition sortable (sc : scope) : Prop :=
  forall n r n' r', In (n, r) (sc_ids sc) -> In (n', r') (sc_ids sc) ->
  n ++ bs " " ++ r = n' ++ bs " " ++ r' -> (n, r) = (n', r').

(** A command about the sites and names in question. Recovery codes contain random values. *)
Definition fits (sc : scope) (c : command) : Prop :=
  match c with
  | Add x n r _ _ _ _ _ _ | AddStored x n r _ _ | RemoveCmd x n r | Show x n r _ | Notes x n r _ =>
      In (host x) (sc_sites sc) /\ In (n, rev_of r) (sc_ids sc)
  | Alias x a _ => In (host x) (sc_sites sc) /\ match a with Some y => In (host y) (sc_sites sc) | None => True end
  | List _ _ _ recovery _ => recovery = false
  | SetPrimary _ | Shell => True
  end.
Definition lines_fit (sc : scope) (E : externals) (l : list readline) : Prop :=
  forall line c, In (Line line) l -> e_parse E line = SCommand c -> fits sc c.
(** Texts are entered; those that can be primary passwords are among the ones in question. *)
Definition entries_fit (sc : scope) (es : list (option bytes)) : Prop :=
  forall e, In (Some e) es -> utf8 e = true /\ (6 <= length (trim e) -> In (trim e) (sc_pws sc)).
