(** What somebody reading the output of [list] learns. *)
From stdpp Require Import gmap.
From Verif Require Import M_Base M_Prims M_Types M_Recovery M_Json S_Json S_Vault S_Api S_Cli.

Definition one_line (s : bytes) : Prop := ~ In newline s.

(** What is to be read off about a password: name, revision, kind; its value, its recovery code; its notes and how it is
    generated. *)
Definition item_view (show recovery verbose : bool) (it : shown) :=
  let '((_, n, r), e) := sh_item it in
  (n, r, match e_secret e with SGenerated _ _ => true | SFixed _ => false end,
   if show then Some (sh_value it) else None,
   match recovery, e_secret e with true, SFixed _ => Some (sh_code it) | _, _ => None end,
   if verbose then Some (e_notes e, match e_secret e with SGenerated len cs => Some (len, cs) | SFixed _ => None end)
   else None).
Definition group_view (show recovery verbose : bool) (g : group) :=
  (gr_site g, if verbose then gr_aliases g else [], map (item_view show recovery verbose) (gr_items g)).

(** Texts that cannot be mistaken: no line breaks, names that do not start with a space, revisions without parenthesis. *)
Definition name_tidy (n : bytes) : Prop := one_line n /\ forall w, n <> " "%byte :: w.
Definition revision_tidy (r : bytes) : Prop := one_line r /\ ~ In "("%byte r.
Definition alias_tidy (y : bytes) : Prop := one_line y /\ forall w, y <> w ++ [")"%byte].
Definition entry_tidy (show verbose : bool) (e : entry) : Prop :=
  (verbose = true -> one_line (e_notes e)) /\
  match e_secret e with
  | SGenerated len _ => (len <= u64_max)%N
  | SFixed text => show = true -> one_line text
  end.
Record item_tidy (show recovery verbose : bool) (it : shown) : Prop := {
  it_name : name_tidy (pid_name (sh_item it).1);
  it_revision : revision_tidy (sh_item it).1.2;
  it_entry : entry_tidy show verbose (sh_item it).2;
  it_value : show = true -> one_line (sh_value it);
  it_code : recovery = true -> forall text, e_secret (sh_item it).2 = SFixed text -> ~ In " "%byte (sh_code it)
}.
Record group_tidy (show recovery verbose : bool) (g : group) : Prop := {
  gt_site : one_line (gr_site g);
  gt_aliases : verbose = true -> Forall alias_tidy (gr_aliases g);
  gt_some : gr_items g <> [];
  gt_items : Forall (item_tidy show recovery verbose) (gr_items g)
}.

(** The same for everything stored. *)
Record vault_tidy (show verbose : bool) (v : vault) : Prop := {
  vt_sites : forall x a, v_sites v !! x = Some a -> alias_tidy x /\ forall y, a = Some y -> alias_tidy y;
  vt_ids : forall i e, v_pw v !! i = Some e -> name_tidy (pid_name i) /\ revision_tidy i.2;
  vt_entries : forall i e, v_pw v !! i = Some e -> entry_tidy show verbose e
}.

(** A password that is shown, and two passwords of which the same is shown. *)
Definition listed_as (P : prims) (v : vault) (domain name : bytes) (i : pid) (e : entry) : Prop :=
  shows_site P v domain (pid_site i) /\ shows_password P v name (pid_site i) i e.
Definition looks_like (show verbose : bool) (P : prims) (pp : bytes) (P' : prims) (pp' : bytes) (i : pid) (e e' : entry) : Prop :=
  (show = true -> reveal P pp i (e_secret e) = reveal P' pp' i (e_secret e')) /\
  (verbose = true -> e_notes e = e_notes e') /\
  match e_secret e, e_secret e' with
  | SGenerated len cs, SGenerated len' cs' => verbose = true -> len = len' /\ cs = cs'
  | SFixed text, SFixed text' => show = true -> text = text'
  | _, _ => False
  end.
