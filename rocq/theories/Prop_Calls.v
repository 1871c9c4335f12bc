(** C21, C22, C24-C29, C31, C35-C37 and C06: single calls in states that can be reached. *)
From stdpp Require Import gmap.
From Verif Require Import M_Base M_Base64 M_Utf8 M_Prims M_Types M_Crypto M_Recovery M_Serde M_Storage M_Passwords
  S_Policy S_Recovery S_Vault M_History S_Api S_History P_Base P_Storage P_Api P_Calls P_Sound P_Corollary P_Props
  T_Toy T_History.

(** Histories of the toy instance used in the examples. *)
Definition opened : list op := [Reset (bs "secret"); SetStored (bs "a") (bs "n") [] (bs "p1")].
Lemma reachable_run P l : reachable P (snd (run P l start)).
Proof. exists l, start. repeat split. left. reflexivity. Qed.
Lemma calm_toy l : calmly_reachable toy_release (snd (run toy_release l start)).
Proof.
  exists l, start. split; [repeat split; left; reflexivity|]. split; [|reflexivity].
  apply saved_calm; [apply toy_ok|reflexivity].
Qed.

(** C21. *)
Theorem C21_slots_distinct : forall P h s n r s' n' r',
  ~ In x00 n -> ~ In x00 n' ->
  (p_hmac P h s = p_hmac P h s' -> s = s') ->
  (p_hmac P h (id_string s n r) = p_hmac P h (id_string s' n' r') -> id_string s n r = id_string s' n' r') ->
  get_password_key P (mk_id s n r) h = get_password_key P (mk_id s' n' r') h ->
  (s, n, r) = (s', n', r').
Proof. exact slots_distinct. Qed.
Print Assumptions C21_slots_distinct.

Example C21_example :
  let P := toy_release in let h := bs "hmac" in
  (p_hmac P h (bs "a") <> p_hmac P h (bs "b")) /\
  (p_hmac P h (id_string (bs "a") (bs "n") []) <> p_hmac P h (id_string (bs "b") (bs "n") [])).
Proof. split; intros H; discriminate (f_equal (firstn 3) H). Qed.

(** With a NUL character in a name two identifiers share a slot, so that one password replaces the
    other: the claim without the condition on names is false. *)
Theorem C21_all_names_refuted : forall P h s n m r,
  (s, n ++ x00 :: m, r) <> (s, n, m ++ x00 :: r) /\
  get_password_key P (mk_id s (n ++ x00 :: m) r) h = get_password_key P (mk_id s n (m ++ x00 :: r)) h.
Proof.
  intros P h s n m r. split; [|apply slot_shared]. intros [= E _].
  apply (f_equal (@length byte)) in E. rewrite app_length in E. cbn in E. lia.
Qed.
Print Assumptions C21_all_names_refuted.

Theorem C21_other_name_read_refuted : forall P s x n m r t,
  prims_ok P -> reachable P s -> op_valid (SetStored x (n ++ x00 :: m) r t) ->
  performed (fst (exec P (SetStored x (n ++ x00 :: m) r t) s)) ->
  fst (exec P (Get x n (m ++ x00 :: rev_of r)) (snd (exec P (SetStored x (n ++ x00 :: m) r t) s))) = OText t.
Proof. intros P s x n m r t HP HR. exact (nul_replaces P HP s HR x n m r t). Qed.
Print Assumptions C21_other_name_read_refuted.

(** Likewise for the input of password generation. *)
Theorem C21_generation_input_refuted : forall s n m,
  m <> [] -> generation_input (s, n ++ x00 :: m, []) = generation_input (s, n, m).
Proof. exact generation_ambiguous. Qed.
Print Assumptions C21_generation_input_refuted.

(** C22. The slots of sites and passwords and the two reserved slots are different. *)
Theorem C22_slots_disjoint : forall P h h' x i,
  get_site_key P x h <> get_password_key P i h' /\
  get_site_key P x h <> bs "salt" /\ get_site_key P x h <> bs "hmac-secret" /\
  get_password_key P i h <> bs "salt" /\ get_password_key P i h <> bs "hmac-secret".
Proof.
  intros P h h' x i. split; [apply site_key_not_password|].
  destruct (site_key_not_reserved P h x), (password_key_not_reserved P h i). auto.
Qed.
Print Assumptions C22_slots_disjoint.

(** Listing sites does not look at other slots, listing passwords not at sites and other passwords
    (unless the HMAC of a site name collides). *)
Theorem C22_list_sites_looks_at_sites : forall P s s' k h p pattern,
  prims_ok P -> unlocked_with s k h p -> unlocked_with s' k h p ->
  (forall key, s_data s' !! key <> s_data s !! key ->
     key = bs "salt" \/ key = bs "hmac-secret" \/ exists i h', key = get_password_key P i h') ->
  same_out (fst (exec P (ListSites pattern) s')) (fst (exec P (ListSites pattern) s)).
Proof. exact list_sites_same. Qed.
Print Assumptions C22_list_sites_looks_at_sites.

Theorem C22_list_looks_at_passwords_of_site : forall P s s' k h p x y pattern,
  prims_ok P -> unlocked_with s k h p -> unlocked_with s' k h p ->
  resolve_site P (s_data s) x h k = Ok y ->
  (forall key, s_data s' !! key <> s_data s !! key ->
     key = bs "salt" \/ key = bs "hmac-secret" \/
     (exists z, key = get_site_key P z h /\ p_hmac P h z <> p_hmac P h (host x)) \/
     (exists i, key = get_password_key P i h /\ p_hmac P h (id_site i) <> p_hmac P h y)) ->
  same_out (fst (exec P (ListPasswords x pattern) s')) (fst (exec P (ListPasswords x pattern) s)).
Proof. exact list_passwords_same. Qed.
Print Assumptions C22_list_looks_at_passwords_of_site.

(** Adding a password to an existing site changes no list of sites, and no list for other sites. *)
Example C22_example :
  let P := toy_release in let o := SetStored (bs "a") (bs "m") [] (bs "p2") in
  after P opened (ListSites (bs "*")) = OSites [(bs "a", None)] /\
  after P (opened ++ [o]) (ListSites (bs "*")) = OSites [(bs "a", None)] /\
  after P opened (ListPasswords (bs "b") (bs "*")) = after P (opened ++ [o]) (ListPasswords (bs "b") (bs "*")) /\
  after P opened (ListPasswords (bs "a") (bs "*")) <> after P (opened ++ [o]) (ListPasswords (bs "a") (bs "*")).
Proof. repeat split; try (vm_compute; reflexivity). vm_compute. discriminate. Qed.

(** C24. *)
Theorem C24_acknowledged_is_saved : forall P s o,
  prims_ok P -> reachable P s -> modifies o = true -> fst (exec P o s) = ODone ->
  let s' := snd (exec P o s) in
  s_disk s' = Some (flush_text P s') /\ load P (s_disk s') = Ok (s_data s').
Proof. intros P s o HP HR. exact (saved_after P HP s HR o). Qed.
Print Assumptions C24_acknowledged_is_saved.

Theorem C24_restart_and_unlock : forall P o s pp,
  prims_ok P -> calmly_reachable P s -> calmly_reachable P (snd (exec P o s)) ->
  modifies o = true -> fst (exec P o s) = ODone ->
  let s' := snd (exec P o s) in
  s_primary s' = Some pp ->
  let s2 := snd (exec P (Unlock pp) (snd (exec P Restart s'))) in
  fst (exec P (Unlock pp) (snd (exec P Restart s'))) = ODone /\
  s_data s2 = s_data s' /\ secrets s2 = secrets s' /\ s_disk s2 = s_disk s'.
Proof. exact restart_unlock. Qed.
Print Assumptions C24_restart_and_unlock.

Theorem C24_failed_open_keeps_file : forall P s o,
  prims_ok P ->
  p_write P (s_flushes s) = CreateDirFails \/ p_write P (s_flushes s) = OpenFails ->
  s_disk (snd (exec P o s)) = s_disk s.
Proof. intros P s o HP. exact (file_kept P HP s o). Qed.
Print Assumptions C24_failed_open_keeps_file.

Example C24_example :
  let P := toy_release in let o := SetStored (bs "a") (bs "m") [] (bs "p2") in
  calmly_reachable P (snd (run P opened start)) /\ after P opened o = ODone /\
  after P (opened ++ [o; Restart; Unlock (bs "secret")]) (Get (bs "a") (bs "m") []) = OText (bs "p2") /\
  let Q := toy false (fun n => match n with 2 => OpenFails | _ => WriteOk end) in
  after Q opened o = OErr FileWriteFailure /\
  after Q (opened ++ [o]) (Get (bs "a") (bs "m") []) = OText (bs "p2") /\
  after Q (opened ++ [o; Restart; Unlock (bs "secret")]) (Get (bs "a") (bs "m") []) = OErr KeyMissing /\
  after Q (opened ++ [o; Restart; Unlock (bs "secret")]) (Get (bs "a") (bs "n") []) = OText (bs "p1").
Proof. split; [apply calm_toy|]. vm_compute. repeat split. Qed.

(** C25. Calls that modify change no other slots; calls that read change nothing at all. *)
Theorem C25_other_slots_unchanged : forall P o s slot,
  modifies o = true -> is_reset o = false -> ~ touched P o s slot ->
  s_data (snd (exec P o s)) !! slot = s_data s !! slot.
Proof. exact exec_frame. Qed.
Print Assumptions C25_other_slots_unchanged.

Theorem C25_reading_changes_nothing : forall P o s,
  reading o = true ->
  same_but_random s (snd (exec P o s)) /\
  (match o with RecoveryCode _ _ _ _ => False | _ => True end -> snd (exec P o s) = s).
Proof. exact exec_reading. Qed.
Print Assumptions C25_reading_changes_nothing.

Example C25_example :
  let o := SetStored (bs "a") (bs "m") [] (bs "p2") in
  modifies o = true /\ is_reset o = false /\
  final toy_release opened start (fun s => bool_decide (is_Some (s_data s !! get_password_key toy_release
    (mk_id (bs "a") (bs "n") []) (fit 32 (x01 :: bs "abcdefghijklmnopqrstuvwxyz"))))) = true.
Proof. vm_compute. repeat split. Qed.

(** C26. *)
Theorem C26_spelling_is_irrelevant : forall P o f s,
  (forall x, host (f x) = host x) -> exec P (respell f o) s = exec P o s.
Proof. exact exec_respell. Qed.
Print Assumptions C26_spelling_is_irrelevant.

Theorem C26_alias_is_transparent : forall P o x a s,
  fst (exec P (GetAlias x) s) = OText a -> host a = a ->
  fst (exec P (GetAlias a) s) = OErr NoSuchAlias ->
  exec P (at_site x o) s = exec P (at_site a o) s.
Proof. exact exec_alias. Qed.
Print Assumptions C26_alias_is_transparent.

Definition with_www (x : bytes) : bytes := if bytes_eqb (host x) x then bs "www." ++ x else x.
Example C26_example :
  (forall x, host (with_www x) = host x) /\
  with_www (bs "a") = bs "www.a" /\
  let l := opened ++ [SetAlias (bs "b") (bs "www.a")] in
  after toy_release l (GetAlias (bs "b")) = OText (bs "a") /\
  after toy_release l (GetAlias (bs "a")) = OErr NoSuchAlias /\
  after toy_release l (Get (bs "b") (bs "n") []) = OText (bs "p1").
Proof.
  split; [|vm_compute; repeat split].
  intros x. unfold with_www. destruct (bytes_eqb (host x) x) eqn:E; [|reflexivity].
  apply bytes_eqb_eq in E. transitivity x; [reflexivity|symmetry; exact E].
Qed.

(** C27. What [set_alias] and [remove_alias] do. *)
Theorem C27_alias_set : forall P s x a,
  prims_ok P -> reachable P s -> op_valid (SetAlias x a) -> performed (fst (exec P (SetAlias x a) s)) ->
  fst (exec P (GetAlias x) (snd (exec P (SetAlias x a) s))) = OText (resolved P s a) /\ resolved P s a <> host x.
Proof. intros P s x a HP HR. exact (alias_after P HP s HR x a). Qed.
Print Assumptions C27_alias_set.

Theorem C27_no_passwords_hidden : forall P s x a,
  prims_ok P -> reachable P s -> op_valid (SetAlias x a) -> performed (fst (exec P (SetAlias x a) s)) ->
  fst (exec P (GetAlias x) s) = OErr NoSuchAlias ->
  forall n r t, fst (exec P (Get x n r) s) <> OText t.
Proof. intros P s x a HP HR. exact (alias_no_passwords P HP s HR x a). Qed.
Print Assumptions C27_no_passwords_hidden.

Theorem C27_alias_removed : forall P s x,
  prims_ok P -> reachable P s -> performed (fst (exec P (RemoveAlias x) s)) ->
  (exists t, fst (exec P (GetAlias x) s) = OText t) /\
  fst (exec P (GetAlias x) (snd (exec P (RemoveAlias x) s))) = OErr NoSuchAlias.
Proof. intros P s x HP HR. exact (alias_removed P HP s HR x). Qed.
Print Assumptions C27_alias_removed.

Definition chain : list op :=
  [Reset (bs "secret"); SetAlias (bs "a") (bs "b"); SetAlias (bs "b") (bs "c")].
Example C27_example :
  after toy_release (firstn 2 chain) (GetAlias (bs "b")) = OErr NoSuchAlias /\
  after toy_release (firstn 2 chain) (SetAlias (bs "b") (bs "c")) = ODone /\
  after toy_release chain (SetAlias (bs "c") (bs "b")) = OErr AliasToSelf /\
  after toy_release (chain ++ [SetStored (bs "c") (bs "n") [] (bs "p")]) (SetAlias (bs "c") (bs "d")) = OErr SiteHasPasswords /\
  after toy_release (chain ++ [RemoveAlias (bs "b")]) (GetAlias (bs "b")) = OErr NoSuchAlias.
Proof. vm_compute. repeat split. Qed.

(** An alias can point to an alias ... *)
Theorem C27_points_to_regular_site_refuted :
  ~ (forall P l s x y, prims_ok P -> fresh P s -> fst (exec P (GetAlias x) (snd (run P l s))) = OText y ->
       fst (exec P (GetAlias y) (snd (run P l s))) = OErr NoSuchAlias).
Proof.
  intros H. specialize (H toy_release chain start (bs "a") (bs "b") (toy_ok _ _) (start_fresh _)).
  rewrite <- !after_eq in H. assert (after toy_release chain (GetAlias (bs "a")) = OText (bs "b")) as E by (vm_compute; reflexivity).
  specialize (H E). vm_compute in H. discriminate H.
Qed.
Print Assumptions C27_points_to_regular_site_refuted.

(** ... and then passwords set through it cannot be found under the site they belong to. *)
Theorem C27_found_under_own_site_refuted :
  ~ (forall P l s x n r t y, prims_ok P -> fresh P s -> let s' := snd (run P (l ++ [SetStored x n r t]) s) in
       fst (exec P (Get x n r) s') = OText t -> fst (exec P (GetAlias x) s') = OText y ->
       fst (exec P (Get y n r) s') = OText t).
Proof.
  intros H. specialize (H toy_release chain start (bs "a") (bs "n") [] (bs "p") (bs "b") (toy_ok _ _) (start_fresh _)).
  cbv zeta in H. rewrite <- !after_eq in H.
  assert (after toy_release (chain ++ [SetStored (bs "a") (bs "n") [] (bs "p")]) (Get (bs "a") (bs "n") []) = OText (bs "p")) as E1
    by (vm_compute; reflexivity).
  assert (after toy_release (chain ++ [SetStored (bs "a") (bs "n") [] (bs "p")]) (GetAlias (bs "a")) = OText (bs "b")) as E2
    by (vm_compute; reflexivity).
  specialize (H E1 E2). vm_compute in H. discriminate H.
Qed.
Print Assumptions C27_found_under_own_site_refuted.

(** C28. *)
Theorem C28_revision_1_is_empty : forall P o s, exec P (at_revision (bs "1") o) s = exec P (at_revision [] o) s.
Proof. intros P o s. apply exec_revision. exact rev_of_1. Qed.
Print Assumptions C28_revision_1_is_empty.

Theorem C28_no_other_revisions_identified : forall s n r r',
  password_id_new s n r = password_id_new s n r' <->
  r = r' \/ (r = [] /\ r' = bs "1") \/ (r = bs "1" /\ r' = []).
Proof. exact same_revision. Qed.
Print Assumptions C28_no_other_revisions_identified.

Example C28_example :
  after toy_release (opened ++ [SetStored (bs "a") (bs "n") (bs "01") (bs "p2")]) (Get (bs "a") (bs "n") (bs "1")) = OText (bs "p1") /\
  after toy_release (opened ++ [SetStored (bs "a") (bs "n") (bs "1") (bs "p2")]) (Get (bs "a") (bs "n") []) = OText (bs "p2").
Proof. vm_compute. repeat split. Qed.

(** C29. *)
Theorem C29_locked_refuses : forall P s o,
  prims_ok P -> reachable P s -> unlocked s = false -> needs_secrets o = true ->
  exec P o s = (OErr PasswordsLocked, s).
Proof. intros P s o HP HR. exact (locked_calls P HP s HR o). Qed.
Print Assumptions C29_locked_refuses.

Theorem C29_locked_lists_panic : forall P s o,
  prims_ok P -> reachable P s -> unlocked s = false ->
  match o with ListPasswords _ _ | ListSites _ => True | _ => False end -> exec P o s = (OPanic, s).
Proof. intros P s o HP HR. exact (locked_lists P HP s HR o). Qed.
Print Assumptions C29_locked_lists_panic.

Theorem C29_locked_no_recovery_code : forall P s x n r t,
  prims_ok P -> reachable P s -> unlocked s = false -> exists e, exec P (RecoveryCode x n r t) s = (OErr e, s).
Proof. intros P s x n r t HP HR. exact (locked_code P HP s HR x n r t). Qed.
Print Assumptions C29_locked_no_recovery_code.

Theorem C29_lock_erases : forall P s, let s' := snd (exec P Lock s) in
  fst (exec P Lock s) = ODone /\ locked s' /\ s_data s' = s_data s /\ s_disk s' = s_disk s.
Proof. repeat split. Qed.
Print Assumptions C29_lock_erases.

Theorem C29_no_partial_secrets : forall P s,
  prims_ok P -> reachable P s -> locked s \/ exists k h p, unlocked_with s k h p /\ length k = 32.
Proof. intros P s HP HR; exact (reachable_cases P HP s HR). Qed.
Print Assumptions C29_no_partial_secrets.

Theorem C29_unlock_restores : forall P s pp,
  prims_ok P -> calmly_reachable P s -> s_primary s = Some pp ->
  exec P (Unlock pp) (snd (exec P Lock s)) = (ODone, s).
Proof. exact lock_unlock. Qed.
Print Assumptions C29_unlock_restores.

Example C29_example :
  let l := opened ++ [Lock] in
  after toy_release l Unlocked = OBool false /\
  after toy_release l (Get (bs "a") (bs "n") []) = OErr PasswordsLocked /\
  after toy_release l (ListSites (bs "*")) = OPanic /\
  calmly_reachable toy_release (snd (run toy_release opened start)) /\
  final toy_release opened start (fun s => bytes_eqb (match s_primary s with Some p => p | None => [] end) (bs "secret")) = true.
Proof. split; [|split; [|split; [|split; [apply calm_toy|]]]]; vm_compute; reflexivity. Qed.

(** C31. *)
Theorem C31_reset_empties : forall P pp s,
  prims_ok P -> fst (exec P (Reset pp) s) = ODone ->
  let s' := snd (exec P (Reset pp) s) in
  fst (exec P Initialized s') = OBool true /\ fst (exec P Unlocked s') = OBool true /\
  s_primary s' = Some pp /\ s_disk s' = Some (flush_text P s') /\ load P (s_disk s') = Ok (s_data s') /\
  (forall pattern, fst (exec P (ListSites pattern) s') = OSites []) /\
  (forall x pattern, fst (exec P (ListPasswords x pattern) s') = OPasswords []) /\
  (forall x n r, fst (exec P (Has x n r) s') = OBool false) /\
  (forall k, is_Some (s_data s' !! k) <-> k = bs "salt" \/ k = bs "hmac-secret").
Proof. exact reset_empty. Qed.
Print Assumptions C31_reset_empties.

Example C31_example :
  after toy_release opened (Has (bs "a") (bs "n") []) = OBool true /\
  after toy_release opened (Reset (bs "other!")) = ODone /\
  after toy_release (opened ++ [Reset (bs "other!"); Restart; Unlock (bs "other!")]) (Has (bs "a") (bs "n") []) = OBool false.
Proof. vm_compute. repeat split. Qed.

(** C35. *)
Theorem C35_has_iff_get : forall P s x n r b,
  prims_ok P -> reachable P s -> fst (exec P (Has x n r) s) = OBool b ->
  (b = false <-> fst (exec P (Get x n r) s) = OErr KeyMissing).
Proof. intros P s x n r b HP HR. exact (has_iff_get P HP s HR x n r b). Qed.
Print Assumptions C35_has_iff_get.

Theorem C35_stored_is_returned : forall P s x n r t,
  prims_ok P -> reachable P s -> op_valid (SetStored x n r t) -> performed (fst (exec P (SetStored x n r t) s)) ->
  let s' := snd (exec P (SetStored x n r t) s) in
  fst (exec P (Get x n r) s') = OText t /\ fst (exec P (GetNotes x n r) s') = OText [] /\
  fst (exec P (Has x n r) s') = OBool true.
Proof. intros P s x n r t HP HR. exact (stored_after P HP s HR x n r t). Qed.
Print Assumptions C35_stored_is_returned.

Theorem C35_generated_is_function : forall P s x n r len cs pp,
  prims_ok P -> reachable P s -> op_valid (SetGenerated x n r len cs) ->
  performed (fst (exec P (SetGenerated x n r len cs) s)) -> s_primary s = Some pp ->
  let s' := snd (exec P (SetGenerated x n r len cs) s) in
  fst (exec P (Get x n r) s') =
    text_out (derive_password P pp (generation_input (resolved P s x, n, rev_of r)) len cs) /\
  fst (exec P (GetNotes x n r) s') = OText [] /\ fst (exec P (Has x n r) s') = OBool true.
Proof. intros P s x n r len cs pp HP HR. exact (generated_after P HP s HR x n r len cs pp). Qed.
Print Assumptions C35_generated_is_function.

Theorem C35_removed_is_gone : forall P s x n r,
  prims_ok P -> reachable P s -> performed (fst (exec P (Remove x n r) s)) ->
  let s' := snd (exec P (Remove x n r) s) in
  fst (exec P (Has x n r) s) = OBool true /\
  fst (exec P (Has x n r) s') = OBool false /\ fst (exec P (Get x n r) s') = OErr KeyMissing.
Proof. intros P s x n r HP HR. exact (removed_after P HP s HR x n r). Qed.
Print Assumptions C35_removed_is_gone.

Example C35_example :
  reachable toy_release (snd (run toy_release opened start)) /\
  after toy_release opened (SetGenerated (bs "a") (bs "g") [] 6 all_chars) = ODone /\
  is_ok (derive_password toy_release (bs "secret") (generation_input (bs "a", bs "g", [])) 6 all_chars) = true /\
  after toy_release opened (Remove (bs "a") (bs "n") (bs "1")) = ODone /\
  after toy_release opened (Remove (bs "a") (bs "m") []) = OErr KeyMissing.
Proof. split; [apply reachable_run|]. vm_compute. repeat split. Qed.

(** C06 for [get]: panics exactly for length 0, no character type, or a length no machine could handle. *)
Theorem C06_get_panics : forall P s x n r len cs,
  prims_ok P -> reachable P s -> op_valid (SetGenerated x n r len cs) ->
  performed (fst (exec P (SetGenerated x n r len cs) s)) ->
  fst (exec P (Get x n r) (snd (exec P (SetGenerated x n r len cs) s))) = OPanic <->
  (len = 0 \/ cs = cs_empty \/ 137438953471 < len)%N.
Proof. intros P s x n r len cs HP HR. exact (generated_panics P HP s HR x n r len cs). Qed.
Print Assumptions C06_get_panics.

Theorem C06_get_never_panics_refuted :
  ~ (forall P l s x n r, prims_ok P -> fresh P s -> fst (exec P (Get x n r) (snd (run P l s))) <> OPanic).
Proof.
  intros H.
  apply (H toy_release (opened ++ [SetGenerated (bs "a") (bs "g") [] 0 all_chars]) start (bs "a") (bs "g") [] (toy_ok _ _)
           (start_fresh _)).
  rewrite <- after_eq. vm_compute. reflexivity.
Qed.
Print Assumptions C06_get_never_panics_refuted.

(** C36. *)
Theorem C36_nonces_unique : forall P l s,
  prims_ok P -> fresh P s ->
  (forall i j, i < s_rand (snd (run P l s)) -> j < s_rand (snd (run P l s)) ->
     p_random P i 12 = p_random P j 12 -> i = j) ->
  forall i j o1 s1 o2 s2,
  nth_error (trace P l s) i = Some (o1, s1) -> nth_error (trace P l s) j = Some (o2, s2) ->
  (forall k1 v1 k2 v2 n, s_data s1 !! k1 = Some v1 -> s_data s2 !! k2 = Some v2 -> k1 <> bs "salt" -> k2 <> bs "salt" ->
     entry_nonce v1 n -> entry_nonce v2 n -> k1 = k2 /\ v1 = v2) /\
  (forall c k2 v2 n, o1 = OCode c -> s_data s2 !! k2 = Some v2 -> k2 <> bs "salt" ->
     code_nonce c n -> entry_nonce v2 n -> False) /\
  (forall c1 c2 n, o1 = OCode c1 -> o2 = OCode c2 -> code_nonce c1 n -> code_nonce c2 n -> i = j).
Proof. exact nonces_unique. Qed.
Print Assumptions C36_nonces_unique.

Example C36_example :
  let P := toy_release in let l := opened ++ [RecoveryCode [] [] [] (bs "p1")] in
  final P l start s_rand = 6 /\
  (forall i j, i < 6 -> j < 6 -> p_random P i 12 = p_random P j 12 -> i = j) /\
  match after P opened (RecoveryCode [] [] [] (bs "p1")) with OCode _ => True | _ => False end.
Proof.
  split; [vm_compute; reflexivity|]. split; [|vm_compute; exact I].
  intros i j Hi Hj E. apply (f_equal (fun l => hd x00 l)) in E.
  do 6 (destruct i as [|i]; [do 6 (destruct j as [|j]; [first [reflexivity|discriminate E]|]); lia|]). lia.
Qed.

(** C37. After each call the file is the old one or a prefix of the new text; an incomplete text is
    never loaded. *)
Theorem C37_old_or_prefix : forall P s o,
  prims_ok P -> reachable P s ->
  let s' := snd (exec P o s) in
  s_disk s' = s_disk s \/
  modifies o = true /\ exists p q, flush_text P s' = p ++ q /\ s_disk s' = Some p /\
    (q = [] -> load P (s_disk s') = Ok (s_data s')) /\
    (q <> [] -> load P (s_disk s') = Err FileReadFailure \/ load P (s_disk s') = Err InvalidJson).
Proof. intros P s o HP HR. exact (disk_after_call P HP s HR o). Qed.
Print Assumptions C37_old_or_prefix.

Definition torn : prims := toy false (fun n => match n with 2 => WriteFailsAfter 20 | _ => WriteOk end).
Example C37_example :
  after torn opened (SetStored (bs "a") (bs "m") [] (bs "p2")) = OErr FileWriteFailure /\
  after torn (opened ++ [SetStored (bs "a") (bs "m") [] (bs "p2"); Restart]) Initialized = OBool false.
Proof. vm_compute. repeat split. Qed.

(** An interrupted write destroys the old data. *)
Theorem C37_atomic_refuted :
  ~ (forall P l s o, prims_ok P -> fresh P s -> let s1 := snd (run P l s) in let s2 := snd (exec P o s1) in
       load P (s_disk s2) = load P (s_disk s1) \/ load P (s_disk s2) = Ok (s_data s2)).
Proof.
  intros H. specialize (H torn opened start (SetStored (bs "a") (bs "m") [] (bs "p2")) (toy_ok _ _) (start_fresh _)).
  cbv zeta in H.
  assert (is_ok (load torn (s_disk (snd (run torn opened start)))) = true) as E1
    by (rewrite <- (final_run torn opened start (fun s => is_ok (load torn (s_disk s)))); vm_compute; reflexivity).
  assert (is_ok (load torn (s_disk (snd (exec torn (SetStored (bs "a") (bs "m") [] (bs "p2")) (snd (run torn opened start)))))) = false) as E2
    by (rewrite <- (final_run torn opened start (fun s => is_ok (load torn (s_disk (snd (exec torn (SetStored (bs "a") (bs "m") [] (bs "p2")) s)))))); vm_compute; reflexivity).
  destruct H as [H|H].
  - rewrite H, E1 in E2. discriminate E2.
  - rewrite H in E2. discriminate E2.
Qed.
Print Assumptions C37_atomic_refuted.
