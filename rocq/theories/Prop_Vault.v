(** C23, C25, C30, C32-C34, C38: histories of calls. *)
From stdpp Require Import gmap.
From Verif Require Import M_Base M_Base64 M_Utf8 M_Prims M_Types M_Crypto M_Recovery M_Serde M_Storage M_Passwords
  S_Policy S_Recovery S_Vault M_History S_Api S_History P_Base P_Storage P_Api P_Calls P_Sound P_Size P_Similar P_Corollary P_Props
  T_Toy T_History.

(** C23. Whatever happens to the file, the results of all calls are those of the vault. *)
Theorem C23_behaves_like_vault : forall P l s,
  prims_ok P -> fresh P s -> Forall op_valid l -> names_ok l -> calm_run P l s ->
  assumptions P (flat_map op_sites l) (flat_map op_ids l) (flat_map op_passwords l) (s_rand (snd (run P l s))) ->
  exists wrs, writes_ok P l wrs s /\ Forall2 (agrees P) (fst (run P l s)) (snd (vrun P wrs nothing l)).
Proof. exact history_vault. Qed.
Print Assumptions C23_behaves_like_vault.

(** If writing never fails. *)
Theorem C23_behaves_like_vault_saved : forall P l s,
  prims_ok P -> (forall n, p_write P n = WriteOk) -> fresh P s -> Forall op_valid l -> names_ok l ->
  assumptions P (flat_map op_sites l) (flat_map op_ids l) (flat_map op_passwords l) (s_rand (snd (run P l s))) ->
  Forall2 (agrees P) (fst (run P l s)) (snd (vrun P (repeat Saved (length l)) nothing l)).
Proof. exact history_saved. Qed.
Print Assumptions C23_behaves_like_vault_saved.

(** The hypotheses hold for a history with a bit of everything, and the results are not trivial. *)
Example C23_example :
  let P := toy_release in
  prims_ok P /\ (forall n, p_write P n = WriteOk) /\ fresh P start /\
  Forall op_valid story /\ names_ok story /\ calm_run P story start /\
  assumptions P (flat_map op_sites story) (flat_map op_ids story) (flat_map op_passwords story) (s_rand (snd (run P story start))) /\
  firstn 17 (fst (run P story start)) =
  [ODone; ODone; ODone; ODone; ODone; OText (bs "note"); OText []; ODone; OErr DecryptionFailure; OErr PasswordsLocked;
   ODone; ODone; OText (bs "MwuKwN>2");
   OPasswords [(bs "a", bs "n", [], mk_entry (SFixed (bs "p1")) (bs "note"));
               (bs "a", bs "n", bs "2", mk_entry (SGenerated 8 all_chars) [])];
   OSites [(bs "a", None); (bs "b", Some (bs "a"))]; ODone; ODone].
Proof.
  pose proof story_sound as [H1 H2 _ _ _ H6 H7].
  split; [exact H1|]. split; [reflexivity|]. split; [exact H2|].
  split; [|split; [|split; [exact H6|split; [exact H7|]]]].
  - apply List.Forall_forall. intros o Ho. apply check_valid_ok. revert o Ho. apply forallb_forall. vm_compute. reflexivity.
  - apply check_names_ok. vm_compute. reflexivity.
  - rewrite <- outs_run. vm_compute. reflexivity.
Qed.

(** C25 in terms of other calls: changing one password leaves all others as they are. *)
Theorem C25_other_passwords_unchanged : forall P sc l s0,
  sound P sc l s0 -> let s1 := snd (run P l s0) in
  forall o i q x n r,
  unlocked s1 = true -> covered sc o -> covered sc (Has x n r) -> addresses P s1 o i -> performed (fst (exec P o s1)) ->
  q = Get x n r \/ q = GetNotes x n r \/ q = Has x n r -> i <> (resolved P s1 x, n, rev_of r) ->
  fst (exec P q (snd (exec P o s1))) = fst (exec P q s1).
Proof. exact others_unchanged. Qed.
Print Assumptions C25_other_passwords_unchanged.

(** Changing one site leaves the others as they are. *)
Theorem C25_other_sites_unchanged : forall P sc l s0,
  sound P sc l s0 -> let s1 := snd (run P l s0) in
  forall o q x n r,
  unlocked s1 = true -> covered sc o -> covered sc (Has x n r) ->
  match o with
  | SetAlias y _ | RemoveAlias y => host y <> host x
  | RemoveSites ys => ~ In (host x) ys
  | _ => False
  end ->
  performed (fst (exec P o s1)) ->
  (q = Get x n r \/ q = GetNotes x n r \/ q = Has x n r) \/ q = GetAlias x ->
  fst (exec P q (snd (exec P o s1))) = fst (exec P q s1).
Proof. exact site_others_unchanged. Qed.
Print Assumptions C25_other_sites_unchanged.

Example C25_others_example :
  let o := SetNotes (bs "a") (bs "n") [] (bs "note") in
  sound toy_release (mentioned story) story1 start /\
  covered (mentioned story) o /\ covered (mentioned story) (Has (bs "a") (bs "n") (bs "2")) /\
  after toy_release story1 o = ODone /\ after toy_release story1 (GetAlias (bs "a")) = OErr NoSuchAlias /\
  after toy_release story1 (Has (bs "a") (bs "n") (bs "2")) = OBool true /\
  (bs "a", bs "n", rev_of []) <> (bs "a", bs "n", rev_of (bs "2")).
Proof.
  split; [apply story_sound1|]. split; [apply story_covers; vm_compute; tauto|]. split; [|vm_compute; repeat split; discriminate].
  apply (proj1 (cover_notes (mentioned story) _ _ _)), story_covers. vm_compute. tauto.
Qed.

(** C30. *)
Theorem C30_unlock_after_reset : forall P sc l p l2 s0 q,
  sound P sc (l ++ Reset p :: l2) s0 -> fst (exec P (Reset p) (snd (run P l s0))) = ODone ->
  Forall (fun o => is_reset o = false) l2 -> covered sc (Unlock q) ->
  let s := snd (run P (l ++ Reset p :: l2) s0) in
  (~ In Restart l2 \/ (forall n k, p_write P n <> WriteFailsAfter k) -> fst (exec P Initialized s) = OBool true) /\
  (fst (exec P Initialized s) = OBool true ->
     (q = p -> fst (exec P (Unlock q) s) = ODone) /\
     (q <> p -> exec P (Unlock q) s = (OErr DecryptionFailure, s))) /\
  (fst (exec P Initialized s) = OBool false -> exec P (Unlock q) s = (OErr StorageNotInitialized, s)).
Proof. exact reset_unlock. Qed.
Print Assumptions C30_unlock_after_reset.

Theorem C30_failed_unlock_changes_nothing : forall P pp s,
  (fst (exec P (Unlock pp) s) = ODone /\
   exists key h, secrets (snd (exec P (Unlock pp) s)) = (Some key, Some h, Some pp) /\
     s_data (snd (exec P (Unlock pp) s)) = s_data s /\ s_disk (snd (exec P (Unlock pp) s)) = s_disk s) \/
  (fst (exec P (Unlock pp) s) <> ODone /\ snd (exec P (Unlock pp) s) = s).
Proof. exact unlock_cases. Qed.
Print Assumptions C30_failed_unlock_changes_nothing.

Example C30_example :
  sound toy_release (mentioned story) ([] ++ Reset (bs "secret") :: skipn 1 story) start /\
  fst (exec toy_release (Reset (bs "secret")) (snd (run toy_release [] start))) = ODone /\
  Forall (fun o => is_reset o = false) (skipn 1 story) /\
  covered (mentioned story) (Unlock (bs "secret")) /\ covered (mentioned story) (Unlock (bs "wrong!")).
Proof.
  split; [exact story_sound|]. split; [vm_compute; reflexivity|].
  split; [repeat (constructor; [reflexivity|]); constructor|]. split; apply story_covers; vm_compute; tauto.
Qed.

(** C32. A failed write is reported; except for [reset] the instance continues with the change, as if it
    had been written (and the next successful write saves it, C24). *)
Theorem C32_failure_is_reported : forall P o s,
  prims_ok P -> modifies o = true -> p_write P (s_flushes s) <> WriteOk -> fst (exec P o s) <> ODone.
Proof. exact failed_reported. Qed.
Print Assumptions C32_failure_is_reported.

Theorem C32_change_is_kept_in_memory : forall P o s w,
  modifies o = true -> is_reset o = false ->
  s_data (snd (exec P o s)) = s_data (snd (exec (with_writes P w) o s)) /\
  secrets (snd (exec P o s)) = secrets (snd (exec (with_writes P w) o s)).
Proof. exact failed_kept. Qed.
Print Assumptions C32_change_is_kept_in_memory.

(** A [reset] that cannot be written leaves an instance that acknowledges and returns passwords which no
    primary password brings back. *)
Definition unwritten : prims := toy false (fun n => match n with 1 => OpenFails | _ => WriteOk end).
Definition failed_reset : list op := [Reset (bs "secret"); Reset (bs "other!")].
Theorem C32_consistent_after_error_refuted :
  ~ (forall P l s x n r t q, prims_ok P -> fresh P s ->
       let at_ calls := snd (run P (l ++ calls) s) in
       fst (exec P (SetStored x n r t) (at_ [])) = ODone ->
       fst (exec P (Get x n r) (at_ [SetStored x n r t])) = OText t ->
       fst (exec P (Unlock q) (at_ [SetStored x n r t; Lock])) = ODone ->
       fst (exec P (Get x n r) (at_ [SetStored x n r t; Lock; Unlock q])) = OText t).
Proof.
  intros H. specialize (H unwritten failed_reset start (bs "a") (bs "n") [] (bs "p") (bs "other!") (toy_ok _ _) (start_fresh _)).
  cbv beta zeta in H. rewrite <- !after_eq in H.
  assert (forall a b, after unwritten a b <> OText (bs "p") -> after unwritten a b = OText (bs "p") -> False) as K by (intros; contradiction).
  refine (K _ _ _ (H _ _ _)); vm_compute; first [reflexivity|discriminate].
Qed.
Print Assumptions C32_consistent_after_error_refuted.

Example C32_example :
  after unwritten [Reset (bs "secret")] (SetStored (bs "a") (bs "n") [] (bs "p")) = OErr FileWriteFailure /\
  after unwritten [Reset (bs "secret"); SetStored (bs "a") (bs "n") [] (bs "p")] (Get (bs "a") (bs "n") []) = OText (bs "p") /\
  after unwritten [Reset (bs "secret"); SetStored (bs "a") (bs "n") [] (bs "p"); SetStored (bs "b") (bs "n") [] (bs "p");
                   Restart; Unlock (bs "secret")] (Get (bs "a") (bs "n") []) = OText (bs "p").
Proof. vm_compute. repeat split. Qed.

(** C33. (That [set_generated] and [set_stored] clear the notes is part of C35.) *)
Theorem C33_notes_are_set : forall P sc l s0,
  sound P sc l s0 -> let s1 := snd (run P l s0) in
  forall x n r t, unlocked s1 = true -> covered sc (SetNotes x n r t) ->
  performed (fst (exec P (SetNotes x n r t) s1)) ->
  let s2 := snd (exec P (SetNotes x n r t) s1) in
  fst (exec P (GetNotes x n r) s2) = OText t /\
  fst (exec P (Get x n r) s2) = fst (exec P (Get x n r) s1) /\
  fst (exec P (Has x n r) s1) = OBool true.
Proof. exact notes_after. Qed.
Print Assumptions C33_notes_are_set.

Theorem C33_other_notes_unchanged : forall P sc l s0,
  sound P sc l s0 -> let s1 := snd (run P l s0) in
  forall y m u t q x n r,
  unlocked s1 = true -> covered sc (SetNotes y m u t) -> covered sc (Has x n r) ->
  performed (fst (exec P (SetNotes y m u t) s1)) ->
  q = Get x n r \/ q = GetNotes x n r \/ q = Has x n r ->
  (resolved P s1 y, m, rev_of u) <> (resolved P s1 x, n, rev_of r) ->
  fst (exec P q (snd (exec P (SetNotes y m u t) s1))) = fst (exec P q s1).
Proof.
  intros P sc l s0 So s1 y m u t q x n r Hu Hc Hx Hp Hq Hne.
  exact (others_unchanged P sc l s0 So (SetNotes y m u t) _ q x n r Hu Hc Hx eq_refl Hp Hq Hne).
Qed.
Print Assumptions C33_other_notes_unchanged.

Example C33_example :
  let l := story1 in let o := SetNotes (bs "a") (bs "n") [] (bs "note") in
  sound toy_release (mentioned story) l start /\ covered (mentioned story) o /\
  after toy_release l Unlocked = OBool true /\ after toy_release l o = ODone /\
  after toy_release (l ++ [o]) (GetNotes (bs "a") (bs "n") []) = OText (bs "note").
Proof. split; [apply story_sound1|]. split; [apply story_covers; vm_compute; tauto|]. vm_compute. repeat split. Qed.

(** C34. *)
Theorem C34_list_exact : forall P sc l s0,
  sound P sc l s0 -> let s1 := snd (run P l s0) in
  forall x pattern, unlocked s1 = true -> covered sc (ListPasswords x pattern) ->
  exists items pp, s_primary s1 = Some pp /\ fst (exec P (ListPasswords x pattern) s1) = OPasswords items /\
    List.NoDup (map fst items) /\
    (forall y n r e, In (y, n, r, e) items -> y = resolved P s1 x /\ p_wild P pattern n = true) /\
    forall n r, covered sc (Has x n r) -> let i := (resolved P s1 x, n, rev_of r) in
      (fst (exec P (Has x n r) s1) = OBool true /\ p_wild P pattern n = true <-> exists e, In (i, e) items) /\
      forall e, In (i, e) items -> fst (exec P (GetNotes x n r) s1) = OText (e_notes e) /\
                                   fst (exec P (Get x n r) s1) = reveal P pp i (e_secret e).
Proof. exact list_exact. Qed.
Print Assumptions C34_list_exact.

Theorem C34_list_sites_exact : forall P sc l s0,
  sound P sc l s0 -> let s1 := snd (run P l s0) in
  forall pattern, unlocked s1 = true -> covered sc (ListSites pattern) ->
  exists items, fst (exec P (ListSites pattern) s1) = OSites items /\
    List.NoDup (map fst items) /\
    (forall y a, In (y, a) items -> p_wild P pattern y = true \/ exists t, a = Some t /\ p_wild P pattern t = true) /\
    forall y, host y = y -> covered sc (GetAlias y) ->
      (forall t, In (y, Some t) items <->
         fst (exec P (GetAlias y) s1) = OText t /\ (p_wild P pattern y = true \/ p_wild P pattern t = true)) /\
      (In (y, None) items -> fst (exec P (GetAlias y) s1) = OErr NoSuchAlias).
Proof. exact list_sites_exact. Qed.
Print Assumptions C34_list_sites_exact.

Example C34_example :
  let l := story1 ++ story2 in
  sound toy_release (mentioned story) l start /\
  covered (mentioned story) (ListPasswords (bs "b") (bs "*")) /\ covered (mentioned story) (ListSites (bs "*")) /\
  after toy_release l Unlocked = OBool true /\
  match after toy_release l (ListPasswords (bs "b") (bs "*")) with OPasswords items => length items = 2 | _ => False end.
Proof.
  split; [apply story_sound2|]. split; [apply story_covers; vm_compute; tauto|]. split; [apply story_covers; vm_compute; tauto|].
  vm_compute. repeat split.
Qed.

(** C38. In memory and in the file there are only the salt and ciphertexts of the entries, filed under HMACs. *)
Theorem C38_only_ciphertext : forall P sc l s0,
  sound P sc l s0 -> exists wrs, writes_ok P l wrs s0 /\
  let s := snd (run P l s0) in let w := fst (vrun P wrs nothing l) in
  match w_mem w with
  | Some (pp, v) => exists i, contents P pp i (s_data s) v
  | None => s_data s = ∅
  end /\
  match w_file w with
  | Some (pp, v) => exists i d, load P (s_disk s) = Ok d /\ contents P pp i d v
  | None => forall d, load P (s_disk s) <> Ok d
  end.
Proof. exact sound_contents. Qed.
Print Assumptions C38_only_ciphertext.

(** The size of the file. *)
Theorem C38_file_size : forall P sc l s0,
  sound P sc l s0 -> exists wrs, writes_ok P l wrs s0 /\
  match w_mem (fst (vrun P wrs nothing l)) with
  | Some (_, v) => length (flush_text P (snd (run P l s0))) = 193 + file_size v
  | None => True
  end.
Proof. exact sound_size. Qed.
Print Assumptions C38_file_size.

(** Histories with other secrets of the same sizes lead to files of the same size. *)
Theorem C38_size_reveals_only_sizes : forall P sc sc' l l' s s',
  (forall n, p_write P n = WriteOk) ->
  sound P sc l s -> sound P sc' l' s' -> Forall2 similar l l' -> s_data (snd (run P l s)) <> ∅ ->
  length (flush_text P (snd (run P l s))) = length (flush_text P (snd (run P l' s'))).
Proof. exact similar_size. Qed.
Print Assumptions C38_size_reveals_only_sizes.

Example C38_example :
  let l := [Reset (bs "secret"); SetStored (bs "a") (bs "n") [] (bs "p\")] in
  let l' := [Reset (bs "secret"); SetStored (bs "a") (bs "n") [] (bs "abc")] in
  sound toy_release (mentioned l) l start /\ sound toy_release (mentioned l') l' start /\ Forall2 similar l l' /\
  final toy_release l start (fun s => length (flush_text toy_release s)) = 538.
Proof.
  split; [apply check_sound_ok; [apply toy_ok|vm_compute; reflexivity]|].
  split; [apply check_sound_ok; [apply toy_ok|vm_compute; reflexivity]|].
  split; [|vm_compute; reflexivity].
  constructor; [apply sim_same|]. constructor; [apply sim_stored; vm_compute; reflexivity|constructor].
Qed.
