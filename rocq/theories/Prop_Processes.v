(** C59: several processes working on the same file. *)
From stdpp Require Import gmap.
From Verif Require Import M_Base M_Prims M_Types M_Recovery M_Storage M_Passwords S_Vault M_History S_Api S_History M_Cli S_Cli
  M_Processes S_Processes P_History P_Processes P_Blind T_Toy T_History T_Cli T_Processes.

(** Whatever the order of their calls, processes behave like vaults of C23 that load the file when they start and otherwise only
    ever replace it: every result is as described. *)
Theorem C59_behave_like_vaults : forall P sc l m, sound_all P sc l m ->
  exists wrs, all_writes_ok P l wrs m /\ Forall2 (agrees P) (fst (interleave P l m)) (snd (vinterleave P wrs no_vaults l)).
Proof. exact processes_vaults. Qed.
Print Assumptions C59_behave_like_vaults.

(** A process started after others saved sees everything as the last one that saved did. So the file is never a mixture. *)
Theorem C59_last_writer : forall P sc l p o l2 m pp q,
  sound_all P sc (l ++ (p, o) :: l2) m -> modifies o = true -> fst (act P p o (snd (interleave P l m))) = ODone ->
  Forall (fun '(_, o') => modifies o' = false) l2 ->
  let m1 := snd (act P p o (snd (interleave P l m))) in
  let m2 := snd (interleave P l2 m1) in
  m_primary (ma_procs m1 p) = Some pp ->
  let m3 := snd (act P q Restart m2) in
  let m4 := snd (act P q (Unlock pp) m3) in
  fst (act P q (Unlock pp) m3) = ODone /\
  forall o', covered sc o' -> reading o' = true -> same_result P (fst (act P p o' m1)) (fst (act P q o' m4)).
Proof. exact writer_seen. Qed.
Print Assumptions C59_last_writer.

(** A process that is running does not notice what the others do: it gets the same results as without them. *)
Theorem C59_isolated : forall P sc l0 l p m, (forall n, p_write P n = WriteOk) ->
  sound_all P sc (l0 ++ l) m -> sound_all P sc (l0 ++ calls_of p l) m ->
  Forall (fun '(_, o) => o <> Restart) (calls_of p l) ->
  let m0 := snd (interleave P l0 m) in
  Forall2 (same_result P) (outs_of p l (fst (interleave P l m0))) (fst (interleave P (calls_of p l) m0)).
Proof. exact isolated. Qed.
Print Assumptions C59_isolated.

(** If each process is done before the next one starts, it is as if there was only one process, restarted now and then: exactly the
    same results and file. So everything said about histories applies. *)
Theorem C59_one_at_a_time : forall P l p m, one_at_a_time p l ->
  exists q, fst (interleave P l m) = fst (run P (map snd l) (seen_by p m)) /\
            seen_by q (snd (interleave P l m)) = snd (run P (map snd l) (seen_by p m)).
Proof. exact sequential. Qed.
Print Assumptions C59_one_at_a_time.

(** But otherwise changes get lost, although all calls succeed and nobody removed anything. *)
Definition beginning : list (nat * op) := [(0, Restart); (0, Reset (bs "secret")); (1, Restart); (1, Unlock (bs "secret"))].
Definition change1 : op := SetStored (bs "a") (bs "n") [] (bs "p1").
Definition change2 : op := SetStored (bs "b") (bs "m") [] (bs "p2").
Definition look1 : op := Get (bs "a") (bs "n") [].
Definition look2 : op := Get (bs "b") (bs "m") [].
Definition ending : list (nat * op) := [(2, Restart); (2, Unlock (bs "secret")); (2, look1); (2, look2); (0, look1); (0, look2); (1, look1); (1, look2)].
Definition overlap : list (nat * op) := beginning ++ (0, change1) :: [(1, change2)].

Lemma overlap_sound : sound_all toy_release (mentions (overlap ++ ending)) (overlap ++ ending) new_machine.
Proof. apply check_all_ok; [apply toy_ok|reflexivity|]. vm_compute. reflexivity. Qed.
Lemma overlap_sound1 : sound_all toy_release (mentions (overlap ++ ending)) overlap new_machine.
Proof. apply check_all_ok; [apply toy_ok|reflexivity|]. vm_compute. reflexivity. Qed.

Theorem C59_no_update_lost_refuted :
  ~ (forall P sc l p x n r t l2 m q pp, (forall i, p_write P i = WriteOk) ->
       sound_all P sc (l ++ (p, SetStored x n r t) :: l2) m ->
       fst (act P p (SetStored x n r t) (snd (interleave P l m))) = ODone ->
       Forall (fun '(_, o) => exists x' n' r' t', o = SetStored x' n' r' t' /\ n' <> n) l2 ->
       let m1 := snd (interleave P (l ++ (p, SetStored x n r t) :: l2) m) in
       fst (act P q (Unlock pp) (snd (act P q Restart m1))) = ODone ->
       fst (act P q (Get x n r) (snd (act P q (Unlock pp) (snd (act P q Restart m1))))) = OText t).
Proof.
  intros H. specialize (H toy_release (mentions (overlap ++ ending)) beginning 0 (bs "a") (bs "n") [] (bs "p1") [(1, change2)] new_machine 2
    (bs "secret") (fun _ => eq_refl) overlap_sound1).
  assert (weave toy_release beginning new_machine (fun _ m => fst (act toy_release 0 change1 m)) = ODone) as E1 by (vm_compute; reflexivity).
  rewrite weave_eq in E1. specialize (H E1).
  assert (Forall (fun '((_, o) : nat * op) => exists x' n' r' t', o = SetStored x' n' r' t' /\ n' <> bs "n") [(1, change2)]) as E2.
  { constructor; [|constructor]. exists (bs "b"), (bs "m"), [], (bs "p2"). split; [reflexivity|discriminate]. }
  specialize (H E2). cbv zeta in H.
  assert (weave toy_release overlap new_machine (fun _ m => acting toy_release 2 Restart m (fun _ m' => acting toy_release 2 (Unlock (bs "secret")) m'
    (fun r m'' => (r, fst (act toy_release 2 look1 m''))))) = (ODone, OErr KeyMissing)) as E3 by (vm_compute; reflexivity).
  rewrite weave_eq, !acting_eq in E3. apply pair_equal_spec in E3. destruct E3 as [E3 E4]. specialize (H E3).
  change (beginning ++ (0, SetStored (bs "a") (bs "n") [] (bs "p1")) :: [(1, change2)]) with overlap in H. fold look1 in H.
  rewrite E4 in H. discriminate H.
Qed.
Print Assumptions C59_no_update_lost_refuted.

(** The hypotheses of the theorems above, and what everybody sees in the end. *)
Example C59_example :
  let P := toy_release in let sc := mentions (overlap ++ ending) in
  sound_all P sc (overlap ++ ending) new_machine /\
  sound_all P sc (overlap ++ calls_of 0 ending) new_machine /\ Forall (fun '(_, o) => o <> Restart) (calls_of 0 ending) /\
  weave P (overlap ++ ending) new_machine (fun rs m => (skipn 2 rs, m_primary (ma_procs m 1))) =
    ([ODone; ODone; ODone; ODone; ODone; ODone; OErr KeyMissing; OText (bs "p2"); OText (bs "p1"); OErr KeyMissing; OErr KeyMissing; OText (bs "p2")],
     Some (bs "secret")) /\
  one_at_a_time 0 [(0, Restart); (0, Reset (bs "secret")); (0, change1); (1, Restart); (1, Unlock (bs "secret")); (1, look1); (0, Restart)].
Proof.
  cbv zeta. split; [exact overlap_sound|]. split; [apply check_all_ok; [apply toy_ok|reflexivity|vm_compute; reflexivity]|].
  split; [repeat constructor; discriminate|]. split; [vm_compute; reflexivity|]. cbn. intuition.
Qed.

(** A whole command, once it has started, does not depend on what happens to the file: same result and output. It leaves the file
    alone, or replaces it by the same contents that it would have written otherwise. *)
Theorem C59_command_does_not_notice : forall P E path sp c t d,
  let '(r, t1) := process_command P E path sp c t in
  let '(r', t2) := process_command P E path sp c (meanwhile d t) in
  r' = r /\ meanwhile None t2 = meanwhile None t1 /\
  (s_disk (t_st t1) = s_disk (t_st t) /\ s_disk (t_st t2) = d \/ s_disk (t_st t2) = s_disk (t_st t1)).
Proof. exact command_blind. Qed.
Print Assumptions C59_command_does_not_notice.

Theorem C59_command_overwrites : forall P E path sp c t d,
  s_disk (t_st (snd (process_command P E path sp c t))) <> s_disk (t_st t) ->
  process_command P E path sp c (meanwhile d t) = process_command P E path sp c t.
Proof. exact command_overwrites. Qed.
Print Assumptions C59_command_overwrites.

(** Somebody removes the file, or changes the primary password, while a password is being typed in. *)
Definition ex_adding : C unit := process_command toy_release toy_ext (bs "path") false (AddStored (bs "a") (bs "n") [] false false).
Example C59_command_example :
  let y := secrets_only [bs "secret"; bs "pw"] in
  doing toy_release [Reset (bs "secret"); Restart] y ex_adding
    (fun r t => (r, t_shown t, fst (exec toy_release look1 (snd (run toy_release [Restart; Unlock (bs "secret")] (t_st t)))))) =
    (COk tt, bs "Password added." ++ [newline], OText (bs "pw")) /\
  doing toy_release [Reset (bs "secret"); Restart] y (fun t => ex_adding (meanwhile None t))
    (fun r t => (r, t_shown t, fst (exec toy_release look1 (snd (run toy_release [Restart; Unlock (bs "secret")] (t_st t)))))) =
    (COk tt, bs "Password added." ++ [newline], OText (bs "pw")) /\
  doing toy_release [Reset (bs "secret"); Restart] y ex_adding (fun r t => s_disk (t_st t)) <>
    final toy_release [Reset (bs "secret"); Restart] start s_disk.
Proof. vm_compute. repeat split. discriminate. Qed.
