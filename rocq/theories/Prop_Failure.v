(** C54: what calls and commands leave behind when they fail. *)
From stdpp Require Import gmap.
From Verif Require Import M_Base M_Prims M_Types M_Storage M_Passwords S_Vault M_History S_Api S_History M_Cli S_Cli S_Failure
  P_Failure T_Toy T_History T_Cli.

(** Only the number of random values drawn may differ. [remove_sites] is an exception. *)
Theorem C54_calls : forall P o s e,
  prims_ok P -> fst (exec P o s) = OErr e -> write_error e = false -> is_remove_sites o = false ->
  same_but_random s (snd (exec P o s)).
Proof. exact failed_nothing. Qed.
Print Assumptions C54_calls.

Example C54_calls_example :
  after toy_release [Reset (bs "secret"); SetStored (bs "a") (bs "n") [] (bs "p")] (SetAlias (bs "a") (bs "b")) = OErr SiteHasPasswords /\
  after toy_release [Reset (bs "secret"); SetStored (bs "a") (bs "n") [] (bs "p")] (SetNotes (bs "a") (bs "m") [] (bs "p")) = OErr KeyMissing /\
  after toy_release [Reset (bs "secret"); SetStored (bs "a") (bs "n") [] (bs "p"); Lock] (Unlock (bs "other!")) = OErr DecryptionFailure /\
  after toy_release [Reset (bs "secret"); Lock] (SetStored (bs "a") (bs "n") [] (bs "p")) = OErr PasswordsLocked.
Proof. vm_compute. repeat split. Qed.

(** What is true of [remove_sites]: the sites in front of the one that is missing are gone, in memory only. *)
Theorem C54_remove_sites : forall P l s e,
  fst (exec P (RemoveSites l) s) = OErr e -> write_error e = false ->
  let s' := snd (exec P (RemoveSites l) s) in
  secrets s' = secrets s /\ file_untouched s s' /\
  match s_hmac s with
  | None => e = PasswordsLocked /\ s' = s
  | Some h => e = KeyMissing /\
      exists l1 x l2, l = l1 ++ x :: l2 /\ without P h l1 (s_data s) (s_data s') /\ s_data s' !! get_site_key P x h = None
  end.
Proof. exact failed_remove_sites. Qed.
Print Assumptions C54_remove_sites.

Definition ex_sites : list op := [Reset (bs "secret"); SetStored (bs "a") (bs "n") [] (bs "p"); SetStored (bs "c") (bs "n") [] (bs "p")].
Example C54_remove_sites_example :
  after toy_release ex_sites (RemoveSites [bs "a"; bs "b"; bs "c"]) = OErr KeyMissing /\
  after toy_release ex_sites (ListSites (bs "*")) = OSites [(bs "a", None); (bs "c", None)] /\
  after toy_release (ex_sites ++ [RemoveSites [bs "a"; bs "b"; bs "c"]]) (ListSites (bs "*")) = OSites [(bs "c", None)].
Proof. vm_compute. repeat split. Qed.

(** A call that reports an error may remove a site, and a later call makes this permanent. *)
Theorem C54_remove_sites_refuted :
  ~ (forall P l s o e pp L L', prims_ok P -> fresh P s ->
       let s1 := snd (run P l s) in
       fst (exec P o s1) = OErr e -> write_error e = false ->
       fst (exec P (ListSites (bs "*")) s1) = OSites L ->
       fst (exec P (ListSites (bs "*")) (snd (run P (l ++ [o; SetStored (bs "d") (bs "n") [] (bs "p"); Restart; Unlock pp]) s))) = OSites L' ->
       forall x, In x L -> In x L').
Proof.
  intros H. specialize (H toy_release ex_sites start (RemoveSites [bs "a"; bs "b"; bs "c"]) KeyMissing (bs "secret")
    [(bs "a", None); (bs "c", None)] [(bs "c", None); (bs "d", None)] (toy_ok _ _) (start_fresh _)). cbv zeta in H.
  rewrite <- !after_eq in H.
  specialize (H ltac:(vm_compute; reflexivity) eq_refl ltac:(vm_compute; reflexivity) ltac:(vm_compute; reflexivity) (bs "a", None) (or_introl eq_refl)).
  destruct H as [H|[H|[]]]; discriminate H.
Qed.
Print Assumptions C54_remove_sites_refuted.

(** Commands, whether the only one of the process or typed in the shell. *)
Theorem C54_commands : forall P E path sp c t, prims_ok P ->
  written_once P (t_st t) (fst (process_simple P E path sp c t)) (t_st (snd (process_simple P E path sp c t))).
Proof. intros P E path sp c t HP. exact (once_simple P E path sp c HP t). Qed.
Print Assumptions C54_commands.

(** Processes: the file is written at most once; a process that does not report success has not written it
    unless it reports that writing failed. *)
Theorem C54_process : forall P E path a t, prims_ok P -> a_command a <> Shell ->
  let '(x, t') := main P E path a t in
  file_untouched (t_st t) (t_st t') \/
  (s_flushes (t_st t') = S (s_flushes (t_st t)) /\
   match x with
   | Success => p_write P (s_flushes (t_st t)) = WriteOk
   | Failure => p_write P (s_flushes (t_st t)) <> WriteOk /\ exists l e, t_err t' = l ++ [Lib e] /\ write_error e = true
   | _ => False
   end).
Proof. exact main_once. Qed.
Print Assumptions C54_process.

(** Both cases occur, and a failed write is reported. *)
Definition second_write_fails : prims := toy false (fun n => match n with 1 => WriteFailsAfter 5 | _ => WriteOk end).
Example C54_process_example :
  let add := mk_args false (AddStored (bs "a") (bs "n") [] false true) in
  let opened := [Reset (bs "secret")] in
  running toy_release opened (secrets_only [bs "secret"; bs "pw"]) add (fun x t => (x, s_flushes (t_st t))) = (Success, 2) /\
  running toy_release opened (secrets_only [bs "secret"]) (mk_args false (RemoveCmd (bs "a") (bs "n") []))
    (fun x t => (x, s_flushes (t_st t), t_err t)) = (Failure, 1, [Lib KeyMissing]) /\
  running second_write_fails opened (secrets_only [bs "secret"; bs "pw"]) add (fun x t => (x, s_flushes (t_st t), t_err t)) =
    (Failure, 2, [Lib FileWriteFailure]).
Proof. vm_compute. repeat split. Qed.

(** In the shell a failed command may still have a permanent effect: listing fails as "b" was never used, but the entry of
    "a" is gone with the next command that writes. *)
Definition ex_parse (line : bytes) : shell_line :=
  if bytes_eqb line (bs "list") then SCommand (List (bs "*") (bs "*") false false false)
  else if bytes_eqb line (bs "alias") then SCommand (Alias (bs "e") (Some (bs "d")) false)
  else SExit.
Definition ex_ext : externals := mk_ext (fun _ => None) ex_parse.
Definition ex_used : list op :=
  [Reset (bs "secret"); SetStored (bs "a") (bs "n") [] (bs "p"); Remove (bs "a") (bs "n") []; SetAlias (bs "c") (bs "b")].
Theorem C54_shell_refuted :
  ~ (forall P E path sp t line rest L L', prims_ok P -> externals_valid E -> ready t ->
       fst (exec P (ListSites (bs "*")) (t_st t)) = OSites L ->
       let '(r, t1) := shell_step P E path sp line t in
       r = COk true -> t_err t1 <> t_err t ->
       let '(r, t2) := shell_step P E path sp rest t1 in
       fst (exec P (ListSites (bs "*")) (snd (run P [Restart; Unlock (bs "secret")] (t_st t2)))) = OSites L' ->
       forall x, In x L -> In x L').
Proof.
  intros H. set (t := typed no_typing (snd (run toy_release ex_used start))).
  specialize (H toy_release ex_ext [] false t (bs "list") (bs "alias")). unfold t in H.
  set (two := fun s => let '(r1, t1) := shell_step toy_release ex_ext [] false (bs "list") (typed no_typing s) in
                 let '(r2, t2) := shell_step toy_release ex_ext [] false (bs "alias") t1 in
                 (r1, t_err t1, fst (exec toy_release (ListSites (bs "*")) (snd (run toy_release [Restart; Unlock (bs "secret")] (t_st t2)))))).
  assert (final toy_release ex_used start two = (COk true, [Lib KeyMissing], OSites [(bs "c", Some (bs "b")); (bs "e", Some (bs "d"))])) as E
    by (vm_compute; reflexivity).
  rewrite final_run in E. unfold two in E.
  assert (fst (exec toy_release (ListSites (bs "*")) (t_st (typed no_typing (snd (run toy_release ex_used start))))) =
    OSites [(bs "a", None); (bs "c", Some (bs "b"))]) as HL.
  { cbn [typed t_st]. rewrite <- after_eq. vm_compute. reflexivity. }
  specialize (H [(bs "a", None); (bs "c", Some (bs "b"))] [(bs "c", Some (bs "b")); (bs "e", Some (bs "d"))] (toy_ok _ _)).
  assert (externals_valid ex_ext) as HE.
  { intros l c. cbn [e_parse ex_ext]. unfold ex_parse. destruct (bytes_eqb l (bs "list")); [intros [= <-]; repeat split|].
    destruct (bytes_eqb l (bs "alias")); [intros [= <-]; repeat split|]. discriminate. }
  specialize (H HE ltac:(apply typed_ready; vm_compute; reflexivity) HL).
  destruct (shell_step _ _ _ _ (bs "list") _) as [r1 t1]. destruct (shell_step _ _ _ _ (bs "alias") t1) as [r2 t2].
  injection E as -> He E. specialize (H eq_refl). rewrite He in H. specialize (H ltac:(discriminate) E (bs "a", None) (or_introl eq_refl)).
  destruct H as [H|[H|[]]]; discriminate H.
Qed.
Print Assumptions C54_shell_refuted.
