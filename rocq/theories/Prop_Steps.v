(** C70: a process that is stopped at any moment. *)
From stdpp Require Import gmap.
From Verif Require Import M_Base M_Utf8 M_Prims M_Types M_Recovery M_Json M_Storage M_Passwords S_Vault M_History S_Api P_Base M_Cli S_Cli M_Steps S_Steps
  P_Steps P_Points P_StepCalls P_StepFile P_StepProps P_StepShell T_Toy T_History T_Cli T_Steps.

(** Carried out to the end, the actions have the result that [main] has. *)
Theorem C70_completes : forall P E path a t r t',
  completes (main_p P E path a) t r t' <-> exists x, main P E path a t = (x, t') /\
    match x with Success => r = COk Success | Failure => r = COk Failure | Aborted => r = CPanic | Waiting => False end.
Proof.
  intros P E path a t r t'. rewrite main_completes. split; intros (x & H & Ho); exists x; (split; [exact H|]);
    destruct x; cbn in *; try congruence; destruct Ho.
Qed.
Print Assumptions C70_completes.

(** What was shown at some moment is not taken back. *)
Theorem C70_output : forall P E path a t pt, during (main_p P E path a) t pt ->
  (exists s, t_shown (pt_term pt) = t_shown t ++ s) /\ (exists ms, t_err (pt_term pt) = t_err t ++ ms) /\
  forall x t', main P E path a t = (x, t') -> x <> Waiting ->
    (exists s, t_shown t' = t_shown (pt_term pt) ++ s) /\ exists ms, t_err t' = t_err (pt_term pt) ++ ms.
Proof.
  intros P E path a t pt H. destruct (shown_before _ _ _ H) as [H1 H2]. split; [exact H1|]. split; [exact H2|].
  intros x t' Hx Hw. assert (exists r, outcome x = Some r) as [r Hr] by (destruct x; cbn; eauto; contradiction).
  exact (shown_after _ _ _ r t' H (proj2 (main_completes P E path a t r t') (ex_intro _ x (conj Hx Hr)))).
Qed.
Print Assumptions C70_output.

(** Whenever the process waits for input, calls the library or writes anything, what it printed before can be seen. *)
Theorem C70_visible : forall P E path a t pt, t_buf t = [] -> during (main_p P E path a) t pt -> pt_next pt <> Flushes ->
  t_buf (pt_term pt) = [].
Proof. intros P E path a t pt Hb H Hn. destruct (proj2 (tidy_main P E path a t Hb) pt H) as [G|G]; [exact G|contradiction]. Qed.
Print Assumptions C70_visible.

(** At any moment, the process has done nothing but some of the calls its command may make. *)
Theorem C70_history : forall P E path a t pt, externals_valid E -> command_valid (a_command a) -> typed_valid t ->
  during (main_p P E path a) t pt ->
  (pt_term pt = t /\ pt_next pt = Calls (snd (exec P Restart (t_st t)))) \/
  exists l, Forall (fun o => o = Lock \/ session_calls E (a_command a) o /\ op_valid o) l /\
    t_st (pt_term pt) = snd (run P (Restart :: l) (t_st t)) /\
    forall s, pt_next pt = Calls s -> s = t_st (pt_term pt) \/
      exists o, (o = Lock \/ session_calls E (a_command a) o /\ op_valid o) /\ s = snd (exec P o (t_st (pt_term pt))).
Proof. exact moment_history. Qed.
Print Assumptions C70_history.

(** When the process says that something was changed, the call doing this has just succeeded and the file contains the change. *)
Theorem C70_confirmed : forall P E path a t pt b, prims_ok P -> externals_valid E -> command_valid (a_command a) -> typed_valid t ->
  during (main_p P E path a) t pt -> pt_next pt = Prints b -> confirmation path b ->
  exists o s, confirms path o b /\ session_calls E (a_command a) o /\ op_valid o /\ reachable P s /\
    exec P o s = (ODone, t_st (pt_term pt)) /\ load P (s_disk (t_st (pt_term pt))) = Ok (s_data (t_st (pt_term pt))).
Proof. exact moment_confirmed. Qed.
Print Assumptions C70_confirmed.

(** Stopped within any command, also in a shell, the file is what it was at this moment, or what it is after the next call of the
    library, or it was being written and everybody opening it gets an error. *)
Theorem C70_stopped_anywhere : forall P E path a t pt d, prims_ok P -> externals_valid E -> command_valid (a_command a) -> typed_valid t ->
  during (main_p P E path a) t pt -> stopped P pt d ->
  d = s_disk (t_st (pt_term pt)) \/ (exists s, pt_next pt = Calls s /\ d = s_disk s /\ load P d = Ok (s_data s)) \/
  (torn P pt d /\ (load P d = Err FileReadFailure \/ load P d = Err InvalidJson)).
Proof. exact moment_stopped. Qed.
Print Assumptions C70_stopped_anywhere.

(** Stopped within a command, the file is as before, or as if the process had come to its end, or everybody opening it gets an error. *)
Theorem C70_stopped : forall P E path a t pt d, prims_ok P -> externals_valid E -> command_valid (a_command a) -> typed_valid t ->
  a_command a <> Shell -> during (main_p P E path a) t pt -> stopped P pt d ->
  d = s_disk (t_st t) \/ (exists x t', main P E path a t = (x, t') /\ x <> Waiting /\ s_disk (t_st t') = d) \/
  (torn P pt d /\ (load P d = Err FileReadFailure \/ load P d = Err InvalidJson)).
Proof. exact stopped_settled. Qed.
Print Assumptions C70_stopped.

(** Stopping a shell is like leaving it after some line. *)
Theorem C70_shell : forall P E path a t pt d, prims_ok P -> externals_valid E -> command_valid (a_command a) -> typed_valid t ->
  a_command a = Shell -> during (main_p P E path a) t pt -> stopped P pt d ->
  (exists k x t', main P E path a (with_lines (firstn k (t_lines t) ++ [Eof]) t) = (x, t') /\ x <> Waiting /\ s_disk (t_st t') = d) \/
  (torn P pt d /\ (load P d = Err FileReadFailure \/ load P d = Err InvalidJson)).
Proof. exact stopped_shell. Qed.
Print Assumptions C70_shell.

(** A command that makes a change prints nothing but prompts until the process can only succeed and the change is in the file. *)
Theorem C70_said : forall P E path a t pt, tells (a_command a) -> t_buf t = [] -> during (main_p P E path a) t pt ->
  only_prompts t (pt_term pt) \/
  exists t', main P E path a t = (Success, t') /\ s_disk (t_st t') = s_disk (t_st (pt_term pt)).
Proof. exact moment_said. Qed.
Print Assumptions C70_said.

(** Whenever the process reads a line from the standard input, the last text on the screen is the prompt for it. *)
Theorem C70_prompted : forall P E path a t pt, during (main_p P E path a) t pt -> pt_next pt = Waits Input ->
  exists before text, t_shown (pt_term pt) = before ++ text /\ (prompt text \/ text = bs "Please enter new notes to be stored:").
Proof. exact moment_prompted. Qed.
Print Assumptions C70_prompted.

(** ** Examples *)

Definition filled : list op := [Reset (bs "secret"); SetStored (bs "a") (bs "n") [] (bs "p1")].
Definition adding : args := mk_args false (Add (bs "b") (bs "n") [] 8 false false false false false).
Definition typing_secret : typing := secrets_only [bs "wrong password"; bs "secret"].
Definition prints (b : bytes) (pt : point) : bool := match pt_next pt with Prints b' => bytes_eqb b b' | _ => false end.
Definition saves (pt : point) : bool := match pt_next pt with Calls s => negb (s_flushes s =? s_flushes (t_st (pt_term pt))) | _ => false end.
Definition kind (pt : point) : bytes :=
  match pt_next pt with Calls _ => bs "c" | Prints _ => bs "p" | Flushes => bs "f" | Writes _ => bs "w" | Complains _ => bs "e" | Waits _ => bs "?" end.

Lemma typed_secret_valid s : typed_valid (typed typing_secret s).
Proof. repeat split; cbn; repeat constructor. Qed.

(** Adding a password: opening the file, asking twice for the primary password, checking for an existing one, saving, saying so, locking. *)
Example C70_example :
  moments toy_release filled typing_secret adding (map kind) =
    map (fun b => [b]) (bs "ccc?cec?ccccpcf") /\
  (forall s, typed_valid (typed typing_secret s)) /\ command_valid (a_command adding) /\ externals_valid toy_ext /\ prims_ok toy_release /\
  (exists pt, during (main_p toy_release toy_ext (bs "path") adding) (typed typing_secret (snd (run toy_release filled start))) pt /\
    prints (bs "Password added." ++ [newline]) pt = true) /\
  (exists pt, during (main_p toy_release toy_ext (bs "path") adding) (typed typing_secret (snd (run toy_release filled start))) pt /\
    saves pt = true).
Proof.
  split; [vm_compute; reflexivity|]. split; [exact typed_secret_valid|]. split; [repeat split; exists (bs "8"); reflexivity|]. split; [exact toy_ext_valid|].
  split; [apply toy_ok|].
  split; apply a_moment; vm_compute; reflexivity.
Qed.

(** Two lines are read from the standard input. *)
Definition from_stdin : typing := mk_typing (bs "secret" ++ [newline] ++ bs "p2" ++ [newline]) [] [] [] [].
Definition storing : args := mk_args true (AddStored (bs "b") (bs "n") [] false true).
Example C70_prompted_example :
  moments toy_release filled from_stdin storing (fun l => length (List.filter (fun pt => match pt_next pt with Waits Input => true | _ => false end) l)) = 2 /\
  moments toy_release filled from_stdin storing (map kind) = map (fun b => [b]) (bs "cccw?ccw?cpcf").
Proof. split; vm_compute; reflexivity. Qed.

(** A shell session in which a password is removed. *)
Definition removing : typing := mk_typing [] [Some (bs "secret")] [] [] [Line (bs "show"); Line (bs "remove"); Line (bs "show"); Line (bs "exit")].
Example C70_shell_example :
  moments toy_release filled removing (mk_args false Shell) (map kind) = map (fun b => [b]) (bs "cpf?cc?cccwwwf?cccpf?ccce?cf") /\
  (exists pt, during (main_p toy_release toy_ext (bs "path") (mk_args false Shell)) (typed removing (snd (run toy_release filled start))) pt /\
    saves pt = true).
Proof. split; [|apply a_moment]; vm_compute; reflexivity. Qed.

(** A working file can be lost by stopping the process: it is overwritten in place. *)
Theorem C70_usable_refuted :
  ~ forall P E path a t pt d v, prims_ok P -> externals_valid E -> command_valid (a_command a) -> typed_valid t ->
      during (main_p P E path a) t pt -> load P (s_disk (t_st t)) = Ok v -> stopped P pt d -> exists v', load P d = Ok v'.
Proof.
  intros H. destruct C70_example as (_ & H1 & H2 & H3 & H4 & _ & (pt & H5 & H6)).
  set (s0 := snd (run toy_release filled start)) in *.
  assert (final toy_release filled start (fun s => match load toy_release (s_disk s) with Ok _ => true | _ => false end) = true) as Hl
    by (vm_compute; reflexivity).
  rewrite final_run in Hl. fold s0 in Hl.
  destruct (load toy_release (s_disk s0)) as [v| |] eqn:Ev; [|discriminate Hl..].
  assert (stopped toy_release pt (Some [])) as Hs.
  { unfold saves in H6. destruct (pt_next pt) as [s| | | | |] eqn:En; try discriminate H6. right. exists s, [], (flush_text toy_release s).
    split; [exact En|]. split; [|repeat split]. apply negb_true_iff, Nat.eqb_neq in H6. exact H6. }
  destruct (H toy_release toy_ext (bs "path") adding (typed typing_secret s0) pt (Some []) v H4 H3 H2 (H1 s0) H5 Ev Hs) as [v' Hv].
  assert (match load toy_release (Some []) with Ok _ => true | _ => false end = false) as Hc by (vm_compute; reflexivity).
  rewrite Hv in Hc. discriminate Hc.
Qed.
Print Assumptions C70_usable_refuted.
