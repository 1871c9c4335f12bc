(** C60, C80: --wait action by action. *)
From stdpp Require Import gmap.
From Verif Require Import M_Base M_Utf8 M_Prims M_Types M_Recovery M_Json M_Storage M_Passwords S_Vault M_History S_Api P_Base M_Cli S_Cli M_Args M_Shell S_Shell M_Steps S_Steps M_Pipe S_Pipe M_Wait
  P_Steps P_Points P_Pipe P_PipeMain P_Shell P_Wait T_Toy T_History T_Cli T_Pipe.

(** The same program action by action. *)
Theorem C60_completes : forall P E path i t r t',
  completes (program_p P E path i) t r t' <-> exists x, program P E path i t = (x, t') /\
    match x with Success => r = COk Success | Failure => r = COk Failure | Aborted => r = CPanic | Waiting => False end.
Proof.
  intros P E path i t r t'. rewrite program_completes. split; intros (x & H & Ho); exists x; (split; [exact H|]);
    destruct x; cbn in *; try congruence; destruct Ho.
Qed.
Print Assumptions C60_completes.

(** Whenever the process with --wait is stopped, a process without could have been stopped at the same moment, or everything else has been
    done: the state is that of the completed command, no secrets are in memory, all it has to say can be seen, and when it waits for the
    line it has said so. *)
Theorem C60_stopped : forall P E path i t pt, during (program_p P E path i) t pt ->
  during (main_p P E path (i_args i)) t pt \/
  (i_wait i = true /\ exists x t1, main P E path (i_args i) t = (x, t1) /\ (x = Success \/ x = Failure) /\
    t_st (pt_term pt) = t_st t1 /\ locked (t_st t1) /\ t_err (pt_term pt) = t_err t1 /\ t_stdin (pt_term pt) = t_stdin t1 /\
    match pt_next pt with
    | Flushes | Writes _ => t_shown (pt_term pt) = t_shown t1
    | Waits Input => t_shown (pt_term pt) = t_shown t1 ++ newline :: bs "Waiting..." ++ [newline]
    | _ => False
    end).
Proof. exact stopped_waiting. Qed.
Print Assumptions C60_stopped.

(** Output that cannot be written, the text of --wait included. *)
Theorem C80_wait : forall P E path i L t x t1, fits L t -> program P E path i t = (x, t1) -> x <> Waiting ->
  (fits L t1 -> forall r' t', completes_to L (program_p P E path i) t r' t' <->
     t' = t1 /\ r' = match x with Success => COk Success | Failure => COk Failure | _ => CPanic end) /\
  (~ fits L t1 -> (exists t', completes_to L (program_p P E path i) t CPanic t') /\
     forall r' t', completes_to L (program_p P E path i) t r' t' -> r' = CPanic /\ begins (t_shown t') (t_shown t1) /\ begins (t_err t') (t_err t1) /\
       (length (t_shown t') = lim_out L \/ length (t_err t') = lim_err L)).
Proof.
  intros P E path i L t x t1 Hf Hm Hw. destruct (program_pipe P E path i L t x t1 Hf Hm Hw) as [H1 H2]. split; [|exact H2].
  intros F r' t'. destruct (H1 F) as (r & Hr & H). rewrite H. destruct x; cbn in Hr; try contradiction; injection Hr as <-; tauto.
Qed.
Print Assumptions C80_wait.

(** The file is as without --wait. *)
Theorem C80_wait_file : forall P E path i L t r t', prims_ok P -> externals_valid E -> command_valid (a_command (i_args i)) -> typed_valid t -> fits L t ->
  completes_to L (program_p P E path i) t r t' ->
  (a_command (i_args i) <> Shell -> s_disk (t_st t') = s_disk (t_st t) \/
     exists x t1, main P E path (i_args i) t = (x, t1) /\ x <> Waiting /\ s_disk (t_st t1) = s_disk (t_st t')) /\
  (a_command (i_args i) = Shell -> (exists x t1, main P E path (i_args i) t = (x, t1) /\ x <> Waiting /\ s_disk (t_st t1) = s_disk (t_st t')) \/
     exists k x t1, main P E path (i_args i) (with_lines (firstn k (t_lines t) ++ [Eof]) t) = (x, t1) /\ x <> Waiting /\ s_disk (t_st t1) = s_disk (t_st t')).
Proof. exact wait_file. Qed.
Print Assumptions C80_wait_file.

(** ** Examples *)

Definition stored : list op := [Reset (bs "secret"); SetStored (bs "a") (bs "n") [] (bs "pw")].
Definition showing (input : bytes) (L : limits) (s : st) : cres exit * bytes * bytes :=
  let '(r, t) := attempt L 9 (program_p toy_release toy_ext (bs "path") (mk_inv None true (mk_args true (Show (bs "a") (bs "n") [] false)))) (typed (mk_typing input [] [] [] []) s) in
  (r, t_shown t, t_stdin t).
Definition input : bytes := bs "secret" ++ [newline; newline] ++ bs "rest".
Example C80_wait_example :
  final toy_release stored start (showing input (mk_limits 100 0)) =
    (COk Success, bs "Your primary password: Password retrieved.pw" ++ [newline; newline] ++ bs "Waiting..." ++ [newline], bs "rest") /\
  final toy_release stored start (showing input (mk_limits 50 0)) =
    (CPanic, bs "Your primary password: Password retrieved.pw" ++ [newline; newline] ++ bs "Wait", newline :: bs "rest").
Proof. vm_compute. split; reflexivity. Qed.
