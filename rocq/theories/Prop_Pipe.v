(** C80: Output that cannot be written. *)
From stdpp Require Import gmap.
From Verif Require Import M_Base M_Utf8 M_Prims M_Types M_Recovery M_Json M_Storage M_Passwords S_Vault M_History S_Api P_Base M_Cli S_Cli M_Steps S_Steps M_Pipe S_Pipe
  P_Steps P_Points P_Pipe P_PipeMain T_Toy T_History T_Cli T_Pipe.

(** However much of the output is accepted, the process ends as if all was, or it panics at a moment where it writes, and nothing happens
    after this moment. It does not report success or an error then. *)
Theorem C80_outcome : forall P E path a L t r t', fits L t -> completes_to L (main_p P E path a) t r t' ->
  (exists x, main P E path a t = (x, t') /\ match x with Success => r = COk Success | Failure => r = COk Failure | Aborted => r = CPanic | Waiting => False end /\ fits L t') \/
  (r = CPanic /\ exists pt, during (main_p P E path a) t pt /\ cannot_write L pt t').
Proof.
  intros P E path a L t r t' Hf H. destruct (pipe_outcome P E path a L t r t' Hf H) as [(x & H1 & H2 & H3)|H1]; [left|right; exact H1].
  exists x. split; [exact H1|]. split; [destruct x; cbn in H2; congruence|exact H3].
Qed.
Print Assumptions C80_outcome.

(** If what the process writes is accepted completely, nothing changes; otherwise it certainly panics, and what was accepted is the
    beginning of what would have been written. *)
Theorem C80_exact : forall P E path a L t x t1, fits L t -> main P E path a t = (x, t1) -> x <> Waiting ->
  (fits L t1 -> forall r' t', completes_to L (main_p P E path a) t r' t' <->
     t' = t1 /\ r' = match x with Success => COk Success | Failure => COk Failure | _ => CPanic end) /\
  (~ fits L t1 -> (exists t', completes_to L (main_p P E path a) t CPanic t') /\
     forall r' t', completes_to L (main_p P E path a) t r' t' -> r' = CPanic /\ begins (t_shown t') (t_shown t1) /\ begins (t_err t') (t_err t1) /\
       (length (t_shown t') = lim_out L \/ length (t_err t') = lim_err L)).
Proof.
  intros P E path a L t x t1 Hf Hm Hw. destruct (pipe_exact P E path a L t x t1 Hf Hm Hw) as [H1 H2]. split; [|exact H2].
  intros F r' t'. destruct (H1 F) as (r & Hr & H). rewrite H. destruct x; cbn in Hr; try contradiction; injection Hr as <-; tauto.
Qed.
Print Assumptions C80_exact.

(** The file is as before or as if everything had been written; after a shell, as if it had been left after some line. *)
Theorem C80_file : forall P E path a L t r t', prims_ok P -> externals_valid E -> command_valid (a_command a) -> typed_valid t -> fits L t ->
  completes_to L (main_p P E path a) t r t' ->
  (a_command a <> Shell -> s_disk (t_st t') = s_disk (t_st t) \/ exists x t1, main P E path a t = (x, t1) /\ x <> Waiting /\ s_disk (t_st t1) = s_disk (t_st t')) /\
  (a_command a = Shell -> (exists x, main P E path a t = (x, t')) \/
     exists k x t1, main P E path a (with_lines (firstn k (t_lines t) ++ [Eof]) t) = (x, t1) /\ x <> Waiting /\ s_disk (t_st t1) = s_disk (t_st t')).
Proof. exact pipe_file. Qed.
Print Assumptions C80_file.

(** The standard library flushes the standard output at the end of the process, ignoring errors; nothing is left to be written there. *)
Theorem C80_nothing_left : forall P E path a t r t', t_buf t = [] -> completes (main_inner_p P E path a) t r t' -> t_buf t' = [].
Proof. exact nothing_left. Qed.
Print Assumptions C80_nothing_left.

(** With --stdin-passwords at the end of the standard input, the program asks for the primary password for ever (C39) only as long as
    its questions can be written. *)
Theorem C80_prompt : forall P E path L c t v, match c with SetPrimary _ | Shell => False | _ => True end ->
  fits L t -> t_stdin t = [] -> load P (s_disk (t_st t)) = Ok v -> storage_initialized v = true ->
  exists t', completes_to L (main_p P E path (mk_args true c)) t CPanic t'.
Proof. exact prompt_breaks. Qed.
Print Assumptions C80_prompt.

(** ** Examples *)

Definition two_passwords : list op := [Reset (bs "secret"); SetStored (bs "a") (bs "n") [] (bs "p1"); SetStored (bs "b") (bs "n") [] (bs "p2")].
Definition listing_all : args := mk_args false (List (bs "*") (bs "*") false false false).
Definition adding : args := mk_args false (Add (bs "c") (bs "n") [] 8 false false false false false).
Definition secret_typed : typing := secrets_only [bs "secret"].
Lemma secret_valid s : typed_valid (typed secret_typed s).
Proof. repeat split; cbn; repeat constructor. Qed.

(** [pfp list | head -c 20] *)
Example C80_example :
  running toy_release two_passwords secret_typed listing_all (fun x t => (x, length (t_shown t))) = (Success, 64) /\
  attempting toy_release two_passwords secret_typed listing_all (mk_limits 20 0) (fun r t => (r, t_shown t)) = (CPanic, bs "Passwords for a:" ++ [newline] ++ bs "   ") /\
  attempting toy_release two_passwords secret_typed listing_all (mk_limits 1000 0) (fun r t => (r, length (t_shown t))) = (COk Success, 64).
Proof. repeat split; vm_compute; reflexivity. Qed.

(** At the end of the standard input. *)
Example C80_prompt_example :
  running toy_release two_passwords no_typing (mk_args true (List (bs "*") (bs "*") false false false)) (fun x _ => x) = Waiting /\
  attempting toy_release two_passwords no_typing (mk_args true (List (bs "*") (bs "*") false false false)) (mk_limits 50 10) (fun r t => (r, length (t_shown t), length (t_err t))) = (CPanic, 50, 2) /\
  final toy_release two_passwords start (fun s => match load toy_release (s_disk s) with Ok v => storage_initialized v | _ => false end) = true.
Proof. repeat split; vm_compute; reflexivity. Qed.

(** A process that does not report success may have made the change: the password is saved before the message is printed. *)
Lemma adding_unreported (s0 : st) (n : nat) :
  (let '(r, t) := attempt (mk_limits 0 0) 9 (main_p toy_release toy_ext (bs "path") adding) (typed secret_typed s0) in
   (match r with CPanic => true | _ => false end, option_map (@length byte) (s_disk (t_st t)))) = (true, Some n) ->
  match option_map (@length byte) (s_disk s0) with Some k => k <? n | None => false end = true ->
  exists t', completes_to (mk_limits 0 0) (main_p toy_release toy_ext (bs "path") adding) (typed secret_typed s0) CPanic t' /\ s_disk (t_st t') <> s_disk s0.
Proof.
  destruct (attempt _ _ _ _) as [r t'] eqn:E. intros Hx Hy. assert (r = CPanic) as -> by (destruct r; try discriminate Hx; reflexivity).
  exists t'. split; [apply (attempt_sound _ 9 _ _ _ _ E); discriminate|]. intros K. apply (f_equal snd) in Hx. cbn [snd] in Hx. rewrite K in Hx. rewrite Hx in Hy.
  apply Nat.ltb_lt in Hy. lia.
Qed.
Lemma adding_stopped :
  (let '(r, t) := attempt (mk_limits 0 0) 9 (main_p toy_release toy_ext (bs "path") adding) (typed secret_typed (snd (run toy_release two_passwords start))) in
   (match r with CPanic => true | _ => false end, option_map (@length byte) (s_disk (t_st t)))) = (true, Some 1296).
Proof.
  rewrite <- (attempting_eq toy_release two_passwords secret_typed adding (mk_limits 0 0)
    (fun r t => (match r with CPanic => true | _ => false end, option_map (@length byte) (s_disk (t_st t))))). vm_compute. reflexivity.
Qed.
Lemma adding_before :
  match option_map (@length byte) (s_disk (snd (run toy_release two_passwords start))) with Some k => k <? 1296 | None => false end = true.
Proof.
  rewrite <- (final_run toy_release two_passwords start (fun s => match option_map (@length byte) (s_disk s) with Some k => k <? 1296 | None => false end)).
  vm_compute. reflexivity.
Qed.
Theorem C80_unreported_refuted :
  ~ forall P E path a L t t', prims_ok P -> externals_valid E -> command_valid (a_command a) -> typed_valid t -> fits L t ->
      completes_to L (main_p P E path a) t CPanic t' -> s_disk (t_st t') = s_disk (t_st t).
Proof.
  intros H. destruct (adding_unreported (snd (run toy_release two_passwords start)) 1296 adding_stopped adding_before) as (t' & H1 & H2). revert t' H1 H2.
  generalize (snd (run toy_release two_passwords start)). intros s0 t' H1 H2. apply H2.
  refine (H toy_release toy_ext (bs "path") adding _ _ t' (toy_ok _ _) toy_ext_valid _ (secret_valid _) _ H1).
  - repeat split. exists (bs "8"). reflexivity.
  - split; cbn; lia.
Qed.
Print Assumptions C80_unreported_refuted.
