(** C57: what the commands print; C58: sessions of the shell and separate processes. *)
From stdpp Require Import gmap.
From Verif Require Import M_Base M_Prims M_Types M_Recovery M_Storage M_Passwords S_Vault M_History S_Api M_Cli S_Cli S_Failure S_Session
  P_CliCommands P_CliWorld P_CliNext P_Session T_Toy T_History T_Cli.

(** * C57 *)

Theorem C57_remove : forall P E path sp x n r t, ready t ->
  finishes P (Remove x n r) (bs "Password removed.") t (process_simple P E path sp (RemoveCmd x n r) t).
Proof. exact remove_finishes. Qed.
Print Assumptions C57_remove.

Theorem C57_alias : forall P E path sp x a rm t, ready t ->
  finishes P (SetAlias x a) (bs "Alias added.") t (process_simple P E path sp (Alias x (Some a) rm) t).
Proof. exact alias_finishes. Qed.
Print Assumptions C57_alias.

Theorem C57_unalias : forall P E path sp x t, ready t ->
  finishes P (RemoveAlias x) (bs "Alias removed.") t (process_simple P E path sp (Alias x None true) t).
Proof. exact unalias_finishes. Qed.
Print Assumptions C57_unalias.

Theorem C57_alias_shown : forall P E path sp x t, ready t ->
  process_simple P E path sp (Alias x None false) t =
  match fst (exec P (GetAlias x) (t_st t)) with
  | OText a => (COk tt, show_text (bs "'" ++ x ++ bs "' is an alias for '" ++ a ++ bs "'." ++ [newline]) t)
  | OErr e => (CErr (Lib e), t)
  | _ => (CPanic, t)
  end.
Proof. exact alias_shows. Qed.
Print Assumptions C57_alias_shown.

Theorem C57_notes_shown : forall P E path sp x n r t, ready t ->
  process_simple P E path sp (Notes x n r false) t =
  match fst (exec P (GetNotes x n r) (t_st t)) with
  | OText notes => (COk tt, show_text (notes_text notes) t)
  | OErr e => (CErr (Lib e), t)
  | _ => (CPanic, t)
  end.
Proof. exact notes_shows. Qed.
Print Assumptions C57_notes_shown.

(** New notes: always read from the standard input, and not trimmed. *)
Theorem C57_notes_set : forall P E path sp x n r t old new es,
  ready t -> fst (exec P (GetNotes x n r) (t_st t)) = OText old ->
  entered true (show_text (notes_text old) t) (Some new :: es) ->
  exists t1, prompted (bs "Please enter new notes to be stored:") true (show_text (notes_text old) t) t1 /\ remaining true t1 es /\
    finishes P (SetNotes x n r new) (match new with [] => bs "Notes removed." | _ => bs "Notes stored." end) t1
      (process_simple P E path sp (Notes x n r true) t).
Proof. exact notes_set. Qed.
Print Assumptions C57_notes_set.

(** The whole process. *)
Theorem C57_notes_process : forall P E path p sp t bad msgs c es x n r old new es',
  fst (exec P (Unlock p) (snd (exec P Restart (t_st t)))) = ODone -> 6 <= length p ->
  t_buf t = [] -> entered sp t (map Some bad ++ Some c :: es) -> trim c = p ->
  Forall2 (rejected P (snd (exec P Restart (t_st t)))) bad msgs ->
  (if sp then es = Some new :: es' else entered true t (Some new :: es')) ->
  let s1 := snd (run P [Restart; Unlock p] (t_st t)) in
  fst (exec P (GetNotes x n r) s1) = OText old ->
  let '(y, t') := main P E path (mk_args sp (Notes x n r true)) t in
  match fst (exec P (SetNotes x n r new) s1) with
  | ODone => y = Success /\ t_st t' = snd (run P [Restart; Unlock p; SetNotes x n r new; Lock] (t_st t)) /\
      t_err t' = t_err t ++ msgs /\
      exists prompts, t_shown t' = t_shown t ++ prompts ++ notes_text old ++ bs "Please enter new notes to be stored:" ++
        (match new with [] => bs "Notes removed." | _ => bs "Notes stored." end) ++ [newline] /\ (sp = false -> prompts = [])
  | OErr e => y = Failure /\ t_st t' = snd (run P [Restart; Unlock p; SetNotes x n r new; Lock] (t_st t)) /\
      t_err t' = t_err t ++ msgs ++ [Lib e]
  | _ => y = Aborted
  end.
Proof. exact notes_process. Qed.
Print Assumptions C57_notes_process.

Definition ex_pw : list op := [Reset (bs "secret"); SetStored (bs "a") (bs "n") [] (bs "pw")].
Definition with_stdin (b : bytes) : typing := mk_typing b [] [] [] [].
Definition lf : bytes := [newline].
Example C57_example :
  let P := toy_release in
  running P ex_pw (with_stdin (bs "short" ++ lf ++ bs "secret" ++ lf ++ bs " some notes " ++ lf)) (mk_args true (Notes (bs "a") (bs "n") [] true))
    (fun x t => (x, t_shown t, t_err t, fst (exec P (GetNotes (bs "a") (bs "n") []) (snd (run P [Restart; Unlock (bs "secret")] (t_st t)))))) =
    (Success, bs "Your primary password: Your primary password: Currently no notes are stored for this password." ++ lf ++
      bs "Please enter new notes to be stored:Notes stored." ++ lf, [Text (bs "Primary password length should be at least 6 characters.")],
     OText (bs " some notes ")) /\
  running P (ex_pw ++ [SetNotes (bs "a") (bs "n") [] (bs "old")]) (with_stdin (bs "secret" ++ lf ++ lf)) (mk_args true (Notes (bs "a") (bs "n") [] true))
    (fun x t => (x, t_shown t)) =
    (Success, bs "Your primary password: Notes for this password: old" ++ lf ++ bs "Please enter new notes to be stored:Notes removed." ++ lf) /\
  doing P ex_pw no_typing (process_simple P toy_ext [] false (Alias (bs "b") (Some (bs "a")) false)) (fun r t => (r, t_shown t)) = (COk tt, bs "Alias added." ++ lf) /\
  doing P ex_pw no_typing (process_simple P toy_ext [] false (Alias (bs "b") None false)) (fun r t => (r, t_shown t)) = (CErr (Lib NoSuchAlias), []) /\
  doing P ex_pw no_typing (process_simple P toy_ext [] false (RemoveCmd (bs "a") (bs "n") [])) (fun r t => (r, t_shown t)) = (COk tt, bs "Password removed." ++ lf).
Proof. vm_compute. repeat split. Qed.

(** * C58 *)

(** A session in which each command is followed by [lock] does what separate processes do, one for each command, given the
    same input: the same file, messages and output, except for the lines that the shell itself prints. *)
Theorem C58_session : forall P E path sp lock lines cs t outs t' last rest d,
  prims_ok P -> steady P ->
  e_parse E lock = SLock -> Forall2 (fun line c => e_parse E line = SCommand c /\ ~ refused c) lines cs -> ending E last ->
  t_buf t = [] -> load P (s_disk (t_st t)) = Ok d -> separately P E path sp cs t outs t' ->
  exists u, main P E path (mk_args sp Shell) (with_lines (with_locks lock lines ++ last :: rest) t) = (Success, u) /\ same_but_output t' u /\
    t_err u = t_err t' /\
    t_shown u = t_shown t ++ SHELL_HELP ++ [newline] ++ concat (map (fun out => out ++ locked_line) outs) /\
    t_shown t' = t_shown t ++ concat outs.
Proof. intros P E path sp lock lines cs t outs t' last rest d HP Hs. exact (session_processes P E path HP Hs sp lock lines cs t outs t' last rest d). Qed.
Print Assumptions C58_session.

(** Three processes: the third one fails as the password was removed by the second one. *)
Definition ex_cmds : list command := [Show (bs "a") (bs "n") [] false; RemoveCmd (bs "a") (bs "n") []; Show (bs "a") (bs "n") [] false].
Definition ex_lines : list bytes := [bs "show"; bs "remove"; bs "show"].
Definition ex_typed : typing := secrets_only [bs "secret"; bs "wrong!"; bs "secret"; bs "secret"].
Definition three (P : prims) (s : st) : list (exit * bytes * list message) :=
  let '(x1, t1) := main P toy_ext (bs "path") (mk_args false (Show (bs "a") (bs "n") [] false)) (typed ex_typed s) in
  let '(x2, t2) := main P toy_ext (bs "path") (mk_args false (RemoveCmd (bs "a") (bs "n") [])) t1 in
  let '(x3, t3) := main P toy_ext (bs "path") (mk_args false (Show (bs "a") (bs "n") [] false)) t2 in
  [(x1, t_shown t1, t_err t1); (x2, t_shown t2, t_err t2); (x3, t_shown t3, t_err t3)].
Definition out1 : bytes := bs "Password retrieved.pw" ++ lf.
Definition out2 : bytes := bs "Password removed." ++ lf.
Lemma three_separately P s : three P s =
    [(Success, out1, []); (Success, out1 ++ out2, [Lib DecryptionFailure]); (Failure, out1 ++ out2, [Lib DecryptionFailure; Lib KeyMissing])] ->
  exists t', separately P toy_ext (bs "path") false ex_cmds (typed ex_typed s) [out1; out2; []] t'.
Proof.
  unfold three, ex_cmds. assert (t_shown (typed ex_typed s) = []) as H0 by reflexivity. generalize dependent (typed ex_typed s). intros t H0 H.
  destruct (main P toy_ext (bs "path") (mk_args false (Show (bs "a") (bs "n") [] false)) t) as [x1 t1] eqn:E1.
  destruct (main P toy_ext (bs "path") (mk_args false (RemoveCmd (bs "a") (bs "n") [])) t1) as [x2 t2] eqn:E2.
  destruct (main P toy_ext (bs "path") (mk_args false (Show (bs "a") (bs "n") [] false)) t2) as [x3 t3] eqn:E3.
  injection H as -> H1 H1' -> H2 H2' -> H3 H3'. exists t3.
  eapply separately_success; [exact E1|rewrite H0; exact H1|]. eapply separately_success; [exact E2|rewrite H1; exact H2|].
  eapply separately_failure; [exact E3|rewrite H2, app_nil_r; exact H3| |constructor].
  split; [exact I|]. exists [], (Lib KeyMissing). split; [rewrite H2'; exact H3'|reflexivity].
Qed.
Example C58_example :
  let P := toy_release in
  prims_ok P /\ steady P /\ e_parse toy_ext (bs "lock") = SLock /\
  Forall2 (fun line c => e_parse toy_ext line = SCommand c /\ ~ refused c) ex_lines ex_cmds /\ ending toy_ext (Line (bs "exit")) /\
  (exists d, load P (s_disk (snd (run P ex_pw start))) = Ok d) /\
  (exists t', separately P toy_ext (bs "path") false ex_cmds (typed ex_typed (snd (run P ex_pw start))) [out1; out2; []] t') /\
  running P ex_pw (mk_typing [] (ty_secrets ex_typed) [] [] (with_locks (bs "lock") ex_lines ++ [Line (bs "exit")])) (mk_args false Shell)
    (fun x t => (x, t_shown t, t_err t)) =
  (Success, SHELL_HELP ++ lf ++ out1 ++ locked_line ++ out2 ++ locked_line ++ locked_line, [Lib DecryptionFailure; Lib KeyMissing]).
Proof.
  cbv zeta. split; [apply toy_ok|]. split; [intros n n' d; reflexivity|]. split; [reflexivity|].
  split; [repeat constructor; exact (fun x => x)|]. split; [right; exists (bs "exit"); split; reflexivity|].
  split; [|split; [|vm_compute; reflexivity]].
  - assert (final toy_release ex_pw start (fun s => is_ok (load toy_release (s_disk s))) = true) as H by (vm_compute; reflexivity).
    rewrite final_run in H. destruct (load toy_release (s_disk (snd (run toy_release ex_pw start)))) as [d|e|]; [eauto|discriminate H..].
  - assert (final toy_release ex_pw start (three toy_release) =
      [(Success, out1, []); (Success, out1 ++ out2, [Lib DecryptionFailure]); (Failure, out1 ++ out2, [Lib DecryptionFailure; Lib KeyMissing])]) as H
      by (vm_compute; reflexivity).
    rewrite final_run in H. exact (three_separately _ _ H).
Qed.
