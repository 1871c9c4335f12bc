(** C60: --wait; C61: the history of the shell. *)
From stdpp Require Import gmap.
From Verif Require Import M_Base M_Utf8 M_Prims M_Types M_Recovery M_Storage M_Passwords S_Vault M_History S_Api M_Cli S_Cli M_Args M_Shell S_Shell
  P_Shell T_Toy T_History T_Cli.

(** * C60 *)

(** With --wait a process does the same as without. Then, with everything printed and no secrets left in memory, it says that it
    waits and reads a line; if that is not text it aborts. *)
Theorem C60_wait : forall P E path storage a t x t', main P E path a t = (x, t') ->
  program P E path (mk_inv storage false a) t = (x, t') /\
  match x with
  | Success | Failure =>
      let '(line, rest) := read_line (t_stdin t') in
      program P E path (mk_inv storage true a) t =
        (if utf8 line then x else Aborted,
         mk_term (t_st t') rest (t_tty t') (t_confirms t') (t_asks t') (t_lines t')
           (t_shown t' ++ newline :: bs "Waiting..." ++ [newline]) [] (t_err t')) /\
      t_buf t' = [] /\ locked (t_st t')
  | _ => program P E path (mk_inv storage true a) t = (x, t')
  end.
Proof. exact waiting. Qed.
Print Assumptions C60_wait.

Definition ex_show : args := mk_args true (Show (bs "a") (bs "n") [] false).
Definition ex_wait (input : bytes) (s : st) : exit * bytes * bytes :=
  let '(x, t) := program toy_release toy_ext (bs "path") (mk_inv None true ex_show) (typed (mk_typing input [] [] [] []) s) in
  (x, t_shown t, t_stdin t).
Example C60_example :
  let calls := [Reset (bs "secret"); SetStored (bs "a") (bs "n") [] (bs "pw")] in
  final toy_release calls start (ex_wait (bs "secret" ++ [newline; newline] ++ bs "rest")) =
    (Success, bs "Your primary password: Password retrieved.pw" ++ [newline; newline] ++ bs "Waiting..." ++ [newline], bs "rest") /\
  final toy_release calls start (ex_wait (bs "secret" ++ [newline; xff; newline])) =
    (Aborted, bs "Your primary password: Password retrieved.pw" ++ [newline; newline] ++ bs "Waiting..." ++ [newline], []).
Proof. vm_compute. split; reflexivity. Qed.

(** * C61 *)

(** The history is saved when the session ends, not if the process crashes. It consists of old entries and lines typed at the prompt of
    the shell, in this order, and of nothing else. *)
Theorem C61_lines_typed : forall P E path sp old t r t' h, shell_with_history P E path sp old t = (r, t', h) ->
  match h with
  | Some h => r = COk tt /\ exists l, until_exit E (t_lines t) = Some l /\ sublist h (old ++ l)
  | None => r = CPanic \/ r = CStuck
  end.
Proof.
  intros P E path sp old t r t' h H. apply session_history in H. destruct h as [h|]; [|exact H].
  destruct H as (H & l & Hl & ->). split; [exact H|]. exists l. split; [exact Hl|apply history_sublist].
Qed.
Print Assumptions C61_lines_typed.

(** What is typed anywhere else, the stored passwords and what the commands do make no difference. *)
Theorem C61_nothing_else_matters : forall P1 P2 E path1 path2 sp1 sp2 old t1 t2 r1 r2 t1' t2' h1 h2,
  t_lines t1 = t_lines t2 ->
  shell_with_history P1 E path1 sp1 old t1 = (r1, t1', Some h1) -> shell_with_history P2 E path2 sp2 old t2 = (r2, t2', Some h2) -> h1 = h2.
Proof.
  intros P1 P2 E path1 path2 sp1 sp2 old t1 t2 r1 r2 t1' t2' h1 h2 Hl H1 H2. apply session_history in H1, H2.
  destruct H1 as (_ & l1 & E1 & ->), H2 as (_ & l2 & E2 & ->). congruence.
Qed.
Print Assumptions C61_nothing_else_matters.

(** Never more than a hundred entries, no empty ones, no two equal ones in a row. *)
Theorem C61_orderly : forall P E path sp old t r t' h,
  shell_with_history P E path sp old t = (r, t', Some h) -> orderly old -> orderly h.
Proof.
  intros P E path sp old t r t' h H Ho. apply session_history in H. destruct H as (_ & l & _ & ->). apply history_orderly, Ho.
Qed.
Print Assumptions C61_orderly.

(** The last hundred lines are kept. *)
Theorem C61_recent_lines : forall P E path sp old t r t' h l1 line l2,
  shell_with_history P E path sp old t = (r, t', Some h) ->
  until_exit E (t_lines t) = Some (l1 ++ line :: l2) -> line <> [] -> length l2 < 100 -> In line h.
Proof.
  intros P E path sp old t r t' h l1 line l2 H Hu Hn Hl. apply session_history in H. destruct H as (_ & l & Hu' & ->).
  rewrite Hu in Hu'. injection Hu' as <-. apply history_recent; assumption.
Qed.
Print Assumptions C61_recent_lines.

Definition ex_site : bytes := bs "example.com".
Definition ex_session : typing :=
  mk_typing [] [Some (bs "secret"); Some (bs "new password")] [] []
    [Line (bs "add-stored example.com me"); Line (bs "lock"); Line (bs "lock"); Line []; Interrupted; Line (bs "exit"); Line (bs "more")].
Definition ex_history (s : st) : cres unit * bytes * option (list bytes) :=
  let '(r, t, h) := shell_with_history toy_release (shell_externals (fun _ => None)) (bs "path") false [bs "list"] (typed ex_session s) in
  (r, t_shown t, h).
Example C61_example_session :
  ex_history (snd (run toy_release [Reset (bs "secret"); Restart] start)) =
    (COk tt, SHELL_HELP ++ [newline] ++ bs "Password added." ++ [newline] ++ bs "Passwords locked." ++ [newline] ++ bs "Passwords locked." ++ [newline],
     Some [bs "list"; bs "add-stored example.com me"; bs "lock"; bs "exit"]).
Proof. rewrite <- (final_run toy_release [Reset (bs "secret"); Restart] start ex_history). vm_compute. reflexivity. Qed.

Example C61_example : orderly [bs "list"] /\
  until_exit (shell_externals (fun _ => None)) (ty_lines ex_session) =
    Some [bs "add-stored example.com me"; bs "lock"; bs "lock"; []; bs "exit"].
Proof.
  split; [|vm_compute; reflexivity]. split; [cbn; lia|]. split; [intros [H|[]]; discriminate H|].
  intros a x y b H. apply (f_equal (@length bytes)) in H. rewrite app_length in H. cbn in H. lia.
Qed.

(** The storage file does not show the names of sites and passwords (C38). The history does. *)
Theorem C61_names_hidden_refuted :
  ~ (forall P E path sp old t r t' h x n v rc y l1 line l2, shell_with_history P E path sp old t = (r, t', Some h) ->
       Forall (fun e => ~ appears x e) old ->
       until_exit E (t_lines t) = Some (l1 ++ line :: l2) -> e_parse E line = SCommand (AddStored x n v rc y) ->
       Forall (fun e => ~ appears x e) h).
Proof.
  intros H. pose proof C61_example_session as E. revert E.
  generalize (snd (run toy_release [Reset (bs "secret"); Restart] start)). intros s E. unfold ex_history in E.
  match type of E with context [shell_with_history ?P ?E ?p ?sp ?old ?t] => destruct (shell_with_history P E p sp old t) as [[r t'] h] eqn:Es end.
  apply pair_equal_spec in E. destruct E as [_ ->].
  specialize (H _ _ _ _ _ _ _ _ _ ex_site (bs "me") (bs "1") false false [] (bs "add-stored example.com me") [bs "lock"; bs "lock"; []; bs "exit"] Es).
  assert (Forall (fun e => ~ appears ex_site e) [bs "list"]) as Hn.
  { constructor; [|constructor]. intros (a & b & Hab). apply (f_equal (@length byte)) in Hab. rewrite !app_length in Hab. cbn in Hab. lia. }
  change (t_lines (typed ex_session s)) with (ty_lines ex_session) in H. specialize (H Hn (proj2 C61_example)).
  assert (e_parse (shell_externals (fun _ => None)) (bs "add-stored example.com me") = SCommand (AddStored ex_site (bs "me") (bs "1") false false)) as Hp
    by (vm_compute; reflexivity).
  specialize (H Hp). apply List.Forall_inv_tail, List.Forall_inv in H. apply H. exists (bs "add-stored "), (bs " me"). reflexivity.
Qed.
Print Assumptions C61_names_hidden_refuted.
