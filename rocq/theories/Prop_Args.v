(** C55 and C56: command lines, and lines typed in the shell. *)
From stdpp Require Import gmap.
From Coq Require Import Permutation.
From Verif Require Import M_Base M_Utf8 M_Prims M_Types M_Recovery M_Json M_Storage M_Passwords M_Cli.
From Verif Require Import S_Json S_Utf8 S_Trim S_Cli M_Args S_Args P_Args P_Split P_Line S_Abort P_Abort P_AbortCli T_Toy T_History T_Cli T_Abort.

(** * Command lines *)

(** A command line is accepted if and only if it is one by the description in [S_Args], and then means the
    command described there. *)
Theorem C55_understood : forall words storage wait stdin c,
  parse_args words = Some (mk_inv storage wait (mk_args stdin c)) <-> command_line words storage stdin wait c.
Proof. exact parse_args_spec. Qed.
Print Assumptions C55_understood.

(** The description is not ambiguous. *)
Theorem C55_unambiguous : forall words p i w c p' i' w' c',
  command_line words p i w c -> command_line words p' i' w' c' -> p = p' /\ i = i' /\ w = w' /\ c = c'.
Proof.
  intros words p i w c p' i' w' c' H H'. apply parse_args_spec in H, H'. rewrite H in H'. injection H' as -> -> -> ->. auto.
Qed.
Print Assumptions C55_unambiguous.

(** Every command can be given, with any texts as arguments. *)
Theorem C55_every_command : forall c text storage stdin wait,
  (forall d n r len w u g s y, c = Add d n r len w u g s y -> a_length text len) ->
  parse_args (write_general storage stdin wait ++ write_command c text) = Some (mk_inv storage wait (mk_args stdin c)).
Proof.
  intros c text p i w H. apply write_parse. intros len Hl. destruct c; try discriminate Hl. injection Hl as <-. eapply H. reflexivity.
Qed.
Print Assumptions C55_every_command.

(** Options may be given in any order and anywhere between the arguments. *)
Theorem C55_order : forall name table rest rest' l l' ps c, In (name, table) tables ->
  arranged table rest l ps -> arranged table rest' l' ps -> Permutation l l' ->
  parse_args (name :: rest) = Some c -> parse_args (name :: rest') = Some c.
Proof.
  intros name table rest rest' l l' ps c Ht Ha Ha' Hp.
  assert (plain name = true) as Hn by exact (proj2 (plain_spec name) (name_plain name table Ht)).
  unfold parse_args. cbn [scan_top]. rewrite Hn. cbn [distinct map].
  destruct (parse_sub name rest) as [c0|] eqn:E; [|discriminate].
  rewrite (order_irrelevant name table rest rest' l l' ps c0 Ht Ha Ha' Hp E). auto.
Qed.
Print Assumptions C55_order.

(** No option may be given twice. *)
Theorem C55_twice : forall name table rest l ps, In (name, table) tables -> arranged table rest l ps -> ~ List.NoDup (map fst l) ->
  parse_args (name :: rest) = None.
Proof.
  intros name table rest l ps Ht Ha Hd. unfold parse_args. cbn [scan_top].
  rewrite (proj2 (plain_spec name) (name_plain name table Ht)). cbn [distinct map].
  unfold parse_sub. assert (sub_options name = Some (map as_opt table)) as -> by (apply sub_options_spec; exists table; auto).
  rewrite (scan_complete table (good_tables _ _ Ht) _ _ _ Ha).
  destruct (distinct (map fst l)) eqn:E; [|reflexivity]. apply distinct_spec in E. contradiction.
Qed.
Print Assumptions C55_twice.

(** Arguments are texts, and lengths of passwords are between 4 and 24. *)
Theorem C55_valid : forall words storage wait stdin c, Forall (fun w => utf8 w = true) words ->
  parse_args words = Some (mk_inv storage wait (mk_args stdin c)) ->
  command_valid c /\ match storage with Some p => utf8 p = true | None => True end.
Proof. intros words p w i c H Hp. apply parse_args_spec in Hp. exact (command_line_valid _ _ _ _ _ H Hp). Qed.
Print Assumptions C55_valid.

Example C55_example :
  command_line [bs "-cx"; bs "--wait"; bs "add"; bs "-wd"; bs "a"; bs "--length"; bs "+8"; bs "-ysr=2"; bs "--"; bs "-n"]
    (Some (bs "x")) false true (Add (bs "a") (bs "-n") (bs "2") 8 true false true true true) /\
  parse_args [bs "list"; bs "-rs"; bs "*.com"] = Some (mk_inv None false (mk_args false (List (bs "*.com") (bs "*") true true false))) /\
  parse_args [bs "list"; bs "-rr"] = None /\ parse_args [bs "show"; bs "a"; bs "n"; bs "-r"; bs "-1"] = None /\
  parse_args [bs "add"; bs "a"; bs "n"; bs "-l25"] = None /\
  arranged [revision_entry] [bs "a"; bs "-r"; bs "2"; bs "n"] [(bs "revision", Some (bs "2"))] [bs "a"; bs "n"].
Proof.
  split; [apply parse_args_spec; vm_compute; reflexivity|]. do 4 (split; [vm_compute; reflexivity|]).
  apply arr_argument; [intros c r [=]|].
  apply (arr_option _ [bs "-r"; bs "2"] [(bs "revision", Some (bs "2"))] [bs "n"] []).
  - apply (letters_then _ [] [] "r"%byte (bs "revision") (bs "2")); [constructor|left; reflexivity|intros c r [=]].
  - apply arr_argument; [intros c r [=]|constructor].
Qed.

(** * Lines typed in the shell *)

(** Which words a line contains, and which lines are refused *)
Theorem C56_words : forall line words, utf8 line = true -> split line = Some words <-> typed_line line words.
Proof. exact split_spec. Qed.
Print Assumptions C56_words.
Theorem C56_broken : forall line, utf8 line = true -> split line = None <-> broken_line line.
Proof. exact split_broken. Qed.
Print Assumptions C56_broken.

(** Any words can be typed by quoting them. *)
Theorem C56_any_words : forall words, split (join (bs " ") (map quoted words)) = Some words.
Proof. intros words. apply split_line, quoted_line. Qed.
Print Assumptions C56_any_words.

(** Lines are commands if the words are a command line, and are [exit] or [lock] if the words are nothing else. *)
Theorem C56_commands : forall line words c, typed_line line words ->
  parse_line line = SCommand c <-> exists storage stdin wait, command_line words storage stdin wait c.
Proof. exact parse_line_command. Qed.
Print Assumptions C56_commands.
Theorem C56_exit : forall line words, typed_line line words -> parse_line line = SExit <-> bare_command words (bs "exit").
Proof. intros line words. apply parse_line_bare. left. reflexivity. Qed.
Print Assumptions C56_exit.
Theorem C56_lock : forall line words, typed_line line words -> parse_line line = SLock <-> bare_command words (bs "lock").
Proof. intros line words. apply parse_line_bare. right. reflexivity. Qed.
Print Assumptions C56_lock.

(** What is assumed elsewhere about the reading of lines holds. *)
Theorem C56_valid : forall qr, externals_valid (shell_externals qr).
Proof. exact shell_externals_valid. Qed.
Print Assumptions C56_valid.

(** No process aborts: C53 with command lines and typed lines instead of commands. *)
Theorem C56_no_abort : forall P qr path key words i t, prims_ok P -> p_overflow_checks P = false ->
  Forall (fun w => utf8 w = true) words -> parse_args words = Some i -> (forall y, a_command (i_args i) <> SetPrimary y) ->
  readable t -> length key = 32 -> (forall d, load P (s_disk (t_st t)) = Ok d -> harmless P key d) ->
  fst (program P (shell_externals qr) path i t) <> Aborted.
Proof.
  intros P qr path key words [p w [sp c]] t HP Ho Hw Hp Hn Ht Hl Hd.
  apply parse_args_spec in Hp. destruct (command_line_valid _ _ _ _ _ Hw Hp) as [Hc _].
  pose proof (main_safe' P HP key Ho (shell_externals qr) path (mk_args sp c) t (shell_externals_valid qr) Hc Hn Hl Hd Ht) as [[H _] Hi].
  unfold program. cbn [i_args i_wait]. destruct (main P (shell_externals qr) path (mk_args sp c) t) as [x t'].
  cbn [fst snd] in H, Hi. apply first_line_utf8 in Hi.
  destruct x, w; cbn [fst]; try congruence; unfold wait_for_line, cbind, flush_stdout, write_direct, with_out; cbn [t_stdin];
    destruct (read_line (t_stdin t')) as [line rest]; cbn [fst] in Hi; rewrite Hi; discriminate.
Qed.
Print Assumptions C56_no_abort.

Example C56_example :
  typed_line (bs " show 'a b'\ c  ""d\""""") [bs "show"; bs "a b c"; bs "d"""] /\
  parse_line (bs "show -q 'a b' ""n\n""") = SCommand (Show (bs "a b") (bs "n\n") (bs "1") true) /\
  parse_line (bs "show a n '") = SError (Text []) /\ broken_line (bs "show a n '") /\
  parse_line (bs "  exit ") = SExit /\ parse_line (bs "lock a") = SError (Text []).
Proof.
  split; [apply C56_words; [reflexivity|vm_compute; reflexivity]|]. split; [vm_compute; reflexivity|].
  split; [vm_compute; reflexivity|]. split; [apply C56_broken; [reflexivity|vm_compute; reflexivity]|].
  split; vm_compute; reflexivity.
Qed.

(** * What is not true *)

(** In the shell, a line that names another file is not refused (and the command is executed on the file of the
    shell, [storage] in [C56_commands] is dropped). *)
Theorem C56_other_file_refuted :
  ~ (forall line words storage stdin wait c, typed_line line words -> command_line words (Some storage) stdin wait c ->
       exists m, parse_line line = SError m).
Proof.
  intros H. specialize (H (bs "-c other.json remove a n") [bs "-c"; bs "other.json"; bs "remove"; bs "a"; bs "n"] (bs "other.json")
    false false (RemoveCmd (bs "a") (bs "n") (bs "1"))).
  destruct H as (m & H).
  - apply C56_words; [reflexivity|vm_compute; reflexivity].
  - apply parse_args_spec. vm_compute. reflexivity.
  - vm_compute in H. discriminate H.
Qed.
Print Assumptions C56_other_file_refuted.
