(** A machine on which the program is called again and again, with any arguments: which file it uses (cli/src/main.rs:68-72,
    cli/src/processor/shell.rs:29-34) and what happens to the files.

    Simplifications: [..] in paths is not treated specially; paths do not end in a slash; one process at a time (M_Processes and M_Syscalls
    are about several); the entries of the history are any text. Each storage file has random values of its own ([Ps]), and numbering of
    saves and random values goes on from one process using the file to the next one, as in [processes]. *)
From stdpp Require Import gmap.
From Verif Require Import M_Base M_Prims M_Types M_Storage M_Passwords S_Vault M_History S_Api M_Cli M_Args M_Files S_Files.

(** [std::path::Path]: components of a path, the last one first; empty ones and [.] are dropped. *)
Definition add_components (start : fpath) (text : bytes) : fpath :=
  fold_left (fun p c => if bytes_eqb c [] || bytes_eqb c (bs ".") then p else c :: p) (split_on "/"%byte text) start.
Definition resolve (cwd : fpath) (text : bytes) : fpath :=
  match text with
  | c :: _ => if Byte.eqb c "/"%byte then add_components [] text else add_components cwd text
  | [] => cwd
  end.
(** How a path is shown *)
Definition display (p : fpath) : bytes := concat (map (fun c => bs "/" ++ c) (rev p)).

(** What the user does: words on the command line, and what is typed. If a shell is left, its history is saved: this text, or
    nothing because nothing was typed. *)
Record usage : Type := mk_usage { u_words : list bytes; u_term : term; u_history : option bytes }.

(** Files, and for each storage file what is remembered for numbering, and how saving it ended so far. *)
Record machine : Type := mk_machine {
  m_files : files;
  m_state : fpath -> st;
  m_past : fpath -> nat -> write_outcome
}.

Section machine.
Context (O : os) (Ps : fpath -> prims) (E : externals) (cwd root : fpath).

(** How saves of this file ended and will end, as things are now *)
Definition outcomes (m : machine) (p : fpath) (k : nat) : write_outcome :=
  let n := s_flushes (m_state m p) in
  if k <? n then m_past m p k else answers O p n (m_files m) k.
Definition env (m : machine) (p : fpath) : prims := with_writes (Ps p) (outcomes m p).

(** shell.rs:29-34: the argument [--history]; only [shell] has it. *)
Definition history_arg (words : list bytes) : option bytes :=
  match scan_top TOP_OPTIONS None words with
  | Some (_, (name, rest)) =>
      match sub_options name with
      | Some opts => match scan opts None rest with Some (l, _) => value (bs "history") l | None => None end
      | None => None
      end
  | None => None
  end.
(** main.rs:68-72 *)
Definition storage_file (i : invocation) : fpath := storage_path (option_map (resolve cwd) (i_storage i)) root.
Definition history_file (words : list bytes) : fpath := history_path (option_map (resolve cwd) (history_arg words)) root.
Definition shown_path (i : invocation) : bytes :=
  match i_storage i with Some text => text | None => display (default_storage_path root) end.

(** The state in which a process starts: the file is what is found. *)
Definition found (m : machine) (p : fpath) : st :=
  let s := m_state m p in
  mk_st (s_data s) (s_key s) (s_hmac s) (s_primary s) (read (m_files m) p) (s_tick s) (s_flushes s) (s_rand s).

(** One call of the program ([files_left]: see C71_processes); [None]: clap printed something (help, version or what is wrong) and ended the process. *)
Definition invoke (u : usage) (m : machine) : option (exit * term) * machine :=
  match parse_args (u_words u) with
  | None => (None, m)
  | Some i =>
      let p := storage_file i in
      let t := with_st (found m p) (u_term u) in
      let '(x, t') := program (env m p) E (shown_path i) i t in
      let s' := t_st t' in
      let fs' := files_left O p (s_flushes (m_state m p)) (m_files m) s' in
      let fs'' := match a_command (i_args i), fst (main (env m p) E (shown_path i) (i_args i) t), u_history u with
                  | Shell, Success, Some text => save_history O (s_flushes s') (history_file (u_words u)) text fs'
                  | _, _, _ => fs'
                  end in
      (Some (x, t'), mk_machine fs'' (fun q => if decide (q = p) then s' else m_state m q)
                                (fun q => if decide (q = p) then outcomes m p else m_past m q))
  end.
Fixpoint invoke_all (l : list usage) (m : machine) : machine :=
  match l with [] => m | u :: l' => invoke_all l' (snd (invoke u m)) end.
End machine.
