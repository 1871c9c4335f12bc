(** The history of the shell (cli/src/processor/shell.rs:31-43, 62, 118-124).

    Lines are kept by rustyline 9.1.2 in its default configuration: at most 100, no empty lines, no line equal to
    the one before. Not modelled: the format of the history file, and the messages if it cannot be read or written. *)
From stdpp Require Import gmap.
From Verif Require Import M_Base M_Prims M_Storage M_Passwords M_Cli.

(** [rustyline::history::History::add] *)
Definition MAX_HISTORY : nat := 100.
Definition add_history_entry (entries : list bytes) (line : bytes) : list bytes :=
  match line with
  | [] => entries
  | _ =>
      if match rev entries with l :: _ => bytes_eqb l line | [] => false end then entries
      else (if length entries =? MAX_HISTORY then tl entries else entries) ++ [line]
  end.

(** shell.rs:47-62: every line that is read is added before anything is done with it. *)
Definition lines_of (l : list readline) : list bytes :=
  omap (fun r => match r with Line line => Some line | _ => None end) l.
Definition lines_read (t t' : term) : list bytes :=
  lines_of (firstn (length (t_lines t) - length (t_lines t')) (t_lines t)).

(** A session with the entries loaded from the history file (none, if that fails: shell.rs:37-43); the entries saved
    in the end (shell.rs:118-124) are only there if the session comes to an end. *)
Definition shell_with_history (P : prims) (E : externals) (path : bytes) (sp : bool) (old : list bytes) (t : term)
  : cres unit * term * option (list bytes) :=
  let '(r, t') := shell_cmd P E path sp t in
  (r, t', match r with COk _ => Some (fold_left add_history_entry (lines_read t t') old) | _ => None end).
