(** Files and directories: what saving does to the file system (pfp/src/storage_io/file.rs:77-86), where the files are
    (cli/src/main.rs:57-72, cli/src/processor/shell.rs:14-35).

    In the other models the storage file is the only file and [p_write] tells how writing it ends. Here that is computed
    from the directories that exist and from what the operating system refuses.

    Simplifications: no links, no [..] in paths; paths are absolute (for a relative path the current directory is
    supposed to exist, which makes [create_dir_all] of it do nothing); a file that exists can be read; nobody else
    changes the file system. *)
From stdpp Require Import gmap.
From Verif Require Import M_Base M_Prims M_Types M_Storage M_Passwords S_Vault M_History S_Api.

(** The components of a path, the last one first; [] is the root directory. [Path::parent] drops the first element. *)
Notation fpath := (list bytes).
Inductive node : Type := Dir | File (text : bytes).
Notation files := (gmap fpath node).

(** What the operating system refuses during the [n]-th save of the process, for whatever reason (permissions, disk
    full): to create a certain directory, to open the file for writing, to write more than some number of bytes. *)
Record os : Type := mk_os {
  o_mkdir : nat -> fpath -> bool;
  o_open : nat -> bool;
  o_write : nat -> option nat
}.

(** The system call mkdir. [Missing]: the parent directory does not exist (ENOENT); [Refused]: any other error. *)
Inductive made : Type := Made | Missing | Refused.
(** Why a path cannot be reached: the nearest ancestor that exists is a directory or not (ENOENT, ENOTDIR). *)
Fixpoint unreachable (fs : files) (p : fpath) : made :=
  match fs !! p, p with
  | Some Dir, _ => Missing
  | Some (File _), _ => Refused
  | None, [] => Missing
  | None, _ :: up => unreachable fs up
  end.
Definition mkdir (O : os) (n : nat) (p : fpath) (fs : files) : made * files :=
  match fs !! p, p with
  | Some _, _ => (Refused, fs)
  | None, [] => (Missing, fs)
  | None, _ :: up =>
      match fs !! up with
      | Some Dir => if o_mkdir O n p then (Refused, fs) else (Made, <[p := Dir]> fs)
      | _ => (unreachable fs up, fs)
      end
  end.
Definition is_dir (fs : files) (p : fpath) : bool := match fs !! p with Some Dir => true | _ => false end.

(** [std::fs::create_dir_all] ([DirBuilder::create_dir_all] of the standard library): whether it succeeds *)
Fixpoint create_dir_all (O : os) (n : nat) (p : fpath) (fs : files) : bool * files :=
  match mkdir O n p fs with
  | (Made, fs1) => (true, fs1)
  | (Refused, fs1) => (is_dir fs1 p, fs1)
  | (Missing, fs1) =>
      match p with
      | [] => (false, fs1)
      | _ :: up =>
          let '(ok, fs2) := create_dir_all O n up fs1 in
          if ok then
            let '(r, fs3) := mkdir O n p fs2 in
            (match r with Made => true | _ => is_dir fs3 p end, fs3)
          else (false, fs2)
      end
  end.

(** [fs::write]: the file is created or truncated, then the text is written. *)
Definition write_file (O : os) (n : nat) (p : fpath) (text : bytes) (fs : files) : write_outcome * files :=
  match p with
  | [] => (OpenFails, fs)
  | _ :: up =>
      if negb (is_dir fs up) || is_dir fs p || o_open O n then (OpenFails, fs)
      else match o_write O n with
           | None => (WriteOk, <[p := File text]> fs)
           | Some k => (WriteFailsAfter k, <[p := File (firstn k text)]> fs)
           end
  end.

(** file.rs:81-85, for the text to be written *)
Definition save (O : os) (n : nat) (p : fpath) (text : bytes) (fs : files) : write_outcome * files :=
  match p with
  | [] => write_file O n p text fs
  | _ :: up =>
      let '(ok, fs1) := create_dir_all O n up fs in
      if ok then write_file O n p text fs1 else (CreateDirFails, fs1)
  end.
(** file.rs:42-43 *)
Definition read (fs : files) (p : fpath) : option bytes := match fs !! p with Some (File t) => Some t | _ => None end.

(** A call of the library by a process using the storage file [p]: if it saves, this ends as [save] says, and
    the files are as [save] leaves them. (How it ends does not depend on the text.) *)
Definition call (O : os) (P : prims) (p : fpath) (o : op) (s : st) (fs : files) : out * st * files :=
  let '(r, s') := exec (with_writes P (fun n => fst (save O n p [] fs))) o s in
  (r, s', if s_flushes s' =? s_flushes s then fs else snd (save O (s_flushes s) p (flush_text P s') fs)).
Fixpoint calls_on (O : os) (P : prims) (p : fpath) (l : list op) (s : st) (fs : files) : list out * st * files :=
  match l with
  | [] => ([], s, fs)
  | o :: l' =>
      let '(r, s1, fs1) := call O P p o s fs in
      let '(rs, s2, fs2) := calls_on O P p l' s1 fs1 in
      (r :: rs, s2, fs2)
  end.

(** The saves of a process from the [n]-th on end like this. *)
Fixpoint after_saves (O : os) (p : fpath) (k n : nat) (fs : files) : files :=
  match k with
  | 0 => fs
  | S k' => after_saves O p k' (S n) (snd (save O n p [] fs))
  end.
Definition answers (O : os) (p : fpath) (n : nat) (fs : files) (m : nat) : write_outcome :=
  fst (save O m p [] (after_saves O p (m - n) n fs)).

(** main.rs:57-65 and shell.rs:14-22; [root] is what [app_dirs2::get_app_root] returns. *)
Definition default_storage_path (root : fpath) : fpath := bs "storage.json" :: root.
Definition default_history_path (root : fpath) : fpath := bs "history.txt" :: root.
(** main.rs:68-72, shell.rs:29-34 *)
Definition storage_path (given : option fpath) (root : fpath) : fpath :=
  match given with Some p => p | None => default_storage_path root end.
Definition history_path (given : option fpath) (root : fpath) : fpath :=
  match given with Some p => p | None => default_history_path root end.
(** shell.rs:118-124, at the end of a shell: rustyline's [save_history] creates or truncates the file and writes
    the entries, it creates no directories. [n]: as above, any number. *)
Definition save_history (O : os) (n : nat) (h : fpath) (text : bytes) (fs : files) : files := snd (write_file O n h text fs).
