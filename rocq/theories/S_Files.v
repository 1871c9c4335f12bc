(** Vocabulary for statements about files and directories. *)
From stdpp Require Import gmap.
From Verif Require Import M_Base M_Prims M_Types M_Storage M_Passwords S_Vault M_History S_Api M_Cli M_Files.

(** The directories above [p]. *)
Definition above (q p : fpath) : Prop := exists cs, cs <> [] /\ p = cs ++ q.

(** A file system: the root is a directory, and whatever exists is in a directory. *)
Definition tree (fs : files) : Prop :=
  fs !! ([] : fpath) = Some Dir /\ forall q p x, fs !! p = Some x -> above q p -> fs !! q = Some Dir.

(** Nothing but the file [p] is changed, its directories are created if missing; nothing is removed. *)
Definition only_changes (p : fpath) (fs fs' : files) : Prop :=
  forall q, fs' !! q = fs !! q \/
    (above q p /\ fs !! q = None /\ fs' !! q = Some Dir) \/
    (q = p /\ fs !! q <> Some Dir /\ exists t, fs' !! q = Some (File t)).

(** Directories cannot be created. *)
Definition no_directory (O : os) (n : nat) (p : fpath) (fs : files) : Prop :=
  exists q, above q p /\ ((exists t, fs !! q = Some (File t)) \/ (fs !! q = None /\ o_mkdir O n q = true)).

(** Nothing is refused. *)
Definition no_trouble (O : os) : Prop := forall n, (forall q, o_mkdir O n q = false) /\ o_open O n = false /\ o_write O n = None.

(** What calls leave behind that started with [n] saves done: directories as the saves create them, and the file. *)
Definition files_left (O : os) (p : fpath) (n : nat) (fs : files) (s : st) : files :=
  let dirs := after_saves O p (s_flushes s - n) n fs in
  match s_disk s with Some t => <[p := File t]> dirs | None => dirs end.

(** Commands that change nothing. *)
Definition looks (c : M_Cli.command) : Prop :=
  match c with
  | M_Cli.Show _ _ _ _ | M_Cli.Notes _ _ _ false | M_Cli.Alias _ None false => True
  | M_Cli.List _ name _ _ _ => name <> bs "*"
  | _ => False
  end.
