(** Saving and loading as the operating system sees it: the calls behind [std::fs::write] (file.rs:85) and
    [std::fs::read_to_string] (file.rs:42-43), made by several processes in any order.

    [fs::write] opens the file for writing, which creates it or makes it empty, and then calls [write] until the
    whole text is written. [fs::read_to_string] opens the file and calls [read] until nothing more is delivered.
    Each process has its own position in the file. No call locks the file.

    Simplifications: one file that nobody removes or renames, no failing calls (an abandoned save or load is one
    that makes no further calls). Writing behind the end of the file fills the gap with NUL bytes. *)
From Verif Require Import M_Base.

(** What a process is doing: nothing, saving [text] of which [pos] bytes are written, loading with [got]
    received so far, or done loading. *)
Inductive job : Type :=
  | Idle
  | Saving (text : bytes) (pos : nat)
  | Loading (got : bytes)
  | Loaded (got : bytes).

(** A call of process [p]: [File::create], [write] of which the system took [n] bytes at most, [File::open],
    [read] with a buffer of [n] bytes. *)
Inductive event : Type :=
  | ECreate (p : nat) (text : bytes)
  | EWrite (p n : nat)
  | EOpen (p : nat)
  | ERead (p n : nat).

Record sys : Type := mk_sys { y_file : option bytes; y_jobs : nat -> job }.

Definition set_job (p : nat) (j : job) (f : nat -> job) (q : nat) : job := if q =? p then j else f q.

(** [write] at a position; writing nothing has no effect *)
Definition overwrite (pos : nat) (chunk file : bytes) : bytes :=
  match chunk with
  | [] => file
  | _ => firstn pos (file ++ repeat x00 (pos - length file)) ++ chunk ++ skipn (pos + length chunk) file
  end.

(** One call. A call that does not fit what the process is doing has no effect. *)
Definition happen (e : event) (y : sys) : sys :=
  match e with
  | ECreate p text => mk_sys (Some []) (set_job p (Saving text 0) (y_jobs y))
  | EWrite p n =>
      match y_jobs y p, y_file y with
      | Saving text pos, Some file =>
          let chunk := firstn n (skipn pos text) in
          mk_sys (Some (overwrite pos chunk file)) (set_job p (Saving text (pos + length chunk)) (y_jobs y))
      | _, _ => y
      end
  | EOpen p =>
      match y_file y with
      | Some _ => mk_sys (y_file y) (set_job p (Loading []) (y_jobs y))
      | None => y
      end
  | ERead p n =>
      match y_jobs y p, y_file y with
      | Loading got, Some file =>
          match firstn n (skipn (length got) file) with
          | [] => mk_sys (y_file y) (set_job p (if n =? 0 then Loading got else Loaded got) (y_jobs y))
          | chunk => mk_sys (y_file y) (set_job p (Loading (got ++ chunk)) (y_jobs y))
          end
      | _, _ => y
      end
  end.

Definition happens (l : list event) (y : sys) : sys := fold_left (fun y e => happen e y) l y.

(** Nobody is using the file. *)
Definition at_rest (file : option bytes) : sys := mk_sys file (fun _ => Idle).
