(** Standard output and stderr that stop accepting data, for the programs of M_Steps.

    [pfp list | head -1], a closed terminal, a full disk behind [> file]: from some moment on, writing fails. [println!],
    [print!] and [eprintln!] panic then; the calls of [flush] and [write_all] in the program are followed by [unwrap]
    (utils.rs:71-76, list.rs:94-104, 125-129, notes.rs:34-37, show.rs:29-56, shell.rs:46, 106). A panic is caught nowhere; dropping
    [Passwords] while unwinding (passwords.rs:460-464) does not touch the file. Exception: the standard library ignores
    errors when it flushes the standard output at the end of the process (the last [Flush] in [main_p]); C80_nothing_left shows
    that nothing is left to be written there. Left out: prompts of question, rpassword and rustyline. --wait: M_Wait. *)
From stdpp Require Import gmap.
From Verif Require Import M_Base M_Utf8 M_Prims M_Types M_Recovery M_Json M_Storage M_Passwords M_Cli M_Steps.

(** How many bytes the standard output and how many messages stderr accept. *)
Record limits : Type := mk_limits { lim_out : nat; lim_err : nat }.
(** What was written was accepted. *)
Definition fits (L : limits) (t : term) : Prop := length (t_shown t) <= lim_out L /\ length (t_err t) <= lim_err L.

(** Writing to the standard output: [write_all] writes as many bytes as are accepted before the error. *)
Definition writing_to {A} (L : limits) (c : C A) : C A := fun t =>
  let '(r, t') := c t in
  if length (t_shown t') <=? lim_out L then (r, t') else (CPanic, with_out (firstn (lim_out L) (t_shown t')) (t_buf t) t).
(** Writing to stderr *)
Definition complaining_to {A} (L : limits) (c : C A) : C A := fun t =>
  let '(r, t') := c t in if length (t_err t') <=? lim_err L then (r, t') else (CPanic, t).

(** As [completes] of M_Steps *)
Fixpoint completes_to (L : limits) {A : Type} (p : prog A) : term -> cres A -> term -> Prop :=
  match p in prog A return term -> cres A -> term -> Prop with
  | Ret a => fun t r t' => r = COk a /\ t' = t
  | Fail m => fun t r t' => r = CErr m /\ t' = t
  | Abort => fun t r t' => r = CPanic /\ t' = t
  | Bind p k => fun t r t' =>
      (exists a t1, completes_to L p t (COk a) t1 /\ completes_to L (k a) t1 r t') \/
      (exists m, completes_to L p t (CErr m) t' /\ r = CErr m) \/ (completes_to L p t CPanic t' /\ r = CPanic)
  | Loop body a => fun t r t' => loop_ends (fun x => completes_to L (body x)) a t r t'
  | Try p => fun t r t' =>
      (exists a, completes_to L p t (COk a) t' /\ r = COk (inr a)) \/
      (exists m, completes_to L p t (CErr m) t' /\ r = COk (inl m)) \/ (completes_to L p t CPanic t' /\ r = CPanic)
  | Call m => acts (api_res m)
  | Print b => acts (writing_to L (print b))
  | Flush => acts (writing_to L flush_stdout)
  | Direct b => acts (writing_to L (write_direct b))
  | Complain m => acts (complaining_to L (eprintln m))
  | Confirm => acts confirm
  | Question => acts ask
  | Typed => acts tty_password
  | Stdin => acts stdin_line
  | Readline => acts next_line
  end.
