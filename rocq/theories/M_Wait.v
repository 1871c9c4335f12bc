(** --wait action by action, for the programs of M_Steps. *)
From stdpp Require Import gmap.
From Verif Require Import M_Base M_Utf8 M_Prims M_Types M_Recovery M_Json M_Storage M_Passwords M_Cli M_Args M_Steps.

(** main.rs:32-56, 98-113 [Shutdown], [main]: as [program] of M_Args. [Shutdown] is dropped last, after [main_inner] has dropped its
    variables and after the error was printed. Simplification: the last [Flush] of [main_p], which stands for the end of the process,
    comes before; nothing is left to be flushed there (C80_nothing_left). *)
Definition program_p (P : prims) (E : externals) (path : bytes) (i : invocation) : prog exit :=
  do x <- main_p P E path (i_args i);
  if i_wait i then do _ <- Flush; do _ <- Direct WAITING; do _ <- Stdin; Ret x else Ret x.
