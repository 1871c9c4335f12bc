(** Vocabulary for comparing a session of the shell with separate processes. *)
From stdpp Require Import gmap.
From Verif Require Import M_Base M_Prims M_Types M_Storage M_Passwords M_Recovery M_Cli S_Cli S_Failure.

(** The keys of a map are iterated in an order that depends on the map only. (The order the standard library of Rust uses
    is a different one in each process, but of no consequence here except for the order of the entries in the file.) *)
Definition steady (P : prims) : Prop := forall n n' d, p_order P n d = p_order P n' d.

(** The file is what the process has in memory. *)
Definition saved (P : prims) (s : st) : Prop := load P (s_disk s) = Ok (s_data s).

(** A process that failed has left nothing in memory only: it is not about listing, where sites might have been removed,
    and no error writing the file was reported. *)
Definition clean_failure (c : command) (t t' : term) : Prop :=
  match c with List _ _ _ _ _ => False | _ => True end /\
  exists l m, t_err t' = t_err t ++ l ++ [m] /\ match m with Lib e => write_error e = false | Text _ => True end.

(** Processes one after the other and what each of them prints. *)
Inductive separately (P : prims) (E : externals) (path : bytes) (sp : bool) : list command -> term -> list bytes -> term -> Prop :=
| separately_none t : separately P E path sp [] t [] t
| separately_success c cs t t1 out outs t2 :
    main P E path (mk_args sp c) t = (Success, t1) -> t_shown t1 = t_shown t ++ out ->
    separately P E path sp cs t1 outs t2 ->
    separately P E path sp (c :: cs) t (out :: outs) t2
| separately_failure c cs t t1 out outs t2 :
    main P E path (mk_args sp c) t = (Failure, t1) -> t_shown t1 = t_shown t ++ out -> clean_failure c t t1 ->
    separately P E path sp cs t1 outs t2 ->
    separately P E path sp (c :: cs) t (out :: outs) t2.

(** The commands typed in a session, with [lock] after each of them. *)
Definition with_locks (lock : bytes) (lines : list bytes) : list readline := flat_map (fun l => [Line l; Line lock]) lines.

(** Printed by [lock]. *)
Definition locked_line : bytes := bs "Passwords locked." ++ [newline].

(** What is left when processes are over is the same, except for what was printed. *)
Record same_but_output (t u : term) : Prop := {
  sb_disk : s_disk (t_st u) = s_disk (t_st t);
  sb_flushes : s_flushes (t_st u) = s_flushes (t_st t);
  sb_rand : s_rand (t_st u) = s_rand (t_st t);
  sb_stdin : t_stdin u = t_stdin t;
  sb_tty : t_tty u = t_tty t;
  sb_confirms : t_confirms u = t_confirms t;
  sb_asks : t_asks u = t_asks t
}.
