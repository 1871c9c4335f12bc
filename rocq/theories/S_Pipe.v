(** Vocabulary for C80: output that stops being accepted. *)
From stdpp Require Import gmap.
From Verif Require Import M_Base M_Prims M_Types M_Storage M_Passwords M_Cli M_Steps M_Pipe.

(** One list begins with the other. *)
Definition begins {A} (x y : list A) : Prop := exists z, y = x ++ z.
(** The process stops at the moment [pt], unable to write, leaving [t]. *)
Definition cannot_write (L : limits) (pt : point) (t : term) : Prop :=
  t_st t = t_st (pt_term pt) /\
  match pt_next pt with
  | Prints _ | Flushes | Writes _ => begins (t_shown (pt_term pt)) (t_shown t) /\ t_err t = t_err (pt_term pt) /\ length (t_shown t) = lim_out L
  | Complains _ => t_shown t = t_shown (pt_term pt) /\ t_err t = t_err (pt_term pt) /\ length (t_err t) = lim_err L
  | _ => False
  end.
