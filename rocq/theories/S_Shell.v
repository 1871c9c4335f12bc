(** Vocabulary for the history of the shell. *)
From stdpp Require Import gmap.
From Verif Require Import M_Base M_Prims M_Storage M_Passwords M_Cli M_Shell.

(** What is typed at the prompt until the session ends: everything up to a line [exit] or the end of the input. *)
Fixpoint until_exit (E : externals) (l : list readline) : option (list bytes) :=
  match l with
  | [] => None
  | Line line :: l' =>
      match e_parse E line with
      | SExit => Some [line]
      | _ => match until_exit E l' with Some r => Some (line :: r) | None => None end
      end
  | Eof :: _ => Some []
  | _ :: l' => until_exit E l'
  end.

(** [x] appears in [s]. *)
Definition appears (x s : bytes) : Prop := exists a b, s = a ++ x ++ b.

(** The kind of list a history is. *)
Definition orderly (h : list bytes) : Prop :=
  length h <= 100 /\ ~ In [] h /\ forall a x y b, h = a ++ x :: y :: b -> x <> y.
