(** How many byte sequences lead to the same password. *)
From Verif Require Import M_Base M_Types S_Policy.

(** Number of characters of a type, see [char_of]. *)
Definition amount (t : ctype) : nat := match t with Lower => 23 | Upper => 23 | Digit => 8 | Symbol => 28 end.
Definition total (ts : list ctype) : nat := list_sum (map amount ts).

Definition ctype_eq_dec (a b : ctype) : {a = b} + {a <> b}.
Proof. decide equality. Defined.

(** Number of characters to choose from at each position of a password with characters of the types [ts], if the types
    [missing] did not occur before: when there is no room for more, only missing types. *)
Fixpoint choices (selected missing ts : list ctype) : list nat :=
  match ts with
  | [] => []
  | t :: ts' =>
      total (if length missing <? length ts then selected else missing) ::
      choices selected (remove ctype_eq_dec t missing) ts'
  end.

Definition product (l : list nat) : nat := fold_right Nat.mul 1 l.

Definition selected_types (cs : charset) : list ctype := filter (cs_contains cs) all_types.
