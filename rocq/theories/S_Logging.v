(** Vocabulary for C83. *)
From stdpp Require Import gmap.
From Verif Require Import M_Base M_Logging.

(** [System.alloc] never hands out a block that is in use. *)
Definition fresh_blocks (E : alloc_env) : Prop := forall used, ~ In (e_system E used) used.

(** The number written with these hexadecimal digits; [None] if there is another character or none at all. *)
Definition hex_value (b : byte) : option N :=
  match b with
  | "0" => Some 0 | "1" => Some 1 | "2" => Some 2 | "3" => Some 3 | "4" => Some 4 | "5" => Some 5 | "6" => Some 6 | "7" => Some 7
  | "8" => Some 8 | "9" => Some 9 | "a" => Some 10 | "b" => Some 11 | "c" => Some 12 | "d" => Some 13 | "e" => Some 14 | "f" => Some 15
  | _ => None
  end%N%byte.
Fixpoint hex_number (acc : N) (t : bytes) : option N :=
  match t with
  | [] => Some acc
  | b :: t => match hex_value b with Some d => hex_number (16 * acc + d) t | None => None end
  end.

(** A line and a text following it that say: this block was allocated there. *)
Definition tells (t : bytes) (p : N) (trace : bytes) : Prop :=
  exists digits, digits <> [] /\ hex_number 0 digits = Some p /\ (hd x00 digits = x30 -> digits = [x30]) /\
    t = bs "Allocation of " ++ digits ++ bs ":" ++ [x0a] ++ trace ++ [x0a].
(** The backtrace made for the block that was obtained as number [i]. *)
Definition made_for (E : alloc_env) (used : list N) (p : N) (trace : bytes) : Prop :=
  exists i, nth_error used i = Some p /\ trace = e_trace E i.
(** The file consists of such parts, one for each of the blocks, in this order. *)
Inductive log_of (about : N -> bytes -> Prop) : list N -> bytes -> Prop :=
| log_nil : log_of about [] []
| log_cons p trace t ps rest : about p trace -> tells t p trace -> log_of about ps rest -> log_of about (p :: ps) (t ++ rest).

(** How many blocks are asked for. *)
Definition asked (l : list use) : nat := length (List.filter (fun u => match u with Takes => true | Gives _ => false end) l).
