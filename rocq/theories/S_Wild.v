(** Wildcard patterns, by code points: [*] stands for any characters, [?] for one character, every
    other character for itself. *)
From Verif Require Import M_Base.

Definition STAR : N := 0x2A.
Definition ANY : N := 0x3F.

Inductive fits : list N -> list N -> Prop :=
| fits_end : fits [] []
| fits_star p u t : fits p t -> fits (STAR :: p) (u ++ t)
| fits_any p c t : fits p t -> fits (ANY :: p) (c :: t)
| fits_itself p c t : c <> STAR -> c <> ANY -> fits p t -> fits (c :: p) (c :: t).

(** A pattern that stands for itself only. *)
Definition literal (p : list N) : Prop := ~ In STAR p /\ ~ In ANY p.
