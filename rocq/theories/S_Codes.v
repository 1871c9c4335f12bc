(** What the text of a recovery code says. *)
From Verif Require Import M_Base S_Recovery.

(** [text] is a complete code with correct checksums, and [data] what its lines carry besides the
    checksums. *)
Definition spells (text data : bytes) : Prop :=
  exists lines, code_lines text lines /\ concat (map (firstn 14) lines) = data.

(** Positions, counted from the start of a group of eight characters, at which the exchange of two
    neighbouring characters changes the checksum: the characters at the position and after it (after
    the last one follows the next group). *)
Definition seen_positions : list nat := [0; 2; 5; 7].
