(** What passwords and the encryption key are derived from. *)
From stdpp Require Import gmap.
From Verif Require Import M_Base M_Utf8 M_Prims M_Types S_Utf8 S_Vault.

(** No NUL character in site and name. *)
Definition free_of_nul (i : pid) : Prop := let '(s, n, r) := i in ~ In x00 s /\ ~ In x00 n.

Definition pid_valid (i : pid) : Prop := let '(s, n, r) := i in utf8 s = true /\ utf8 n = true /\ utf8 r = true.

(** The text the encryption key is derived from, besides the primary password: each byte of the salt as a character. *)
Definition key_input (salt : bytes) : bytes := utf8_text (latin1_points salt).

(** Asking the derivation for less gives a beginning of what it gives otherwise. *)
Definition extendable (P : prims) : Prop :=
  forall p s m n, m <= n -> p_scrypt P p s m = firstn m (p_scrypt P p s n).
