(** C04-C06: generated passwords. *)
From Verif Require Import M_Base M_Prims M_Types M_Crypto S_Policy P_Policy.

(** C04. Derived bytes turn into a password that meets the policy for the number of bytes and the
    (non-empty) selection of character types. *)
Theorem C04_generated_password_policy : forall l cs,
  cs <> cs_empty -> exists pw, to_password l cs = Ok pw /\ meets_policy (length l) cs pw.
Proof. intros l cs H. apply to_password_ok. rewrite cs_len_zero. exact H. Qed.
Print Assumptions C04_generated_password_policy.

(** The same through scrypt, for the requested length. *)
Theorem C04_derive_password_policy : forall P pp salt len cs,
  prims_ok P -> (0 < len < 137438953472)%N -> cs <> cs_empty ->
  exists pw, derive_password P pp salt len cs = Ok pw /\ meets_policy (N.to_nat len) cs pw.
Proof. exact derive_password_policy. Qed.
Print Assumptions C04_derive_password_policy.

Example C04_example :
  let cs := mk_charset true false true true in
  to_password (bs "abcdefgh") cs = Ok (bs "*+,-./m2") /\ meets_policy 8 cs (bs "*+,-./m2").
Proof.
  split; [vm_compute; reflexivity|]. split; [reflexivity|].
  exists [Symbol; Symbol; Symbol; Symbol; Symbol; Symbol; Lower; Digit].
  split; [|split; [|split]].
  - repeat (constructor; [apply char_ofb_spec; reflexivity|]). constructor.
  - repeat constructor.
  - intros _ [] H; cbn in *; try discriminate; auto 10.
  - cbn. lia.
Qed.

(** C05. The generator reaches exactly the strings meeting the policy; look-alike and quote
    characters are never used. *)
Theorem C05_generator_range : forall n cs pw,
  cs <> cs_empty -> meets_policy n cs pw <-> exists l, length l = n /\ to_password l cs = Ok pw.
Proof. intros n cs pw H. apply to_password_surj. rewrite cs_len_zero. exact H. Qed.
Print Assumptions C05_generator_range.

Theorem C05_no_ambiguous_characters : forall n cs pw c,
  meets_policy n cs pw -> In c pw -> ~ In c (bs "IlioOL01""'\`").
Proof. exact no_ambiguous. Qed.
Print Assumptions C05_no_ambiguous_characters.

(** C06. Deriving a password panics exactly for length 0, the empty selection, and lengths beyond the
    scrypt limit. *)
Theorem C06_derive_password_panics : forall P pp salt len cs,
  prims_ok P ->
  derive_password P pp salt len cs = Panic <->
  (len = 0 \/ cs = cs_empty \/ 137438953471 < len)%N.
Proof. exact derive_password_panic. Qed.
Print Assumptions C06_derive_password_panics.
