(** C62: how likely each generated password is. *)
From Verif Require Import M_Base M_Prims M_Types M_Crypto S_Policy S_Count P_Base P_Policy P_Count.

(** The numbers of characters used below. *)
Theorem C62_characters : forall t, exists l, NoDup l /\ (forall c, In c l <-> char_of t c) /\ length l = amount t.
Proof. exact amount_ok. Qed.
Print Assumptions C62_characters.

(** If there are [k] characters to choose from at a position, between 256/[k] rounded down and rounded up of the 256 bytes choose
    the one wanted. So the number of byte sequences that lead to a password is between two products that hardly differ. *)
Theorem C62_count : forall n cs pw types, cs <> cs_empty -> meets_policy n cs pw -> Forall2 char_of types pw ->
  exists L, NoDup L /\ (forall l, In l L <-> length l = n /\ to_password l cs = Ok pw) /\
    product (map (fun k => 256 / k) (choices (selected_types cs) (selected_types cs) types)) <= length L <=
    product (map (fun k => (255 + k) / k) (choices (selected_types cs) (selected_types cs) types)).
Proof. intros n cs pw types H. apply count_sequences. rewrite cs_len_zero. exact H. Qed.
Print Assumptions C62_count.

(** With all types, as by default, no password of [n] characters is the result for more than 1440 * 4^(n-3) of the 256^n byte sequences. *)
Theorem C62_all_types : forall n pw L, 4 <= n -> meets_policy n (mk_charset true true true true) pw -> NoDup L ->
  (forall l, In l L -> length l = n /\ to_password l (mk_charset true true true true) = Ok pw) -> length L <= 4 ^ (n - 4) * (4 * 5 * 9 * 32).
Proof. exact at_most. Qed.
Print Assumptions C62_all_types.

(** Passwords of digits are equally likely. *)
Theorem C62_digits : forall n pw L, let cs := mk_charset false false true false in meets_policy n cs pw -> NoDup L ->
  (forall l, In l L <-> length l = n /\ to_password l cs = Ok pw) -> length L = 32 ^ n.
Proof. exact digits_equal. Qed.
Print Assumptions C62_digits.

Lemma ex_policy : meets_policy 4 (mk_charset true true true true) (bs "a2B!").
Proof.
  split; [reflexivity|]. exists [Lower; Digit; Upper; Symbol]. split; [|split; [|split]].
  - repeat (constructor; [apply char_ofb_spec; reflexivity|]). constructor.
  - repeat constructor.
  - intros _ [] _; cbn; auto.
  - intros H. cbn in H. lia.
Qed.
Example C62_example :
  meets_policy 4 (mk_charset true true true true) (bs "a2B!") /\
  choices all_types all_types [Lower; Digit; Upper; Symbol] = [82; 59; 51; 28] /\
  choices all_types all_types [Lower; Lower; Lower; Digit; Upper; Symbol] = [82; 82; 82; 59; 51; 28] /\
  to_password [x00; x17; x01; x00] (mk_charset true true true true) = Ok (bs "a2B!") /\
  to_password [x52; x52; x34; x1c] (mk_charset true true true true) = Ok (bs "a2B!") /\
  meets_policy 2 (mk_charset false false true false) (bs "72").
Proof.
  split; [exact ex_policy|]. split; [reflexivity|]. split; [reflexivity|]. split; [vm_compute; reflexivity|]. split; [vm_compute; reflexivity|].
  split; [reflexivity|]. exists [Digit; Digit]. split; [|split; [|split]].
  - repeat (constructor; [apply char_ofb_spec; reflexivity|]). constructor.
  - repeat constructor.
  - intros _ [] H; try discriminate H. cbn. auto.
  - cbn. lia.
Qed.

(** But in general some passwords are more likely than others. *)
Theorem C62_equally_likely_refuted :
  ~ (forall n cs pw pw' L L', cs <> cs_empty -> meets_policy n cs pw -> meets_policy n cs pw' -> NoDup L -> NoDup L' ->
       (forall l, In l L <-> length l = n /\ to_password l cs = Ok pw) -> (forall l, In l L' <-> length l = n /\ to_password l cs = Ok pw') ->
       length L = length L').
Proof.
  intros H. set (cs := mk_charset true false false false).
  set (results c := map (fun b => [b]) (filter (fun b => match to_password [b] cs with Ok p => bytes_eqb p [c] | _ => false end) all_bytes)).
  assert (forall c, NoDup (results c)) as Hn.
  { intros c. apply FinFun.Injective_map_NoDup; [intros x y [=]; assumption|]. apply NoDup_filter, all_bytes_NoDup. }
  assert (forall c l, In l (results c) <-> length l = 1 /\ to_password l cs = Ok [c]) as Hr.
  { intros c l. unfold results. rewrite in_map_iff. split.
    - intros (b & <- & Hb). split; [reflexivity|]. apply filter_In in Hb. destruct Hb as [_ Hb].
      destruct (to_password [b] cs) as [p|e|]; [|discriminate..]. apply bytes_eqb_eq in Hb. congruence.
    - intros [Hl Hp]. destruct l as [|b [|]]; try discriminate Hl. exists b. split; [reflexivity|]. apply filter_In. split; [apply in_all_bytes|].
      rewrite Hp. apply bytes_eqb_eq. reflexivity. }
  assert (forall c, char_of Lower c -> meets_policy 1 cs [c]) as Hp.
  { intros c Hc. split; [reflexivity|]. exists [Lower]. split; [constructor; [exact Hc|constructor]|]. split; [repeat constructor|].
    split; [intros _ [] E; try discriminate E; left; reflexivity|cbn; lia]. }
  specialize (H 1 cs (bs "a") (bs "z") (results "a"%byte) (results "z"%byte) ltac:(discriminate)
    (Hp "a"%byte ltac:(apply char_ofb_spec; reflexivity)) (Hp "z"%byte ltac:(apply char_ofb_spec; reflexivity)) (Hn _) (Hn _) (Hr _) (Hr _)).
  vm_compute in H. discriminate H.
Qed.
Print Assumptions C62_equally_likely_refuted.
