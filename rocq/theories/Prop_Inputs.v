(** C66: what passwords and the encryption key are derived from. *)
From stdpp Require Import gmap.
From Verif Require Import M_Base M_Utf8 M_Prims M_Types M_Crypto M_Storage M_Passwords M_Concrete S_Utf8 S_Policy S_Vault M_History S_Api S_History
  S_Inputs P_Sound P_Inputs T_Toy T_History.

(** Different entries are derived from different texts, without NUL characters. *)
Theorem C66_different_entries : forall i j, free_of_nul i -> free_of_nul j -> generation_input i = generation_input j -> i = j.
Proof. exact generation_input_inj. Qed.
Print Assumptions C66_different_entries.

Theorem C66_any_characters_refuted : ~ (forall i j, pid_valid i -> pid_valid j -> generation_input i = generation_input j -> i = j).
Proof.
  intros H. specialize (H (bs "a", bs "n" ++ x00 :: bs "2", []) (bs "a", bs "n", bs "2") ltac:(repeat split) ltac:(repeat split) eq_refl).
  discriminate H.
Qed.
Print Assumptions C66_any_characters_refuted.

(** The encryption key is derived from the same text as some password exactly if the salt has a NUL byte. *)
Theorem C66_key_input : forall salt,
  (exists i, pid_valid i /\ generation_input i = key_input salt) <-> In x00 salt.
Proof. exact key_input_iff. Qed.
Print Assumptions C66_key_input.

(** scrypt gives the beginning of the same bytes when asked for less, hence such a password tells about the key. *)
Theorem C66_scrypt : forall e, extendable (real e).
Proof. exact real_prefix. Qed.
Print Assumptions C66_scrypt.

Theorem C66_password_from_key : forall P s x n r len cs pp salt key, prims_ok P -> extendable P -> reachable P s ->
  op_valid (SetGenerated x n r len cs) -> performed (fst (exec P (SetGenerated x n r len cs) s)) -> s_primary s = Some pp ->
  get_encryption_key P pp salt = Ok key -> generation_input (resolved P s x, n, rev_of r) = key_input salt -> (0 < len <= 32)%N ->
  fst (exec P (Get x n r) (snd (exec P (SetGenerated x n r len cs) s))) = text_out (to_password (firstn (N.to_nat len) key) cs).
Proof. exact password_from_key. Qed.
Print Assumptions C66_password_from_key.

(** Generating an entry again with another length, in whatever storage, changes the last characters only. *)
Theorem C66_longer_password : forall P s1 s2 x1 x2 n r1 r2 len1 len2 cs pp p1 p2, prims_ok P -> extendable P ->
  reachable P s1 -> reachable P s2 -> s_primary s1 = Some pp -> s_primary s2 = Some pp ->
  resolved P s1 x1 = resolved P s2 x2 -> rev_of r1 = rev_of r2 ->
  op_valid (SetGenerated x1 n r1 len1 cs) -> performed (fst (exec P (SetGenerated x1 n r1 len1 cs) s1)) ->
  op_valid (SetGenerated x2 n r2 len2 cs) -> performed (fst (exec P (SetGenerated x2 n r2 len2 cs) s2)) ->
  fst (exec P (Get x1 n r1) (snd (exec P (SetGenerated x1 n r1 len1 cs) s1))) = OText p1 ->
  fst (exec P (Get x2 n r2) (snd (exec P (SetGenerated x2 n r2 len2 cs) s2))) = OText p2 ->
  (len1 <= len2)%N ->
  let same := N.to_nat len1 - selected_count cs in firstn same p1 = firstn same p2.
Proof. exact longer_password. Qed.
Print Assumptions C66_longer_password.

(** In the toy storage, the entry of the empty site named like the rest of the salt is the key as a password.  Two entries have the same
    password, one with a NUL character in its name.  An entry generated with two lengths. *)
Definition twins : list op :=
  [Reset (bs "secret"); SetGenerated [] (bs "abcdefghijklmno") [] 16 all_chars;
   SetGenerated (bs "a") (bs "n" ++ x00 :: bs "2") [] 16 all_chars; SetGenerated (bs "a") (bs "n") (bs "2") 16 all_chars;
   SetGenerated (bs "b") (bs "n") [] 10 all_chars].

Lemma toy_extendable : extendable toy_release.
Proof.
  intros p s m n H. cbn [p_scrypt toy_release toy]. unfold fit. generalize (p ++ s). clear p s. intros l.
  rewrite firstn_app, firstn_firstn, Nat.min_l by exact H.
  f_equal. rewrite firstn_length. destruct (Nat.le_gt_cases m (length l)) as [L|L].
  - replace (m - length l) with 0 by lia. replace (m - n `min` length l) with 0 by lia. reflexivity.
  - rewrite Nat.min_r by lia. replace (n - length l) with ((m - length l) + (n - m)) by lia. rewrite repeat_app, firstn_app, repeat_length.
    replace (m - length l - (m - length l)) with 0 by lia. cbn [firstn]. rewrite app_nil_r. symmetry. apply firstn_all2. rewrite repeat_length. lia.
Qed.

Definition got (o : op) (l : list op) : out := fst (exec toy_release o (snd (run toy_release l start))).

Example C66_example :
  prims_ok toy_release /\ extendable toy_release /\
  (exists salt key, get_encryption_key toy_release (bs "secret") salt = Ok key /\
     generation_input ([], bs "abcdefghijklmno", []) = key_input salt /\
     got (Get [] (bs "abcdefghijklmno") []) twins = text_out (to_password (firstn 16 key) all_chars) /\
     s_key (snd (run toy_release twins start)) = Some key) /\
  got (Get (bs "a") (bs "n") (bs "2")) twins = got (Get (bs "a") (bs "n" ++ x00 :: bs "2") []) twins /\
  (exists p q, got (Get (bs "b") (bs "n") []) twins = OText p /\
     got (Get (bs "b") (bs "n") []) (twins ++ [Remove (bs "b") (bs "n") []; SetGenerated (bs "b") (bs "n") [] 20 all_chars]) = OText q /\
     length p = 10 /\ length q = 20 /\ firstn 6 p = firstn 6 q).
Proof.
  split; [apply toy_ok|]. split; [exact toy_extendable|]. split; [|split].
  - exists (p_random toy_release 0 16). eexists. vm_compute. repeat split.
  - vm_compute. reflexivity.
  - eexists _, _. vm_compute. repeat split.
Qed.
