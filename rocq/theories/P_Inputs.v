(** What passwords and the encryption key are derived from. *)
From stdpp Require Import gmap.
From Verif Require Import M_Base M_Utf8 M_Prims M_Types M_Crypto M_Storage M_Passwords M_History M_Concrete S_Utf8 S_Policy S_Vault S_Api S_History S_Inputs
  P_Base P_Utf8 P_Policy P_Crypto P_Keys P_Concrete P_Sound P_Corollary P_Props.

(** * Different entries *)

Lemma split_nul (a b c d : bytes) : ~ In x00 a -> ~ In x00 c -> a ++ x00 :: b = c ++ x00 :: d -> a = c /\ b = d.
Proof.
  revert c; induction a as [|x a IH]; intros [|y c] Ha Hc E; cbn [app] in E.
  - injection E as ->. auto.
  - injection E as E0 _. exfalso. apply Hc. left. congruence.
  - injection E as E0 _. exfalso. apply Ha. left. congruence.
  - injection E as <- E. apply IH in E; [|intros H; apply Ha; right; exact H|intros H; apply Hc; right; exact H].
    destruct E as [-> ->]. auto.
Qed.

Lemma generation_input_inj (i j : pid) : free_of_nul i -> free_of_nul j -> generation_input i = generation_input j -> i = j.
Proof.
  destruct i as [[s n] r], j as [[s' n'] r']. intros [G1 G2] [H1 H2]. unfold generation_input.
  destruct r as [|c r], r' as [|c' r']; intros E; (apply split_nul in E; [|assumption|assumption]); destruct E as [-> E].
  - subst. reflexivity.
  - exfalso. apply G2. rewrite E. apply in_or_app. right. left. reflexivity.
  - exfalso. apply H2. rewrite <- E. apply in_or_app. right. left. reflexivity.
  - apply split_nul in E; [|assumption|assumption]. destruct E as [-> ->]. reflexivity.
Qed.

(** * The key and the passwords *)

Lemma latin1_app a b : latin1 (a ++ b) = latin1 a ++ latin1 b.
Proof. unfold latin1. rewrite map_app. apply concat_app. Qed.

Lemma latin1_nul_inv s x y : latin1 s = x ++ x00 :: y -> In x00 s.
Proof.
  revert x; induction s as [|b s IH]; intros x E.
  - destruct x; discriminate E.
  - change (latin1 (b :: s)) with (latin1_char_utf8 b ++ latin1 s) in E.
    destruct (Byte.eqb b x00) eqn:Eb; [apply Byte.byte_dec_bl in Eb; left; exact Eb|]. right.
    assert (forall b, Byte.eqb b x00 = false -> Forall (fun c => c <> x00) (latin1_char_utf8 b)) as HF.
    { clear. intros b Hb. apply List.Forall_forall. intros c Hc ->. 
      assert (forallb (fun b => Byte.eqb b x00 || forallb (fun c => negb (Byte.eqb c x00)) (latin1_char_utf8 b)) all_bytes = true) as A
        by (vm_compute; reflexivity).
      rewrite forallb_forall in A. specialize (A b (in_all_bytes b)). rewrite Hb in A. cbn [orb] in A.
      rewrite forallb_forall in A. specialize (A x00 Hc). discriminate A. }
    specialize (HF b Eb). revert x E HF. generalize (latin1_char_utf8 b) as p. intros p.
    induction p as [|c p IHp]; intros x E HF; [exact (IH x E)|].
    destruct x as [|d x]; cbn [app] in E.
    + injection E as E0 _. inversion HF; subst. congruence.
    + injection E as -> E. apply (IHp x); [exact E|]. inversion HF; assumption.
Qed.

(** The text of a salt is the input of some password exactly if the salt has a NUL byte. *)
Lemma latin1_utf8 s : utf8 (latin1 s) = true.
Proof.
  unfold latin1. induction s as [|b s IH]; [reflexivity|]. cbn [map concat]. rewrite utf8_app; [exact IH|].
  destruct b; vm_compute; reflexivity.
Qed.

Lemma key_input_iff salt :
  (exists i, pid_valid i /\ generation_input i = key_input salt) <-> In x00 salt.
Proof.
  unfold key_input. rewrite <- latin1_spec. split.
  - intros ([[s n] r] & _ & E). unfold generation_input in E. symmetry in E. destruct r; eapply latin1_nul_inv; exact E.
  - intros H. apply in_split in H. destruct H as (a & b & ->).
    exists (latin1 a, latin1 b, []). cbn. rewrite !latin1_utf8. split; [auto|]. rewrite latin1_app. reflexivity.
Qed.

Lemma derive_from_key P pp salt key i cs len : extendable P ->
  get_encryption_key P pp salt = Ok key -> generation_input i = key_input salt -> (0 < len <= 32)%N ->
  derive_password P pp (generation_input i) len cs = to_password (firstn (N.to_nat len) key) cs.
Proof.
  intros HL HK HS Hlen. rewrite encryption_key_salt in HK. injection HK as <-. unfold derive_password, derive_bits.
  destruct (N.eqb_spec len 0) as [E|_]; [lia|]. assert (len / 32 <= 1)%N as H1.
  { transitivity (32 / 32)%N; [apply N.div_le_mono; lia|reflexivity]. }
  destruct (N.ltb_spec 4294967295 (len / 32)) as [E|_]; [lia|]. cbn [orb bind].
  rewrite (HL pp (generation_input i) (N.to_nat len) 32) by lia. rewrite HS. reflexivity.
Qed.

Lemma password_from_key P s x n r len cs pp salt key : prims_ok P -> extendable P -> reachable P s ->
  op_valid (SetGenerated x n r len cs) -> performed (fst (exec P (SetGenerated x n r len cs) s)) -> s_primary s = Some pp ->
  get_encryption_key P pp salt = Ok key -> generation_input (resolved P s x, n, rev_of r) = key_input salt -> (0 < len <= 32)%N ->
  fst (exec P (Get x n r) (snd (exec P (SetGenerated x n r len cs) s))) = text_out (to_password (firstn (N.to_nat len) key) cs).
Proof.
  intros HP HL HR Hv Hp Hpp HK HS Hlen. destruct (generated_after P HP s HR x n r len cs pp Hv Hp Hpp) as (-> & _).
  rewrite (derive_from_key P pp salt key _ cs len HL HK HS Hlen). reflexivity.
Qed.

(** * Passwords of different lengths *)

Lemma loop_prefix cs k : cs_len cs <> 0 -> forall l1 l2 seen n1 n2 i p1 p2,
  subset seen cs -> length l1 = n1 - i -> i <= n1 -> n1 <= n2 -> k + cs_len cs + i <= n1 ->
  firstn k l1 = firstn k l2 ->
  to_password_loop cs seen n1 i l1 = Ok p1 -> to_password_loop cs seen n2 i l2 = Ok p2 ->
  firstn k p1 = firstn k p2.
Proof.
  intros Hne. induction k as [|k IH]; intros l1 l2 seen n1 n2 i p1 p2 Hs Hl Hi Hn Hk El E1 E2; [reflexivity|].
  destruct l1 as [|b l1]; [cbn in Hl; lia|]. destruct l2 as [|b2 l2]; [discriminate El|].
  cbn [firstn] in El. injection El as <- El. cbn [to_password_loop] in E1, E2.
  destruct (Nat.leb_spec (n1 - i) (cs_len cs - cs_len seen)) as [H|_]; [lia|].
  destruct (Nat.leb_spec (n2 - i) (cs_len cs - cs_len seen)) as [H|_]; [lia|].
  destruct (Nat.eqb_spec (num_chars cs) 0) as [H|Hz]; [rewrite num_chars_zero in H; contradiction|].
  rewrite pick_char_pool in E1, E2.
  destruct (nth_error (pool cs CHARS_MAPPING) (b_nat b mod num_chars cs)) as [[c t]|] eqn:Ep.
  - apply nth_error_In, in_pool in Ep. destruct Ep as [Ht _].
    destruct (to_password_loop cs (cs_insert seen t) n1 (S i) l1) as [q1| |] eqn:F1; try discriminate E1.
    destruct (to_password_loop cs (cs_insert seen t) n2 (S i) l2) as [q2| |] eqn:F2; try discriminate E2.
    cbn [bind] in E1, E2. injection E1 as <-. injection E2 as <-. cbn [firstn]. f_equal.
    cbn [length] in Hl. apply (IH l1 l2 (cs_insert seen t) n1 n2 (S i)); try assumption; try lia.
    apply subset_insert; assumption.
  - exfalso. apply nth_error_None in Ep. rewrite <- num_chars_pool in Ep.
    pose proof (Nat.mod_upper_bound (b_nat b) (num_chars cs) Hz). lia.
Qed.

Lemma longer_derived P pp salt len1 len2 cs p1 p2 : extendable P -> prims_ok P -> cs <> cs_empty -> (len1 <= len2)%N ->
  derive_password P pp salt len1 cs = Ok p1 -> derive_password P pp salt len2 cs = Ok p2 ->
  let same := N.to_nat len1 - selected_count cs in firstn same p1 = firstn same p2.
Proof.
  intros HL HP Hcs Hlen E1 E2. rewrite selected_count_len. intros same. assert (cs_len cs <> 0) as Hne by (rewrite cs_len_zero; exact Hcs).
  unfold derive_password, derive_bits in E1, E2.
  destruct ((len1 =? 0)%N || (4294967295 <? len1 / 32)%N); [discriminate E1|].
  destruct ((len2 =? 0)%N || (4294967295 <? len2 / 32)%N); [discriminate E2|].
  cbn [bind] in E1, E2. unfold to_password in E1, E2. rewrite (ok_scrypt_len P HP) in E1; rewrite (ok_scrypt_len P HP) in E2.
  destruct (Nat.le_gt_cases (N.to_nat len1) (cs_len cs)) as [H|H].
  - assert (same = 0) as -> by (unfold same; lia). reflexivity.
  - apply (loop_prefix cs same Hne (p_scrypt P pp salt (N.to_nat len1)) (p_scrypt P pp salt (N.to_nat len2)) cs_empty (N.to_nat len1) (N.to_nat len2) 0 p1 p2); try assumption; try (unfold same; lia).
    + apply subset_empty.
    + rewrite (ok_scrypt_len P HP). lia.
    + rewrite (HL pp salt (N.to_nat len1) (N.to_nat len2)) by lia. rewrite firstn_firstn. f_equal. unfold same. lia.
Qed.

Lemma longer_password P s1 s2 x1 x2 n r1 r2 len1 len2 cs pp p1 p2 : prims_ok P -> extendable P ->
  reachable P s1 -> reachable P s2 -> s_primary s1 = Some pp -> s_primary s2 = Some pp ->
  resolved P s1 x1 = resolved P s2 x2 -> rev_of r1 = rev_of r2 ->
  op_valid (SetGenerated x1 n r1 len1 cs) -> performed (fst (exec P (SetGenerated x1 n r1 len1 cs) s1)) ->
  op_valid (SetGenerated x2 n r2 len2 cs) -> performed (fst (exec P (SetGenerated x2 n r2 len2 cs) s2)) ->
  fst (exec P (Get x1 n r1) (snd (exec P (SetGenerated x1 n r1 len1 cs) s1))) = OText p1 ->
  fst (exec P (Get x2 n r2) (snd (exec P (SetGenerated x2 n r2 len2 cs) s2))) = OText p2 ->
  (len1 <= len2)%N ->
  let same := N.to_nat len1 - selected_count cs in firstn same p1 = firstn same p2.
Proof.
  intros HP HL R1 R2 Hp1 Hp2 Ex Er V1 F1 V2 F2 G1 G2 Hlen.
  destruct (generated_after P HP s1 R1 x1 n r1 len1 cs pp V1 F1 Hp1) as (E1 & _). rewrite E1 in G1.
  destruct (generated_after P HP s2 R2 x2 n r2 len2 cs pp V2 F2 Hp2) as (E2 & _). rewrite E2 in G2.
  rewrite Ex, Er in G1.
  destruct (derive_password P pp (generation_input (resolved P s2 x2, n, rev_of r2)) len1 cs) as [q1| |] eqn:D1; try discriminate G1.
  destruct (derive_password P pp (generation_input (resolved P s2 x2, n, rev_of r2)) len2 cs) as [q2| |] eqn:D2; try discriminate G2.
  cbn in G1, G2. injection G1 as <-. injection G2 as <-.
  assert (cs <> cs_empty) as Hcs.
  { intros ->. assert (Panic = Ok q1 :> res bytes) as X; [|discriminate X]. rewrite <- D1. symmetry. apply (derive_password_panic P _ _ _ _ HP). auto. }
  exact (longer_derived P pp _ len1 len2 cs q1 q2 HL HP Hcs Hlen D1 D2).
Qed.

(** * scrypt as it is *)

Lemma firstn_app_le {A} n (a b : list A) : n <= length a -> firstn n (a ++ b) = firstn n a.
Proof. intros H. rewrite firstn_app. replace (n - length a) with 0 by lia. cbn [firstn]. apply app_nil_r. Qed.

Lemma pbkdf2_prefix p s m n : m <= n -> pbkdf2 p s m = firstn m (pbkdf2 p s n).
Proof.
  intros H. unfold pbkdf2. rewrite firstn_firstn, Nat.min_l by exact H.
  assert (m / 32 <= n / 32) as Hd by (apply Nat.div_le_mono; lia).
  replace (S (n / 32)) with (S (m / 32) + (n / 32 - m / 32)) by lia. rewrite seq_app, map_app, concat_app.
  symmetry. apply firstn_app_le. rewrite (concat_map_length _ 32) by (intros; apply hmac_sha256_length). rewrite seq_length.
  pose proof (Nat.div_mod m 32 ltac:(lia)). pose proof (Nat.mod_upper_bound m 32 ltac:(lia)). lia.
Qed.

Lemma real_prefix e : extendable (real e).
Proof. intros p s m n H. exact (pbkdf2_prefix _ _ m n H). Qed.
