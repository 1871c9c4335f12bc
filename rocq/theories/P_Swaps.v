(** Exchanged neighbouring characters in recovery codes: proofs. *)
From Verif Require Import M_Base M_Codec M_Prims M_Recovery P_Base S_Codec P_Codec S_Recovery P_Format P_Lines P_Validate.
From Coq Require Import ZArith ZifyBool ZifyNat ZifyN.
Ltac Zify.zify_post_hook ::= Z.div_mod_to_equations.

(** * Low bits *)

Lemma to_N_perm a : Byte.to_N (pearson_perm a) = ((Byte.to_N a * 467 + 176993) mod 256)%N.
Proof. unfold pearson_perm. rewrite to_N_u8. f_equal. lia. Qed.

Lemma perm_low_iff k a b : (k <= 8)%N -> low k (pearson_perm a) = low k (pearson_perm b) <-> low k a = low k b.
Proof.
  intros Hk. unfold low. rewrite !to_N_perm. generalize (Byte.to_N a) (Byte.to_N b). intros x y.
  assert (k = 0 \/ k = 1 \/ k = 2 \/ k = 3 \/ k = 4 \/ k = 5 \/ k = 6 \/ k = 7 \/ k = 8)%N as H by lia.
  destruct H as [->|[->|[->|[->|[->|[->|[->|[->| ->]]]]]]]]; cbn [N.pow Pos.pow Pos.iter Pos.mul]; split; intros H; lia.
Qed.

Lemma lxor_cancel_l h a b : N.lxor h a = N.lxor h b -> a = b.
Proof.
  intros H. apply (f_equal (N.lxor h)) in H. rewrite <- !N.lxor_assoc, N.lxor_nilpotent, !N.lxor_0_l in H. exact H.
Qed.

(** Two bytes that leave the same checksum as two others differ first, from the lowest bit on, at the same bit. *)
Lemma pair_low x y x' y' h k : (k <= 8)%N -> fold_left pearson_step [x; y] h = fold_left pearson_step [x'; y'] h ->
  (low k x = low k x' <-> low k y = low k y').
Proof.
  intros Hk H. cbn [fold_left] in H. unfold pearson_step at 1 3 in H. apply pearson_perm_inj in H.
  apply (f_equal (low k)) in H. rewrite !low_xor in H by exact Hk. unfold pearson_step in H.
  assert (low k (pearson_perm (b_xor h x)) = low k (pearson_perm (b_xor h x')) <-> low k x = low k x') as E.
  { rewrite perm_low_iff by exact Hk. rewrite !low_xor by exact Hk. split; [apply lxor_cancel_l|congruence]. }
  rewrite <- E. split; intros G.
  - rewrite G in H. apply lxor_cancel_l in H. exact H.
  - rewrite G in H. rewrite !(N.lxor_comm _ (low k y')) in H. apply lxor_cancel_l in H. exact H.
Qed.

(** * Decoded bytes as numbers *)

Notation val := Byte.to_N.

Lemma val0 s0 s1 : b_nat s0 < 32 -> b_nat s1 < 32 -> val (b_or (b_shl s0 3) (b_shr s1 2)) = (val s0 * 8 + val s1 / 4)%N.
Proof.
  intros H0 H1. apply N.eqb_eq.
  exact (sweep_below2 32 (fun s0 s1 => (val (b_or (b_shl s0 3) (b_shr s1 2)) =? val s0 * 8 + val s1 / 4)%N) ltac:(vm_compute; reflexivity) s0 s1 H0 H1).
Qed.
Lemma val1 s1 s2 s3 : b_nat s1 < 32 -> b_nat s2 < 32 -> b_nat s3 < 32 ->
  val (b_or (b_or (b_shl (b_and s1 x03) 6) (b_shl s2 1)) (b_shr s3 4)) = (val s1 mod 4 * 64 + val s2 * 2 + val s3 / 16)%N.
Proof.
  intros H0 H1 H2. apply N.eqb_eq.
  exact (sweep_below3 32 (fun s1 s2 s3 => (val (b_or (b_or (b_shl (b_and s1 x03) 6) (b_shl s2 1)) (b_shr s3 4)) =?
    val s1 mod 4 * 64 + val s2 * 2 + val s3 / 16)%N) ltac:(vm_compute; reflexivity) s1 s2 s3 H0 H1 H2).
Qed.
Lemma val2 s3 s4 : b_nat s3 < 32 -> b_nat s4 < 32 -> val (b_or (b_shl (b_and s3 x0f) 4) (b_shr s4 1)) = (val s3 mod 16 * 16 + val s4 / 2)%N.
Proof.
  intros H0 H1. apply N.eqb_eq.
  exact (sweep_below2 32 (fun s3 s4 => (val (b_or (b_shl (b_and s3 x0f) 4) (b_shr s4 1)) =? val s3 mod 16 * 16 + val s4 / 2)%N)
    ltac:(vm_compute; reflexivity) s3 s4 H0 H1).
Qed.
Lemma val3 s4 s5 s6 : b_nat s4 < 32 -> b_nat s5 < 32 -> b_nat s6 < 32 ->
  val (b_or (b_or (b_shl (b_and s4 x01) 7) (b_shl s5 2)) (b_shr s6 3)) = (val s4 mod 2 * 128 + val s5 * 4 + val s6 / 8)%N.
Proof.
  intros H0 H1 H2. apply N.eqb_eq.
  exact (sweep_below3 32 (fun s4 s5 s6 => (val (b_or (b_or (b_shl (b_and s4 x01) 7) (b_shl s5 2)) (b_shr s6 3)) =?
    val s4 mod 2 * 128 + val s5 * 4 + val s6 / 8)%N) ltac:(vm_compute; reflexivity) s4 s5 s6 H0 H1 H2).
Qed.
Lemma val4 s6 s7 : b_nat s6 < 32 -> b_nat s7 < 32 -> val (b_or (b_shl (b_and s6 x07) 5) s7) = (val s6 mod 8 * 32 + val s7)%N.
Proof.
  intros H0 H1. apply N.eqb_eq.
  exact (sweep_below2 32 (fun s6 s7 => (val (b_or (b_shl (b_and s6 x07) 5) s7) =? val s6 mod 8 * 32 + val s7)%N)
    ltac:(vm_compute; reflexivity) s6 s7 H0 H1).
Qed.

(** * Within a group of eight characters *)

Lemma low_eq k n x y : (2 ^ k = n)%N -> low k x = low k y <-> (val x mod n = val y mod n)%N.
Proof. intros <-. reflexivity. Qed.

Lemma mod_head m n k q : (k <> 0)%N -> ((m * (k * n) + q) mod k = q mod k)%N.
Proof. intros H. replace (m * (k * n) + q)%N with (q + m * n * k)%N by lia. apply N.mod_add, H. Qed.

Ltac sweep_pair f a b := (* [f a b] is [true] for all symbols *)
  exact (sweep_below2 32 f ltac:(vm_compute; reflexivity) a b ltac:(assumption) ltac:(assumption)).

Lemma ar0 a b : b_nat a < 32 -> b_nat b < 32 -> ((val a * 8 + val b / 4) mod 64 = (val b * 8 + val a / 4) mod 64)%N -> a = b.
Proof.
  intros Ha Hb H. apply to_N_inj. apply N.eqb_eq. apply N.eqb_eq in H.
  assert (implb ((val a * 8 + val b / 4) mod 64 =? (val b * 8 + val a / 4) mod 64)%N (val a =? val b)%N = true) as E
    by sweep_pair (fun a b => implb ((val a * 8 + val b / 4) mod 64 =? (val b * 8 + val a / 4) mod 64)%N (val a =? val b)%N) a b.
  rewrite H in E. exact E.
Qed.
Lemma ar2 a b : b_nat a < 32 -> b_nat b < 32 -> ((val a * 2 + val b / 16) mod 16 = (val b * 2 + val a / 16) mod 16)%N -> (val a mod 2 = val b mod 2)%N.
Proof.
  intros Ha Hb H. apply N.eqb_eq. apply N.eqb_eq in H.
  assert (implb ((val a * 2 + val b / 16) mod 16 =? (val b * 2 + val a / 16) mod 16)%N (val a mod 2 =? val b mod 2)%N = true) as E
    by sweep_pair (fun a b => implb ((val a * 2 + val b / 16) mod 16 =? (val b * 2 + val a / 16) mod 16)%N (val a mod 2 =? val b mod 2)%N) a b.
  rewrite H in E. exact E.
Qed.
Lemma ar2' a b : b_nat a < 32 -> b_nat b < 32 -> ((val a * 2 + val b / 16) mod 32 = (val b * 2 + val a / 16) mod 32)%N -> a = b.
Proof.
  intros Ha Hb H. apply to_N_inj. apply N.eqb_eq. apply N.eqb_eq in H.
  assert (implb ((val a * 2 + val b / 16) mod 32 =? (val b * 2 + val a / 16) mod 32)%N (val a =? val b)%N = true) as E
    by sweep_pair (fun a b => implb ((val a * 2 + val b / 16) mod 32 =? (val b * 2 + val a / 16) mod 32)%N (val a =? val b)%N) a b.
  rewrite H in E. exact E.
Qed.
Lemma ar5 a b : b_nat a < 32 -> b_nat b < 32 -> ((val a * 4 + val b / 8) mod 32 = (val b * 4 + val a / 8) mod 32)%N -> a = b.
Proof.
  intros Ha Hb H. apply to_N_inj. apply N.eqb_eq. apply N.eqb_eq in H.
  assert (implb ((val a * 4 + val b / 8) mod 32 =? (val b * 4 + val a / 8) mod 32)%N (val a =? val b)%N = true) as E
    by sweep_pair (fun a b => implb ((val a * 4 + val b / 8) mod 32 =? (val b * 4 + val a / 8) mod 32)%N (val a =? val b)%N) a b.
  rewrite H in E. exact E.
Qed.
Lemma ar7 a b : b_nat a < 32 -> b_nat b < 32 -> (val a mod 8 = val b mod 8)%N -> (val a * 8 mod 64 = val b * 8 mod 64)%N.
Proof.
  intros Ha Hb H. apply N.eqb_eq. apply N.eqb_eq in H.
  assert (implb (val a mod 8 =? val b mod 8)%N (val a * 8 mod 64 =? val b * 8 mod 64)%N = true) as E
    by sweep_pair (fun a b => implb (val a mod 8 =? val b mod 8)%N (val a * 8 mod 64 =? val b * 8 mod 64)%N) a b.
  rewrite H in E. exact E.
Qed.
Lemma ar7' m a b : b_nat a < 32 -> b_nat b < 32 -> (m < 8)%N -> ((m * 32 + val a) mod 64 = (m * 32 + val b) mod 64)%N -> a = b.
Proof.
  unfold b_nat. intros Ha Hb Hm H. apply to_N_inj.
  assert (m = 2 * (m / 2) + m mod 2)%N as E by (apply N.div_mod; lia). assert (m mod 2 < 2)%N as E2 by (apply N.mod_lt; lia).
  rewrite E in H. clear E. generalize dependent (m mod 2)%N. generalize (m / 2)%N. intros p r H Hr.
  replace ((2 * p + r) * 32 + val a)%N with (p * (64 * 1) + (r * 32 + val a))%N in H by lia.
  replace ((2 * p + r) * 32 + val b)%N with (p * (64 * 1) + (r * 32 + val b))%N in H by lia.
  rewrite !mod_head in H by lia. rewrite !N.mod_small in H by lia. lia.
Qed.

Lemma swap_sep pre a a' post d d' h :
  length (pre ++ a :: a' :: post) = 8 -> In (length pre) [0; 2; 5] -> a <> a' ->
  Forall (fun i => b_nat i < 32) (pre ++ a :: a' :: post) ->
  base32_decode_chunk (pre ++ a :: a' :: post) = Ok d -> base32_decode_chunk (pre ++ a' :: a :: post) = Ok d' ->
  fold_left pearson_step d h <> fold_left pearson_step d' h.
Proof.
  intros Hl Hp Hne Hf Hd Hd'.
  destruct Hp as [Hp|[Hp|[Hp|[]]]].
  - destruct pre as [|? ?]; [|discriminate Hp]. cbn [app] in *.
    destruct post as [|q0 [|q1 [|q2 [|q3 [|q4 [|q5 [|q6 post]]]]]]]; try discriminate Hl.
    repeat match goal with H : Forall _ (_ :: _) |- _ => inversion H; subst; clear H end.
    cbn [base32_decode_chunk] in Hd, Hd'. injection Hd as <-. injection Hd' as <-.
    eapply (fold_sep_ctx [] [_; _] [_; _] [_; _; _]). intros h' E. apply Hne.
    apply ar0; [assumption..|]. rewrite <- !val0 by assumption. apply (low_eq 6 64); [reflexivity|].
    apply (pair_low _ _ _ _ _ 6 ltac:(lia) E). apply (low_eq 6 64); [reflexivity|]. rewrite !val1 by assumption.
    rewrite <- !N.add_assoc, !(mod_head _ 1 64) by lia. reflexivity.
  - destruct pre as [|s0 [|s1 [|? ?]]]; try discriminate Hp. cbn [app] in *.
    destruct post as [|q0 [|q1 [|q2 [|q3 [|q4 post]]]]]; try discriminate Hl.
    repeat match goal with H : Forall _ (_ :: _) |- _ => inversion H; subst; clear H end.
    cbn [base32_decode_chunk] in Hd, Hd'. injection Hd as <-. injection Hd' as <-.
    eapply (fold_sep_ctx [_] [_; _] [_; _] [_; _]). intros h' E. apply Hne.
    assert (val a mod 2 = val a' mod 2)%N as E2.
    { apply ar2; [assumption..|].
      rewrite <- (mod_head (val s1 mod 4) 4 16 (val a * 2 + val a' / 16)), <- (mod_head (val s1 mod 4) 4 16 (val a' * 2 + val a / 16)) by lia.
      rewrite !N.add_assoc. change (16 * 4)%N with 64%N. rewrite <- !val1 by assumption. apply (low_eq 4 16); [reflexivity|].
      apply (pair_low _ _ _ _ _ 4 ltac:(lia) E). apply (low_eq 4 16); [reflexivity|]. rewrite !val2 by assumption.
      rewrite !(mod_head _ 1 16) by lia. reflexivity. }
    apply ar2'; [assumption..|].
    rewrite <- (mod_head (val s1 mod 4) 2 32 (val a * 2 + val a' / 16)), <- (mod_head (val s1 mod 4) 2 32 (val a' * 2 + val a / 16)) by lia.
    rewrite !N.add_assoc. change (32 * 2)%N with 64%N. rewrite <- !val1 by assumption. apply (low_eq 5 32); [reflexivity|].
    apply (pair_low _ _ _ _ _ 5 ltac:(lia) E). apply (low_eq 5 32); [reflexivity|]. rewrite !val2 by assumption.
    assert (forall v q, (v mod 16 * 16 + q) mod 32 = (v mod 2 * 16 + q) mod 32)%N as E3.
    { clear. intros v q. change (v mod 16)%N with (v mod (2 * 8))%N. rewrite N.mod_mul_r by lia.
      replace ((v mod 2 + 2 * ((v / 2) mod 8)) * 16 + q)%N with (v mod 2 * 16 + q + (v / 2) mod 8 * 32)%N by lia.
      apply N.mod_add. lia. }
    rewrite !E3, E2. reflexivity.
  - destruct pre as [|s0 [|s1 [|s2 [|s3 [|s4 [|? ?]]]]]]; try discriminate Hp. cbn [app] in *.
    destruct post as [|q0 [|q1 post]]; try discriminate Hl.
    repeat match goal with H : Forall _ (_ :: _) |- _ => inversion H; subst; clear H end.
    cbn [base32_decode_chunk] in Hd, Hd'. injection Hd as <-. injection Hd' as <-.
    eapply (fold_sep_ctx [_; _; _] [_; _] [_; _] []). intros h' E. apply Hne.
    apply ar5; [assumption..|].
    rewrite <- (mod_head (val s4 mod 2) 4 32 (val a * 4 + val a' / 8)), <- (mod_head (val s4 mod 2) 4 32 (val a' * 4 + val a / 8)) by lia.
    rewrite !N.add_assoc. change (32 * 4)%N with 128%N. rewrite <- !val3 by assumption. apply (low_eq 5 32); [reflexivity|].
    apply (pair_low _ _ _ _ _ 5 ltac:(lia) E). apply (low_eq 5 32); [reflexivity|]. rewrite !val4 by assumption.
    rewrite !(mod_head _ 1 32) by lia. reflexivity.
Qed.

(** The last character of a group and the first one of the next. *)
Lemma swap_across pre a a' post d1 d2 d1' d2' h :
  length (pre ++ [a]) = 8 -> length (a' :: post) = 8 -> a <> a' ->
  Forall (fun i => b_nat i < 32) (pre ++ [a]) -> Forall (fun i => b_nat i < 32) (a' :: post) ->
  base32_decode_chunk (pre ++ [a]) = Ok d1 -> base32_decode_chunk (a' :: post) = Ok d2 ->
  base32_decode_chunk (pre ++ [a']) = Ok d1' -> base32_decode_chunk (a :: post) = Ok d2' ->
  fold_left pearson_step (d1 ++ d2) h <> fold_left pearson_step (d1' ++ d2') h.
Proof.
  intros Hl Hl2 Hne Hf Hf2 H1 H2 H3 H4.
  destruct pre as [|s0 [|s1 [|s2 [|s3 [|s4 [|s5 [|s6 [|? ?]]]]]]]]; try discriminate Hl; [|cbn in Hl; rewrite app_length in Hl; cbn in Hl; lia].
  destruct post as [|q0 [|q1 [|q2 [|q3 [|q4 [|q5 [|q6 [|q7 post]]]]]]]]; try discriminate Hl2.
  cbn [app] in *.
  repeat match goal with H : Forall _ (_ :: _) |- _ => inversion H; subst; clear H end.
  cbn [base32_decode_chunk] in H1, H2, H3, H4. injection H1 as <-. injection H2 as <-. injection H3 as <-. injection H4 as <-.
  cbn [app]. eapply (fold_sep_ctx [_; _; _; _] [_; _] [_; _] [_; _; _; _]). intros h' E. apply Hne.
  assert (val a mod 8 = val a' mod 8)%N as E2.
  { rewrite <- (mod_head (val s6 mod 8) 4 8 (val a)), <- (mod_head (val s6 mod 8) 4 8 (val a')) by lia.
    change (8 * 4)%N with 32%N. rewrite <- !val4 by assumption. apply (low_eq 3 8); [reflexivity|].
    apply (pair_low _ _ _ _ _ 3 ltac:(lia) E). apply (low_eq 3 8); [reflexivity|]. rewrite !val0 by assumption.
    rewrite !(mod_head _ 1 8) by lia. reflexivity. }
  apply (ar7' (val s6 mod 8)); [assumption..|apply N.mod_lt; lia|]. rewrite <- !val4 by assumption. apply (low_eq 6 64); [reflexivity|].
  apply (pair_low _ _ _ _ _ 6 ltac:(lia) E). apply (low_eq 6 64); [reflexivity|]. rewrite !val0 by assumption.
  rewrite !(N.add_mod (_ * 8)) by lia. rewrite (ar7 a a') by assumption. reflexivity.
Qed.

(** * Lines and codes *)

Lemma map_lookup_F t : Forall inA t -> Forall (fun i => b_nat i < 32) (map base32_lookup t).
Proof.
  intros Ha. apply Forall_map. eapply Forall_impl; [|exact Ha]. cbn beta. intros c Hc.
  apply base32_invalid_spec, alphabet_lookup in Hc. unfold b_nat. lia.
Qed.

(** The text around a piece of [k] groups of a line decides nothing about a collision. *)
Lemma piece_sep a g g' b l l' v :
  length a mod 8 = 0 -> length g mod 8 = 0 -> length g' = length g ->
  base32_text l (a ++ g ++ b) -> base32_text l' (a ++ g' ++ b) -> line_valid v l -> line_valid v l' ->
  (forall d d', base32_text d g -> base32_text d' g' -> forall h, fold_left pearson_step d h <> fold_left pearson_step d' h) ->
  False.
Proof.
  intros M1 M2 M2' T T' V V' S.
  destruct (base32_text_split _ _ _ T M1) as (d1 & r & -> & T1 & Tr).
  destruct (base32_text_split _ _ _ Tr M2) as (e & d3 & -> & Tg & T3).
  destruct (base32_text_split _ _ _ T' M1) as (d1' & r' & -> & T1' & Tr').
  destruct (base32_text_split _ _ _ Tr' ltac:(rewrite M2'; exact M2)) as (e' & d3' & -> & Tg' & T3').
  assert (d1' = d1) as -> by (eapply base32_text_fun_data; eassumption).
  assert (d3' = d3) as -> by (eapply base32_text_fun_data; eassumption).
  pose proof (line_valid_length _ _ V) as L. pose proof (line_valid_length _ _ V') as L'.
  apply line_valid_fold in V; [|exact L]. apply line_valid_fold in V'; [|exact L'].
  assert (fold_left pearson_step (d1 ++ e ++ d3) (pearson_perm v) =
          fold_left pearson_step (d1 ++ e' ++ d3) (pearson_perm v)) as E by congruence.
  revert E. apply fold_sep_ctx. intros h. apply S; assumption.
Qed.

Lemma line_swap a c d b l l' v :
  length (a ++ c :: d :: b) = 24 -> In (length a mod 8) [0; 2; 5; 7] -> c <> d ->
  base32_text l (a ++ c :: d :: b) -> base32_text l' (a ++ d :: c :: b) ->
  line_valid v l -> line_valid v l' -> False.
Proof.
  intros Hl Hp Hne T T' V V'.
  pose proof (base32_text_alphabet _ _ T) as A.
  assert (inA c /\ inA d) as [Ac Ad].
  { apply Forall_app in A. destruct A as [_ A]. inversion A as [|? ? A1 A2]; inversion A2; subst. split; assumption. }
  assert (base32_lookup c <> base32_lookup d) as Hne' by (intros E; apply lookup_inj in E; auto).
  set (q := length a / 8). pose proof (Nat.div_mod (length a) 8 ltac:(lia)) as Hdm. fold q in Hdm.
  assert (length a + length b = 22) as Hab by (rewrite app_length in Hl; cbn [length] in Hl; lia).
  set (a1 := firstn (8 * q) a). set (a2 := skipn (8 * q) a).
  assert (a = a1 ++ a2) as Ea by (symmetry; apply firstn_skipn).
  assert (length a1 = 8 * q) as L1 by (unfold a1; rewrite firstn_length; lia).
  assert (length a2 = length a mod 8) as L2 by (unfold a2; rewrite skipn_length; lia).
  clearbody a1 a2. destruct (Nat.eq_dec (length a mod 8) 7) as [E7|E7].
  - (* two groups *)
    set (b2 := firstn 7 b). set (b1 := skipn 7 b).
    assert (b = b2 ++ b1) as Eb by (symmetry; apply firstn_skipn).
    assert (length b2 = 7) as L3 by (unfold b2; rewrite firstn_length; lia).
    clearbody b2 b1. subst a b.
    apply (piece_sep a1 ((a2 ++ [c]) ++ (d :: b2)) ((a2 ++ [d]) ++ (c :: b2)) b1 l l' v).
    + rewrite L1. lia.
    + rewrite !app_length. cbn [length]. rewrite L2, E7, L3. reflexivity.
    + rewrite !app_length. reflexivity.
    + replace (a1 ++ ((a2 ++ [c]) ++ d :: b2) ++ b1) with ((a1 ++ a2) ++ c :: d :: b2 ++ b1); [exact T|].
      rewrite <- !app_assoc. reflexivity.
    + replace (a1 ++ ((a2 ++ [d]) ++ c :: b2) ++ b1) with ((a1 ++ a2) ++ d :: c :: b2 ++ b1); [exact T'|].
      rewrite <- !app_assoc. reflexivity.
    + exact V.
    + exact V'.
    + intros e e' Te Te' h.
      assert (length (a2 ++ [c]) = 8 /\ length (a2 ++ [d]) = 8) as [K1 K2] by (rewrite !app_length; cbn [length]; lia).
      assert (length (d :: b2) = 8 /\ length (c :: b2) = 8) as [K3 K4] by (cbn [length]; lia).
      destruct (base32_text_split _ _ _ Te ltac:(rewrite K1; reflexivity)) as (x & y & -> & Tx & Ty).
      destruct (base32_text_split _ _ _ Te' ltac:(rewrite K2; reflexivity)) as (x' & y' & -> & Tx' & Ty').
      destruct (base32_text_group _ _ Tx K1) as [G1 F1]. destruct (base32_text_group _ _ Ty K3) as [G2 F2].
      destruct (base32_text_group _ _ Tx' K2) as [G3 _]. destruct (base32_text_group _ _ Ty' K4) as [G4 _].
      rewrite map_app in G1, G3, F1. cbn [map] in G1, G2, G3, G4, F1, F2.
      rewrite <- (map_length base32_lookup), map_app in K1. rewrite <- (map_length base32_lookup) in K3.
      exact (swap_across _ _ _ _ _ _ _ _ h K1 K3 Hne' F1 F2 G1 G2 G3 G4).
  - (* one group *)
    set (r := length a mod 8) in *.
    assert (r = 0 \/ r = 2 \/ r = 5) as Hr by (destruct Hp as [Hp|[Hp|[Hp|[Hp|[]]]]]; auto; congruence).
    set (b2 := firstn (6 - r) b). set (b1 := skipn (6 - r) b).
    assert (b = b2 ++ b1) as Eb by (symmetry; apply firstn_skipn).
    assert (length b2 = 6 - r) as L3 by (unfold b2; rewrite firstn_length; lia).
    clearbody b2 b1. subst b. rewrite Ea in T, T'.
    apply (piece_sep a1 (a2 ++ c :: d :: b2) (a2 ++ d :: c :: b2) b1 l l' v).
    + rewrite L1. lia.
    + rewrite !app_length. cbn [length]. rewrite L2, L3. replace (r + S (S (6 - r))) with 8 by lia. reflexivity.
    + rewrite !app_length. reflexivity.
    + rewrite <- !app_assoc in T. rewrite <- !app_assoc. exact T.
    + rewrite <- !app_assoc in T'. rewrite <- !app_assoc. exact T'.
    + exact V.
    + exact V'.
    + intros e e' Te Te' h.
      assert (length (a2 ++ c :: d :: b2) = 8 /\ length (a2 ++ d :: c :: b2) = 8) as [K1 K2] by (rewrite !app_length; cbn [length]; lia).
      destruct (base32_text_group _ _ Te K1) as [G1 F1]. destruct (base32_text_group _ _ Te' K2) as [G2 F2].
      rewrite map_app in G1, G2, F1. cbn [map] in G1, G2, F1.
      eapply swap_sep with (3 := Hne'); try eassumption.
      * rewrite <- (map_length base32_lookup), map_app in K1. exact K1.
      * rewrite map_length, L2. destruct Hr as [-> |[-> | ->]]; cbn; auto.
Qed.

(** The line at a position of a code. *)
Lemma line_of text lines A L B :
  code_lines text lines -> significant text = A ++ L ++ B -> length A mod 24 = 0 -> length L = 24 ->
  exists l, base32_text l L /\ line_valid (virtual_byte (length lines) (length A / 24)) l.
Proof.
  intros [T V] E MA ML. rewrite E in T.
  assert (length A mod 8 = 0) as M18 by lia.
  destruct (base32_text_split _ _ _ T M18) as (d1 & r & Ed & T1 & Tr).
  destruct (base32_text_split _ _ _ Tr ltac:(rewrite ML; reflexivity)) as (l & d3 & -> & Tg & T3).
  pose proof (base32_text_length _ _ T1) as Ld1. pose proof (base32_text_length _ _ Tg) as Ll.
  assert (length d1 mod 15 = 0) as Md1 by lia. assert (length l = 15) as Ll' by lia.
  assert (lines = chunks 15 d1 ++ l :: chunks 15 d3) as Els.
  { rewrite <- (chunks_concat_15 lines) by (apply lines_valid_length, V). rewrite Ed.
    rewrite chunks_app_multiple, chunks_app by (assumption || lia). reflexivity. }
  exists l. split; [exact Tg|]. destruct V as [_ V]. specialize (V (length (chunks 15 d1)) l).
  rewrite Els, nth_error_app2, Nat.sub_diag in V by lia. rewrite <- Els in V. specialize (V eq_refl).
  rewrite length_chunks in V by (exact Md1 || lia).
  replace (length A / 24) with (length d1 / 15); [exact V|]. lia.
Qed.

Lemma swap_codes text text' lines lines' A c d B :
  code_lines text lines -> code_lines text' lines' ->
  significant text = A ++ c :: d :: B -> significant text' = A ++ d :: c :: B ->
  In (length A mod 8) [0; 2; 5; 7] -> c <> d -> False.
Proof.
  intros C C' E E' Hp Hne.
  pose proof (code_lines_size _ _ C) as Hsz. pose proof (code_lines_size _ _ C') as Hsz'.
  rewrite E, app_length in Hsz. rewrite E', app_length in Hsz'. cbn [length] in Hsz, Hsz'.
  assert (length lines' = length lines) as Hll by lia.
  set (q := length A / 24). set (r := length A mod 24).
  pose proof (Nat.div_mod (length A) 24 ltac:(lia)) as Hdm. fold q r in Hdm.
  pose proof (Nat.mod_upper_bound (length A) 24 ltac:(lia)) as Hr. fold r in Hr.
  set (a1 := firstn (24 * q) A). set (a2 := skipn (24 * q) A).
  assert (A = a1 ++ a2) as Ea by (symmetry; apply firstn_skipn).
  assert (length a1 = 24 * q) as L1 by (unfold a1; rewrite firstn_length; lia).
  assert (length a2 = r) as L2 by (unfold a2; rewrite skipn_length; lia).
  clearbody a1 a2.
  assert (length a1 mod 24 = 0) as M1 by (rewrite L1; lia).
  destruct (Nat.eq_dec r 23) as [E23|E23].
  - destruct (line_of text lines a1 (a2 ++ [c]) (d :: B)) as (l & Tl & Vl); [exact C| |exact M1| |].
    { rewrite E, Ea, <- !app_assoc. reflexivity. } { rewrite app_length. cbn [length]. lia. }
    destruct (line_of text' lines' a1 (a2 ++ [d]) (c :: B)) as (l' & Tl' & Vl'); [exact C'| |exact M1| |].
    { rewrite E', Ea, <- !app_assoc. reflexivity. } { rewrite app_length. cbn [length]. lia. }
    rewrite Hll in Vl'. eapply (line_sep a2 c d []); [|exact Hne|exact Tl|exact Tl'|exact Vl|exact Vl'].
    rewrite app_length. cbn [length]. lia.
  - set (b2 := firstn (22 - r) B). set (b1 := skipn (22 - r) B).
    assert (B = b2 ++ b1) as Eb by (symmetry; apply firstn_skipn).
    assert (length b2 = 22 - r) as L3 by (unfold b2; rewrite firstn_length; lia).
    clearbody b2 b1.
    destruct (line_of text lines a1 (a2 ++ c :: d :: b2) b1) as (l & Tl & Vl); [exact C| |exact M1| |].
    { rewrite E, Ea, Eb, <- !app_assoc. reflexivity. } { rewrite app_length. cbn [length]. lia. }
    destruct (line_of text' lines' a1 (a2 ++ d :: c :: b2) b1) as (l' & Tl' & Vl'); [exact C'| |exact M1| |].
    { rewrite E', Ea, Eb, <- !app_assoc. reflexivity. } { rewrite app_length. cbn [length]. lia. }
    rewrite Hll in Vl'. eapply (line_swap a2 c d b2); [| |exact Hne|exact Tl|exact Tl'|exact Vl|exact Vl'].
    + rewrite app_length. cbn [length]. lia.
    + rewrite L2. replace (r mod 8) with (length A mod 8); [exact Hp|]. unfold r. lia.
Qed.
