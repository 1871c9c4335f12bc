(** Lines of recovery codes and their checksums: proofs. *)
From Verif Require Import M_Base M_Codec M_Prims M_Recovery P_Base S_Codec P_Codec S_Recovery P_Format.
From Coq Require Import ZArith ZifyBool ZifyNat ZifyN.
Ltac Zify.zify_post_hook ::= Z.div_mod_to_equations.

(** * Virtual bytes *)

Lemma to_N_nonfinal i : Byte.to_N (nonfinal_byte i) = (N.of_nat i mod 256)%N.
Proof. apply to_N_u8. Qed.

Lemma to_N_final i : Byte.to_N (final_byte i) = (255 - N.of_nat i mod 256)%N.
Proof. unfold final_byte. rewrite to_N_u8. lia. Qed.

Lemma final_neq_nonfinal i : final_byte i <> nonfinal_byte i.
Proof.
  intros H. apply (f_equal Byte.to_N) in H. rewrite to_N_final, to_N_nonfinal in H. lia.
Qed.

Lemma final_virtual_byte_eq P i :
  final_virtual_byte P i = if (256 <=? i) && p_overflow_checks P then Panic else Ok (final_byte i).
Proof.
  unfold final_virtual_byte. destruct (Nat.leb_spec i 255) as [H|H].
  - destruct (Nat.leb_spec 256 i); [lia|]. cbn [andb]. f_equal. apply to_N_inj.
    rewrite to_N_final, to_N_u8. lia.
  - destruct (Nat.leb_spec 256 i); [|lia]. cbn [andb].
    destruct (p_overflow_checks P); [reflexivity|]. f_equal. apply to_N_inj.
    rewrite to_N_final, to_N_u8. lia.
Qed.

Lemma usize_as_u8_eq i : usize_as_u8 i = nonfinal_byte i.
Proof. reflexivity. Qed.

(** * Line validity as a fold *)

Lemma line_valid_fold v line :
  length line = 15 ->
  line_valid v line <-> fold_left pearson_step line (pearson_perm v) = pearson_perm x00.
Proof.
  intros Hl.
  assert (exists block c, line = block ++ [c] /\ length block = 14) as (block & c & -> & Hb).
  { exists (firstn 14 line). destruct (skipn 14 line) as [|c [|? ?]] eqn:E.
    - apply (f_equal (@length byte)) in E. rewrite skipn_length in E. cbn in E. lia.
    - exists c. rewrite <- E, firstn_skipn, firstn_length. split; [reflexivity|lia].
    - apply (f_equal (@length byte)) in E. rewrite skipn_length in E. cbn in E. lia. }
  rewrite fold_left_app. cbn [fold_left].
  change (fold_left pearson_step block (pearson_perm v)) with (pearson_hash block v).
  split.
  - intros (b' & Hb' & E). apply app_inj_tail in E. destruct E as [-> ->].
    unfold pearson_step. f_equal. apply to_N_inj. rewrite b_xor_to_N, N.lxor_nilpotent. reflexivity.
  - intros H. apply pearson_perm_inj in H. apply (f_equal Byte.to_N) in H.
    rewrite b_xor_to_N in H. change (Byte.to_N x00) with 0%N in H. apply N.lxor_eq in H.
    apply to_N_inj in H. exists block. rewrite H. split; [exact Hb|reflexivity].
Qed.

Lemma line_valid_length v line : line_valid v line -> length line = 15.
Proof. intros (block & Hb & ->). rewrite app_length, Hb. reflexivity. Qed.

Lemma line_valid_virtual_inj v1 v2 line : line_valid v1 line -> line_valid v2 line -> v1 = v2.
Proof.
  intros (b1 & H1 & E1) (b2 & H2 & E2). rewrite E1 in E2. apply app_inj_tail in E2.
  destruct E2 as [-> E]. eapply pearson_virtual_inj; exact E.
Qed.

(** * A changed symbol changes the fold *)

Definition low (k : N) (b : byte) : N := (Byte.to_N b mod 2 ^ k)%N.

Lemma low_xor k a b : (k <= 8)%N -> low k (b_xor a b) = N.lxor (low k a) (low k b).
Proof.
  intros Hk. unfold low. rewrite b_xor_to_N, <- !N.land_ones.
  apply N.bits_inj. intros i. rewrite !N.lxor_spec, !N.land_spec, !N.lxor_spec.
  destruct (N.testbit (N.ones k) i); rewrite ?andb_true_r, ?andb_false_r; reflexivity.
Qed.

Lemma perm_low k a b : k = 1%N \/ k = 2%N \/ k = 3%N \/ k = 4%N ->
  low k (pearson_perm a) = low k (pearson_perm b) -> low k a = low k b.
Proof.
  intros Hk H.
  assert (forall k0, (forallb (fun a => forallb (fun b =>
     implb (low k0 (pearson_perm a) =? low k0 (pearson_perm b))%N (low k0 a =? low k0 b)%N) all_bytes)
     all_bytes) = true -> low k0 (pearson_perm a) = low k0 (pearson_perm b) -> low k0 a = low k0 b) as Hg.
  { intros k0 Hs H0. pose proof (sweep2 (fun a b =>
      implb (low k0 (pearson_perm a) =? low k0 (pearson_perm b))%N (low k0 a =? low k0 b)%N) Hs a b) as Hab.
    cbn beta in Hab. rewrite H0, N.eqb_refl in Hab. apply N.eqb_eq, Hab. }
  destruct Hk as [->|[->|[->| ->]]]; (apply Hg; [vm_compute; reflexivity|exact H]).
Qed.

(** [x, y] and [x', y'] differ like two byte pairs spelling a symbol that straddles the byte border
    with [k] bits in the first byte. *)
Lemma straddle_sep k x y x' y' h :
  k = 1%N \/ k = 2%N \/ k = 3%N \/ k = 4%N ->
  (low k x = low k x' -> x = x') -> low k y = low k y' -> (x, y) <> (x', y') ->
  fold_left pearson_step [x; y] h <> fold_left pearson_step [x'; y'] h.
Proof.
  intros Hk Hx Hy Hne H. cbn [fold_left] in H. unfold pearson_step at 1 3 in H.
  apply pearson_perm_inj in H.
  assert (k <= 8)%N as Hk8 by (destruct Hk as [->|[->|[->| ->]]]; lia).
  assert (x = x') as ->.
  { apply Hx. apply (f_equal (low k)) in H. rewrite !low_xor in H by exact Hk8. rewrite Hy in H.
    apply (f_equal (fun z => N.lxor z (low k y'))) in H.
    rewrite !N.lxor_assoc, N.lxor_nilpotent, !N.lxor_0_r in H.
    apply perm_low in H; [|exact Hk]. rewrite !low_xor in H by exact Hk8.
    apply (f_equal (N.lxor (low k h))) in H.
    rewrite <- !N.lxor_assoc, N.lxor_nilpotent, !N.lxor_0_l in H. exact H. }
  apply b_xor_inj_l in H. congruence.
Qed.

Lemma fold_sep_ctx pre d d' post h :
  (forall h, fold_left pearson_step d h <> fold_left pearson_step d' h) ->
  fold_left pearson_step (pre ++ d ++ post) h <> fold_left pearson_step (pre ++ d' ++ post) h.
Proof.
  intros Hd H. rewrite !fold_left_app in H. apply pearson_fold_inj in H. exact (Hd _ H).
Qed.

Lemma single_sep x x' h : x <> x' -> fold_left pearson_step [x] h <> fold_left pearson_step [x'] h.
Proof.
  intros Hne H. cbn in H. apply pearson_perm_inj, b_xor_inj_l in H. exact (Hne H).
Qed.

Lemma chunk_text s out : Forall (fun i => b_nat i < 32) s -> base32_decode_chunk s = Ok out ->
  byte_bits out = flat_map (bits 5) (map Byte.to_N s).
Proof.
  intros Hs H. destruct s as [|s0 [|s1 [|s2 [|s3 [|s4 [|s5 [|s6 [|s7 [|? ?]]]]]]]]]; try discriminate H.
  destruct (decode_chunk_ok [s0; s1; s2; s3; s4; s5; s6; s7] eq_refl Hs) as (o & Ho & _ & Hb). congruence.
Qed.

Lemma decode_chunk_inj s s' out :
  Forall (fun i => b_nat i < 32) s -> Forall (fun i => b_nat i < 32) s' ->
  base32_decode_chunk s = Ok out -> base32_decode_chunk s' = Ok out -> s = s'.
Proof.
  intros Hs Hs' H H'. pose proof (chunk_text _ _ Hs H) as B. pose proof (chunk_text _ _ Hs' H') as B'.
  rewrite B in B'. apply bits5_inj in B'.
  - revert s' B' Hs' H'. clear. induction s as [|a s IH]; intros [|a' s'] E Hs' H'; try discriminate E.
    + reflexivity.
    + cbn in E. injection E as E1 E2. apply to_N_inj in E1. subst. f_equal.
      clear - E2. revert s' E2. induction s as [|a s IH]; intros [|a' s'] E; try discriminate E; [reflexivity|].
      cbn in E. injection E as E1 E2. apply to_N_inj in E1. subst. f_equal. apply IH, E2.
  - apply Forall_map. eapply Forall_impl; [|exact Hs]. unfold b_nat. intros a Ha. lia.
  - apply Forall_map. eapply Forall_impl; [|exact Hs']. unfold b_nat. intros a Ha. lia.
Qed.

(** Low bits of decoded bytes, by sweep. *)
Lemma low_c0 s0 s1 : b_nat s0 < 32 -> b_nat s1 < 32 ->
  low 3 (b_or (b_shl s0 3) (b_shr s1 2)) = Byte.to_N (b_shr s1 2).
Proof.
  intros H0 H1. apply N.eqb_eq.
  exact (sweep_below2 32 (fun s0 s1 => (low 3 (b_or (b_shl s0 3) (b_shr s1 2)) =? Byte.to_N (b_shr s1 2))%N)
           ltac:(vm_compute; reflexivity) s0 s1 H0 H1).
Qed.

Lemma low_c1_3 s1 s2 s3 : b_nat s1 < 32 -> b_nat s2 < 32 -> b_nat s3 < 32 ->
  low 3 (b_or (b_or (b_shl (b_and s1 x03) 6) (b_shl s2 1)) (b_shr s3 4)) =
  low 3 (b_or (b_shl s2 1) (b_shr s3 4)).
Proof.
  intros H0 H1 H2. apply N.eqb_eq.
  exact (sweep_below3 32 (fun s1 s2 s3 =>
    (low 3 (b_or (b_or (b_shl (b_and s1 x03) 6) (b_shl s2 1)) (b_shr s3 4)) =?
     low 3 (b_or (b_shl s2 1) (b_shr s3 4)))%N) ltac:(vm_compute; reflexivity) s1 s2 s3 H0 H1 H2).
Qed.

Lemma low_c1_1 s1 s2 s3 : b_nat s1 < 32 -> b_nat s2 < 32 -> b_nat s3 < 32 ->
  low 1 (b_or (b_or (b_shl (b_and s1 x03) 6) (b_shl s2 1)) (b_shr s3 4)) = Byte.to_N (b_shr s3 4).
Proof.
  intros H0 H1 H2. apply N.eqb_eq.
  exact (sweep_below3 32 (fun s1 s2 s3 =>
    (low 1 (b_or (b_or (b_shl (b_and s1 x03) 6) (b_shl s2 1)) (b_shr s3 4)) =?
     Byte.to_N (b_shr s3 4))%N) ltac:(vm_compute; reflexivity) s1 s2 s3 H0 H1 H2).
Qed.

Lemma low_c2_1 s3 s4 : b_nat s3 < 32 -> b_nat s4 < 32 ->
  low 1 (b_or (b_shl (b_and s3 x0f) 4) (b_shr s4 1)) = low 1 (b_shr s4 1).
Proof.
  intros H0 H1. apply N.eqb_eq.
  exact (sweep_below2 32 (fun s3 s4 =>
    (low 1 (b_or (b_shl (b_and s3 x0f) 4) (b_shr s4 1)) =? low 1 (b_shr s4 1))%N)
           ltac:(vm_compute; reflexivity) s3 s4 H0 H1).
Qed.

Lemma low_c2_4 s3 s4 : b_nat s3 < 32 -> b_nat s4 < 32 ->
  low 4 (b_or (b_shl (b_and s3 x0f) 4) (b_shr s4 1)) = Byte.to_N (b_shr s4 1).
Proof.
  intros H0 H1. apply N.eqb_eq.
  exact (sweep_below2 32 (fun s3 s4 =>
    (low 4 (b_or (b_shl (b_and s3 x0f) 4) (b_shr s4 1)) =? Byte.to_N (b_shr s4 1))%N)
           ltac:(vm_compute; reflexivity) s3 s4 H0 H1).
Qed.

Lemma low_c3_4 s4 s5 s6 : b_nat s4 < 32 -> b_nat s5 < 32 -> b_nat s6 < 32 ->
  low 4 (b_or (b_or (b_shl (b_and s4 x01) 7) (b_shl s5 2)) (b_shr s6 3)) =
  low 4 (b_or (b_shl s5 2) (b_shr s6 3)).
Proof.
  intros H0 H1 H2. apply N.eqb_eq.
  exact (sweep_below3 32 (fun s4 s5 s6 =>
    (low 4 (b_or (b_or (b_shl (b_and s4 x01) 7) (b_shl s5 2)) (b_shr s6 3)) =?
     low 4 (b_or (b_shl s5 2) (b_shr s6 3)))%N) ltac:(vm_compute; reflexivity) s4 s5 s6 H0 H1 H2).
Qed.

Lemma low_c3_2 s4 s5 s6 : b_nat s4 < 32 -> b_nat s5 < 32 -> b_nat s6 < 32 ->
  low 2 (b_or (b_or (b_shl (b_and s4 x01) 7) (b_shl s5 2)) (b_shr s6 3)) = Byte.to_N (b_shr s6 3).
Proof.
  intros H0 H1 H2. apply N.eqb_eq.
  exact (sweep_below3 32 (fun s4 s5 s6 =>
    (low 2 (b_or (b_or (b_shl (b_and s4 x01) 7) (b_shl s5 2)) (b_shr s6 3)) =?
     Byte.to_N (b_shr s6 3))%N) ltac:(vm_compute; reflexivity) s4 s5 s6 H0 H1 H2).
Qed.

Lemma low_c4_2 s6 s7 : b_nat s6 < 32 -> b_nat s7 < 32 ->
  low 2 (b_or (b_shl (b_and s6 x07) 5) s7) = low 2 s7.
Proof.
  intros H0 H1. apply N.eqb_eq.
  exact (sweep_below2 32 (fun s6 s7 => (low 2 (b_or (b_shl (b_and s6 x07) 5) s7) =? low 2 s7)%N)
           ltac:(vm_compute; reflexivity) s6 s7 H0 H1).
Qed.

(** Changing one of the eight symbols of a group changes the fold over the five bytes. *)
Lemma group_sep pre a a' post d d' h :
  length (pre ++ a :: post) = 8 -> a <> a' ->
  Forall (fun i => b_nat i < 32) (pre ++ a :: post) -> b_nat a' < 32 ->
  base32_decode_chunk (pre ++ a :: post) = Ok d -> base32_decode_chunk (pre ++ a' :: post) = Ok d' ->
  fold_left pearson_step d h <> fold_left pearson_step d' h.
Proof.
  intros Hl Hne Hf Ha' Hd Hd'.
  assert (d <> d') as Hdd.
  { intros ->. pose proof (decode_chunk_inj (pre ++ a :: post) (pre ++ a' :: post) d') as Hi.
    assert (Forall (fun i => b_nat i < 32) (pre ++ a' :: post)) as Hf'.
    { apply Forall_app in Hf. destruct Hf as [F1 F2]. apply Forall_app. split; [exact F1|].
      inversion F2; subst. constructor; assumption. }
    specialize (Hi Hf Hf' Hd Hd'). apply app_inv_head in Hi. congruence. }
  destruct pre as [|s0 [|s1 [|s2 [|s3 [|s4 [|s5 [|s6 [|s7 pre]]]]]]]]; cbn [app] in *.
  9:{ cbn [length] in Hl. rewrite app_length in Hl. cbn in Hl. lia. }
  all: destruct post as [|q0 [|q1 [|q2 [|q3 [|q4 [|q5 [|q6 [|q7 post]]]]]]]]; cbn [length] in Hl;
    try discriminate Hl.
  all: repeat match goal with H : Forall _ (_ :: _) |- _ => inversion H; subst; clear H end.
  all: cbn [base32_decode_chunk] in Hd, Hd'; injection Hd as Hd; injection Hd' as Hd'; subst d d'.
  - eapply (fold_sep_ctx [] [_] [_] [_; _; _; _]). intros h'. apply single_sep. congruence.
  - eapply (fold_sep_ctx [] [_; _] [_; _] [_; _; _]). intros h'. apply (straddle_sep 3); [auto| | |congruence].
    + rewrite !low_c0 by assumption. intros E. apply to_N_inj in E. rewrite E. reflexivity.
    + rewrite !low_c1_3 by assumption. reflexivity.
  - eapply (fold_sep_ctx [_] [_] [_] [_; _; _]). intros h'. apply single_sep. congruence.
  - eapply (fold_sep_ctx [_] [_; _] [_; _] [_; _]). intros h'. apply (straddle_sep 1); [auto| | |congruence].
    + rewrite !low_c1_1 by assumption. intros E. apply to_N_inj in E. rewrite E. reflexivity.
    + rewrite !low_c2_1 by assumption. reflexivity.
  - eapply (fold_sep_ctx [_; _] [_; _] [_; _] [_]). intros h'. apply (straddle_sep 4); [auto| | |congruence].
    + rewrite !low_c2_4 by assumption. intros E. apply to_N_inj in E. rewrite E. reflexivity.
    + rewrite !low_c3_4 by assumption. reflexivity.
  - eapply (fold_sep_ctx [_; _; _] [_] [_] [_]). intros h'. apply single_sep. congruence.
  - eapply (fold_sep_ctx [_; _; _] [_; _] [_; _] []). intros h'. apply (straddle_sep 2); [auto| | |congruence].
    + rewrite !low_c3_2 by assumption. intros E. apply to_N_inj in E. rewrite E. reflexivity.
    + rewrite !low_c4_2 by assumption. reflexivity.
  - eapply (fold_sep_ctx [_; _; _; _] [_] [_] []). intros h'. apply single_sep. congruence.
Qed.
