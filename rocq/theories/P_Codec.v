(** Base32 and Pearson checksum: proofs. *)
From Verif Require Import M_Base M_Codec P_Base S_Codec.
From Coq Require Import ZArith ZifyBool ZifyNat ZifyN.
Ltac Zify.zify_post_hook ::= Z.div_mod_to_equations.

Fixpoint bools_eqb (a b : list bool) : bool :=
  match a, b with
  | [], [] => true
  | x :: a', y :: b' => Bool.eqb x y && bools_eqb a' b'
  | _, _ => false
  end.

Lemma bools_eqb_eq a b : bools_eqb a b = true -> a = b.
Proof.
  revert b; induction a as [|x a IH]; intros [|y b]; cbn [bools_eqb]; try congruence.
  rewrite andb_true_iff. intros [H1 H2]. apply eqb_prop in H1. apply IH in H2. congruence.
Qed.

Lemma length_bits k n : length (bits k n) = k.
Proof. induction k as [|k IH]; cbn [bits length]; [reflexivity|]. rewrite IH. reflexivity. Qed.

Lemma bits_inj_aux k a b :
  bits k a = bits k b -> forall i, (i < N.of_nat k)%N -> N.testbit a i = N.testbit b i.
Proof.
  induction k as [|k IH]; cbn [bits]; intros H i Hi; [lia|].
  injection H as H1 H2. destruct (N.eq_dec i (N.of_nat k)) as [->|Hne]; [exact H1|].
  apply IH; [exact H2|lia].
Qed.

Lemma testbit_small a k i : (a < 2 ^ k)%N -> (k <= i)%N -> N.testbit a i = false.
Proof.
  intros Ha Hi. destruct (N.eq_dec a 0) as [->|Hne]; [apply N.bits_0|].
  apply N.bits_above_log2. apply N.log2_lt_pow2 in Ha; lia.
Qed.

Lemma bits_inj k a b :
  (a < 2 ^ N.of_nat k)%N -> (b < 2 ^ N.of_nat k)%N -> bits k a = bits k b -> a = b.
Proof.
  intros Ha Hb H. apply N.bits_inj. intros i.
  destruct (N.lt_ge_cases i (N.of_nat k)) as [Hi|Hi].
  - apply (bits_inj_aux k); assumption.
  - rewrite (testbit_small a (N.of_nat k)), (testbit_small b (N.of_nat k)) by assumption. reflexivity.
Qed.

Lemma flat_map_fixed_inj {A} (f : A -> list bool) (Q : A -> Prop) k :
  0 < k -> (forall x, length (f x) = k) -> (forall x y, Q x -> Q y -> f x = f y -> x = y) ->
  forall l1 l2, Forall Q l1 -> Forall Q l2 -> flat_map f l1 = flat_map f l2 -> l1 = l2.
Proof.
  intros Hk Hlen Hinj l1. induction l1 as [|x l1 IH]; intros [|y l2] H1 H2; cbn [flat_map]; intros H.
  - reflexivity.
  - apply (f_equal (@length bool)) in H. rewrite app_length, Hlen in H. cbn in H. lia.
  - apply (f_equal (@length bool)) in H. rewrite app_length, Hlen in H. cbn in H. lia.
  - inversion H1; inversion H2; subst.
    assert (f x = f y /\ flat_map f l1 = flat_map f l2) as [Hf Hr].
    { split.
      - apply (f_equal (firstn k)) in H. rewrite !firstn_app, !Hlen, Nat.sub_diag in H.
        cbn [firstn] in H. rewrite !app_nil_r in H.
        rewrite (firstn_all2 (f x)), (firstn_all2 (f y)) in H by (rewrite Hlen; lia). exact H.
      - apply (f_equal (skipn k)) in H. rewrite !skipn_app, !Hlen, Nat.sub_diag in H.
        rewrite (skipn_all2 (f x)), (skipn_all2 (f y)) in H by (rewrite Hlen; lia). exact H. }
    f_equal; [apply Hinj; assumption|apply IH; assumption].
Qed.

Lemma byte_bits_inj a b : byte_bits a = byte_bits b -> a = b.
Proof.
  apply (flat_map_fixed_inj _ (fun _ => True) 8); [lia| | | |].
  - intros x. apply length_bits.
  - intros x y _ _ H. apply to_N_inj. apply (bits_inj 8); [apply to_N_lt|apply to_N_lt|exact H].
  - apply Forall_forall; intros; exact I.
  - apply Forall_forall; intros; exact I.
Qed.

Lemma bits5_inj a b :
  Forall (fun v => (v < 32)%N) a -> Forall (fun v => (v < 32)%N) b ->
  flat_map (bits 5) a = flat_map (bits 5) b -> a = b.
Proof.
  apply (flat_map_fixed_inj _ _ 5); [lia|intros; apply length_bits|].
  intros x y Hx Hy. apply bits_inj; assumption.
Qed.

(** * Alphabet and lookup table *)

Lemma lookup_alphabet v c :
  (v < 32)%N -> nth_error alphabet32 (N.to_nat v) = Some c -> base32_lookup c = u8 v.
Proof.
  intros Hv. pose proof (sweep_below 32
    (fun b => match nth_error alphabet32 (b_nat b) with
              | Some c => Byte.eqb (base32_lookup c) b | None => false end)
    ltac:(vm_compute; reflexivity) (u8 v)) as H. cbn beta in H.
  assert (b_nat (u8 v) = N.to_nat v) as Hn.
  { unfold b_nat. rewrite to_N_u8. rewrite N.mod_small by lia. reflexivity. }
  rewrite Hn in H. intros Hc. rewrite Hc in H. apply eqb_eq, H. lia.
Qed.

Lemma alphabet_lookup c :
  base32_invalid c = false ->
  (Byte.to_N (base32_lookup c) < 32)%N /\
  nth_error alphabet32 (b_nat (base32_lookup c)) = Some c.
Proof.
  intros H. split; [unfold base32_invalid in H; lia|].
  pose proof (sweep1 (fun c => base32_invalid c ||
     match nth_error alphabet32 (b_nat (base32_lookup c)) with
     | Some d => Byte.eqb d c | None => false end) ltac:(vm_compute; reflexivity) c) as Hs.
  cbn beta in Hs. rewrite H in Hs. cbn [orb] in Hs.
  destruct (nth_error alphabet32 (b_nat (base32_lookup c))) as [d|]; [|discriminate].
  apply eqb_eq in Hs. congruence.
Qed.

Lemma base32_invalid_spec c : base32_invalid c = false <-> In c alphabet32.
Proof.
  pose proof (sweep1 (fun c => Bool.eqb (negb (base32_invalid c)) (contains_byte c alphabet32))
                     ltac:(vm_compute; reflexivity) c) as H.
  cbn beta in H. apply eqb_prop in H. rewrite <- contains_byte_spec, <- H.
  destruct (base32_invalid c); cbn; split; congruence.
Qed.

Lemma alphabet_at_ok i : (Byte.to_N i < 32)%N ->
  exists c, alphabet_at i = Ok c /\ nth_error alphabet32 (b_nat i) = Some c.
Proof.
  intros Hi. unfold alphabet_at, idx. change BASE32_ALPHABET with alphabet32.
  destruct (nth_error alphabet32 (b_nat i)) as [c|] eqn:E.
  - exists c. split; reflexivity.
  - exfalso. apply nth_error_None in E. change (length alphabet32) with 32 in E.
    unfold b_nat in E. lia.
Qed.

(** * One chunk *)

Definition sym_rel (c : byte) (v : N) : Prop :=
  (v < 32)%N /\ nth_error alphabet32 (N.to_nat v) = Some c.

Lemma mapM_alphabet l :
  Forall (fun i => (Byte.to_N i < 32)%N) l ->
  exists out, mapM alphabet_at l = Ok out /\ Forall2 sym_rel out (map Byte.to_N l).
Proof.
  induction 1 as [|i l Hi _ (out & Ho & Hr)]; cbn [mapM map].
  - exists []. split; [reflexivity|constructor].
  - destruct (alphabet_at_ok i Hi) as (c & Hc & Hn). rewrite Hc, Ho. cbn [bind].
    exists (c :: out). split; [reflexivity|]. constructor; [|exact Hr]. split; [exact Hi|exact Hn].
Qed.

Local Notation bit b i := (N.testbit (Byte.to_N b) i).

Definition enc_sym_bits (e : byte) (l : list bool) : bool :=
  (Byte.to_N e <? 32)%N && bools_eqb (bits 5 (Byte.to_N e)) l.

Lemma enc_sym_bits_spec e l :
  enc_sym_bits e l = true -> (Byte.to_N e < 32)%N /\ bits 5 (Byte.to_N e) = l.
Proof.
  unfold enc_sym_bits. rewrite andb_true_iff. intros [H1 H2].
  split; [apply N.ltb_lt, H1|apply bools_eqb_eq, H2].
Qed.

Lemma encode_chunk_ok c :
  length c = 5 ->
  exists out vs, base32_encode_chunk c = Ok out /\ Forall2 sym_rel out vs /\
                 flat_map (bits 5) vs = byte_bits c.
Proof.
  intros Hl. destruct c as [|c0 [|c1 [|c2 [|c3 [|c4 [|? ?]]]]]]; try discriminate Hl. clear Hl.
  pose proof (sweep1 (fun c0 => enc_sym_bits (b_shr c0 3)
     [bit c0 7; bit c0 6; bit c0 5; bit c0 4; bit c0 3]) ltac:(vm_compute; reflexivity) c0) as H0.
  pose proof (sweep2 (fun c0 c1 => enc_sym_bits (b_or (b_shl (b_and c0 x07) 2) (b_shr c1 6))
     [bit c0 2; bit c0 1; bit c0 0; bit c1 7; bit c1 6]) ltac:(vm_compute; reflexivity) c0 c1) as H1.
  pose proof (sweep1 (fun c1 => enc_sym_bits (b_and (b_shr c1 1) x1f)
     [bit c1 5; bit c1 4; bit c1 3; bit c1 2; bit c1 1]) ltac:(vm_compute; reflexivity) c1) as H2.
  pose proof (sweep2 (fun c1 c2 => enc_sym_bits (b_or (b_shl (b_and c1 x01) 4) (b_shr c2 4))
     [bit c1 0; bit c2 7; bit c2 6; bit c2 5; bit c2 4]) ltac:(vm_compute; reflexivity) c1 c2) as H3.
  pose proof (sweep2 (fun c2 c3 => enc_sym_bits (b_or (b_shl (b_and c2 x0f) 1) (b_shr c3 7))
     [bit c2 3; bit c2 2; bit c2 1; bit c2 0; bit c3 7]) ltac:(vm_compute; reflexivity) c2 c3) as H4.
  pose proof (sweep1 (fun c3 => enc_sym_bits (b_and (b_shr c3 2) x1f)
     [bit c3 6; bit c3 5; bit c3 4; bit c3 3; bit c3 2]) ltac:(vm_compute; reflexivity) c3) as H5.
  pose proof (sweep2 (fun c3 c4 => enc_sym_bits (b_or (b_shl (b_and c3 x03) 3) (b_shr c4 5))
     [bit c3 1; bit c3 0; bit c4 7; bit c4 6; bit c4 5]) ltac:(vm_compute; reflexivity) c3 c4) as H6.
  pose proof (sweep1 (fun c4 => enc_sym_bits (b_and c4 x1f)
     [bit c4 4; bit c4 3; bit c4 2; bit c4 1; bit c4 0]) ltac:(vm_compute; reflexivity) c4) as H7.
  cbn beta in *.
  apply enc_sym_bits_spec in H0, H1, H2, H3, H4, H5, H6, H7.
  destruct H0 as [L0 B0], H1 as [L1 B1], H2 as [L2 B2], H3 as [L3 B3], H4 as [L4 B4],
    H5 as [L5 B5], H6 as [L6 B6], H7 as [L7 B7].
  cbn [base32_encode_chunk].
  destruct (mapM_alphabet
        [ b_shr c0 3;
          b_or (b_shl (b_and c0 x07) 2) (b_shr c1 6);
          b_and (b_shr c1 1) x1f;
          b_or (b_shl (b_and c1 x01) 4) (b_shr c2 4);
          b_or (b_shl (b_and c2 x0f) 1) (b_shr c3 7);
          b_and (b_shr c3 2) x1f;
          b_or (b_shl (b_and c3 x03) 3) (b_shr c4 5);
          b_and c4 x1f ]) as (out & Ho & Hr).
  { repeat constructor; assumption. }
  eexists; eexists. split; [exact Ho|]. split; [exact Hr|].
  cbn [map flat_map]. rewrite B0, B1, B2, B3, B4, B5, B6, B7. reflexivity.
Qed.

Lemma bools8 e l : bools_eqb (bits 8 (Byte.to_N e)) l = true -> bits 8 (Byte.to_N e) = l.
Proof. apply bools_eqb_eq. Qed.

Lemma decode_chunk_ok s :
  length s = 8 -> Forall (fun i => b_nat i < 32) s ->
  exists out, base32_decode_chunk s = Ok out /\ length out = 5 /\
              byte_bits out = flat_map (bits 5) (map Byte.to_N s).
Proof.
  intros Hl Hs.
  destruct s as [|s0 [|s1 [|s2 [|s3 [|s4 [|s5 [|s6 [|s7 [|? ?]]]]]]]]]; try discriminate Hl. clear Hl.
  inversion Hs as [|? ? L0 Hs1]; subst. inversion Hs1 as [|? ? L1 Hs2]; subst.
  inversion Hs2 as [|? ? L2 Hs3]; subst. inversion Hs3 as [|? ? L3 Hs4]; subst.
  inversion Hs4 as [|? ? L4 Hs5]; subst. inversion Hs5 as [|? ? L5 Hs6]; subst.
  inversion Hs6 as [|? ? L6 Hs7]; subst. inversion Hs7 as [|? ? L7 _]; subst.
  pose proof (sweep_below2 32 (fun s0 s1 => bools_eqb
    (bits 8 (Byte.to_N (b_or (b_shl s0 3) (b_shr s1 2))))
    [bit s0 4; bit s0 3; bit s0 2; bit s0 1; bit s0 0; bit s1 4; bit s1 3; bit s1 2])
    ltac:(vm_compute; reflexivity) s0 s1 L0 L1) as H0.
  pose proof (sweep_below3 32 (fun s1 s2 s3 => bools_eqb
    (bits 8 (Byte.to_N (b_or (b_or (b_shl (b_and s1 x03) 6) (b_shl s2 1)) (b_shr s3 4))))
    [bit s1 1; bit s1 0; bit s2 4; bit s2 3; bit s2 2; bit s2 1; bit s2 0; bit s3 4])
    ltac:(vm_compute; reflexivity) s1 s2 s3 L1 L2 L3) as H1.
  pose proof (sweep_below2 32 (fun s3 s4 => bools_eqb
    (bits 8 (Byte.to_N (b_or (b_shl (b_and s3 x0f) 4) (b_shr s4 1))))
    [bit s3 3; bit s3 2; bit s3 1; bit s3 0; bit s4 4; bit s4 3; bit s4 2; bit s4 1])
    ltac:(vm_compute; reflexivity) s3 s4 L3 L4) as H2.
  pose proof (sweep_below3 32 (fun s4 s5 s6 => bools_eqb
    (bits 8 (Byte.to_N (b_or (b_or (b_shl (b_and s4 x01) 7) (b_shl s5 2)) (b_shr s6 3))))
    [bit s4 0; bit s5 4; bit s5 3; bit s5 2; bit s5 1; bit s5 0; bit s6 4; bit s6 3])
    ltac:(vm_compute; reflexivity) s4 s5 s6 L4 L5 L6) as H3.
  pose proof (sweep_below2 32 (fun s6 s7 => bools_eqb
    (bits 8 (Byte.to_N (b_or (b_shl (b_and s6 x07) 5) s7)))
    [bit s6 2; bit s6 1; bit s6 0; bit s7 4; bit s7 3; bit s7 2; bit s7 1; bit s7 0])
    ltac:(vm_compute; reflexivity) s6 s7 L6 L7) as H4.
  cbn beta in *. apply bools8 in H0, H1, H2, H3, H4.
  cbn [base32_decode_chunk]. eexists. split; [reflexivity|]. split; [reflexivity|].
  unfold byte_bits. cbn [flat_map map]. rewrite H0, H1, H2, H3, H4. reflexivity.
Qed.

(** * Whole texts *)

Lemma length_flat_bits5 vs : length (flat_map (bits 5) vs) = 5 * length vs.
Proof.
  induction vs as [|v vs IH]; cbn [flat_map length]; [reflexivity|].
  rewrite app_length, IH, length_bits. lia.
Qed.

Lemma length_byte_bits l : length (byte_bits l) = 8 * length l.
Proof.
  unfold byte_bits. induction l as [|v vs IH]; cbn [flat_map length]; [reflexivity|].
  rewrite app_length, IH, length_bits. lia.
Qed.

Lemma byte_bits_app a b : byte_bits (a ++ b) = byte_bits a ++ byte_bits b.
Proof. apply flat_map_app. Qed.

Lemma base32_text_length data text : base32_text data text -> 5 * length text = 8 * length data.
Proof.
  intros (vs & Hr & Hb). apply (f_equal (@length bool)) in Hb.
  rewrite length_flat_bits5, length_byte_bits in Hb. apply Forall2_len in Hr. lia.
Qed.

Lemma base32_text_mod data text : base32_text data text ->
  length data mod 5 = 0 /\ length text mod 8 = 0.
Proof. intros H. apply base32_text_length in H. lia. Qed.

Lemma base32_text_app d1 t1 d2 t2 :
  base32_text d1 t1 -> base32_text d2 t2 -> base32_text (d1 ++ d2) (t1 ++ t2).
Proof.
  intros (v1 & R1 & B1) (v2 & R2 & B2). exists (v1 ++ v2). split.
  - apply Forall2_app; assumption.
  - rewrite flat_map_app, byte_bits_app, B1, B2. reflexivity.
Qed.

Lemma sym_rel_fun_l vs t1 t2 : Forall2 sym_rel t1 vs -> Forall2 sym_rel t2 vs -> t1 = t2.
Proof.
  intros H1. revert t2. induction H1 as [|c v t1 vs [Hv Hc] _ IH]; intros t2 H2; inversion H2; subst.
  - reflexivity.
  - f_equal; [|apply IH; assumption]. destruct H3 as [_ H3]. congruence.
Qed.

Lemma base32_text_fun_text data t1 t2 : base32_text data t1 -> base32_text data t2 -> t1 = t2.
Proof.
  intros (v1 & R1 & B1) (v2 & R2 & B2).
  assert (v1 = v2) as ->.
  { apply bits5_inj; [| |congruence].
    - clear B1. induction R1 as [|c v ? ? [Hv _] _ IH]; constructor; assumption.
    - clear B2. induction R2 as [|c v ? ? [Hv _] _ IH]; constructor; assumption. }
  apply (sym_rel_fun_l v2); assumption.
Qed.

Lemma sym_rel_fun_r c v1 v2 : sym_rel c v1 -> sym_rel c v2 -> v1 = v2.
Proof.
  intros [L1 H1] [L2 H2]. apply lookup_alphabet in H1, H2; try assumption.
  rewrite H1 in H2. apply (f_equal Byte.to_N) in H2. rewrite !to_N_u8 in H2.
  rewrite !N.mod_small in H2 by lia. exact H2.
Qed.

Lemma base32_text_fun_data d1 d2 text : base32_text d1 text -> base32_text d2 text -> d1 = d2.
Proof.
  intros (v1 & R1 & B1) (v2 & R2 & B2). apply byte_bits_inj.
  assert (v1 = v2) as Hv.
  { clear B1 B2. revert v2 R2. induction R1 as [|c v ? ? Hv _ IH]; intros v2 R2; inversion R2; subst.
    - reflexivity.
    - f_equal; [eapply sym_rel_fun_r; eassumption|apply IH; assumption]. }
  congruence.
Qed.

Lemma base32_encode_ok data :
  length data mod 5 = 0 -> exists text, base32_encode data = Ok text /\ base32_text data text.
Proof.
  intros Hm.
  assert (exists cs, mapM base32_encode_chunk (chunks 5 data) = Ok cs /\
                     base32_text data (concat cs)) as (cs & Hcs & Ht).
  { revert data Hm. apply chunk_ind; [lia| |].
    - exists []. split; [reflexivity|]. exists []. split; [constructor|reflexivity].
    - intros a r Ha _ (cs & Hcs & Ht). rewrite chunks_app by (assumption || lia).
      destruct (encode_chunk_ok a Ha) as (out & vs & Ho & Hr & Hb).
      exists (out :: cs). cbn [mapM]. rewrite Ho, Hcs. cbn [bind concat]. split; [reflexivity|].
      apply base32_text_app; [|exact Ht]. exists vs. split; assumption. }
  exists (concat cs). split; [|exact Ht].
  unfold base32_encode. rewrite Hm. cbn [Nat.eqb negb]. rewrite Hcs. reflexivity.
Qed.

Lemma base32_decode_ok text :
  length text mod 8 = 0 -> Forall (fun c => In c alphabet32) text ->
  exists data, base32_decode text = Ok data /\ base32_text data text.
Proof.
  intros Hm Ha.
  assert (existsb base32_invalid text = false) as He.
  { apply not_true_iff_false. rewrite existsb_exists. intros (c & Hc & Hi).
    rewrite Forall_forall in Ha. apply Ha, base32_invalid_spec in Hc. congruence. }
  assert (exists cs, mapM base32_decode_chunk (chunks 8 (map base32_lookup text)) = Ok cs /\
                     base32_text (concat cs) text) as (cs & Hcs & Ht).
  { clear He. revert text Hm Ha. apply (chunk_ind 8 (fun text => Forall _ text -> exists cs, _)); [lia| |].
    - intros _. exists []. split; [reflexivity|]. exists []. split; [constructor|reflexivity].
    - intros a r Hl _ IH Hf. apply Forall_app in Hf. destruct Hf as [Hfa Hfr].
      destruct (IH Hfr) as (cs & Hcs & Ht).
      rewrite map_app, chunks_app by (rewrite ?map_length; assumption || lia).
      assert (Forall (fun i => b_nat i < 32) (map base32_lookup a)) as Hlt.
      { apply Forall_map. eapply Forall_impl; [|exact Hfa]. cbn beta. intros c Hc.
        apply base32_invalid_spec, alphabet_lookup in Hc. unfold b_nat. lia. }
      destruct (decode_chunk_ok (map base32_lookup a)) as (out & Ho & _ & Hb);
        [rewrite map_length; exact Hl|exact Hlt|].
      exists (out :: cs). cbn [mapM]. rewrite Ho, Hcs. cbn [bind concat]. split; [reflexivity|].
      apply base32_text_app; [|exact Ht]. exists (map Byte.to_N (map base32_lookup a)).
      split; [|symmetry; exact Hb].
      clear - Hfa. induction Hfa as [|c a Hc _ IH]; cbn [map]; constructor; [|exact IH].
      apply base32_invalid_spec, alphabet_lookup in Hc. destruct Hc as [H1 H2]. split; assumption. }
  exists (concat cs). split; [|exact Ht].
  unfold base32_decode. rewrite Hm. cbn [Nat.eqb negb]. rewrite He, Hcs. reflexivity.
Qed.

Lemma base32_text_alphabet data text : base32_text data text -> Forall (fun c => In c alphabet32) text.
Proof.
  intros (vs & Hr & _). induction Hr as [|c v ? ? [_ Hc] _ IH]; constructor; [|exact IH].
  eapply nth_error_In; exact Hc.
Qed.

(** ** Statements *)

Lemma base32_encode_spec data text : base32_encode data = Ok text <-> base32_text data text.
Proof.
  split.
  - intros H. destruct (Nat.eq_dec (length data mod 5) 0) as [Hm|Hm].
    + destruct (base32_encode_ok data Hm) as (t & Ht & Hs). congruence.
    + exfalso. unfold base32_encode in H. apply Nat.eqb_neq in Hm. rewrite Hm in H. discriminate.
  - intros H. destruct (base32_encode_ok data) as (t & Ht & Hs); [apply (base32_text_mod _ _ H)|].
    rewrite Ht. f_equal. eapply base32_text_fun_text; eassumption.
Qed.

Lemma base32_decode_spec data text : base32_decode text = Ok data <-> base32_text data text.
Proof.
  split.
  - intros H. destruct (Nat.eq_dec (length text mod 8) 0) as [Hm|Hm].
    + destruct (existsb base32_invalid text) eqn:He.
      * exfalso. unfold base32_decode in H. rewrite Hm, He in H. discriminate.
      * destruct (base32_decode_ok text Hm) as (d & Hd & Hs); [|congruence].
        apply Forall_forall. intros c Hc. apply base32_invalid_spec.
        destruct (base32_invalid c) eqn:Hi; [|reflexivity]. exfalso.
        assert (existsb base32_invalid text = true) as Ht
          by (apply existsb_exists; exists c; split; assumption). congruence.
    + exfalso. unfold base32_decode in H. apply Nat.eqb_neq in Hm. rewrite Hm in H. discriminate.
  - intros H. destruct (base32_decode_ok text) as (d & Hd & Hs).
    + apply (base32_text_mod _ _ H).
    + eapply base32_text_alphabet; exact H.
    + rewrite Hd. f_equal. eapply base32_text_fun_data; eassumption.
Qed.

Lemma base32_encode_total data :
  (length data mod 5 = 0 /\ exists text, base32_encode data = Ok text) \/
  (length data mod 5 <> 0 /\ base32_encode data = Err UnexpectedData).
Proof.
  destruct (Nat.eq_dec (length data mod 5) 0) as [Hm|Hm]; [left|right]; (split; [exact Hm|]).
  - destruct (base32_encode_ok data Hm) as (t & Ht & _). exists t; exact Ht.
  - unfold base32_encode. apply Nat.eqb_neq in Hm. rewrite Hm. reflexivity.
Qed.

Lemma base32_roundtrip data text :
  base32_encode data = Ok text ->
  base32_decode text = Ok data /\ 5 * length text = 8 * length data /\
  Forall (fun c => In c alphabet32) text.
Proof.
  intros H. apply base32_encode_spec in H. split; [apply base32_decode_spec, H|].
  split; [apply base32_text_length, H|eapply base32_text_alphabet; exact H].
Qed.

Lemma base32_decode_total text :
  (length text mod 8 = 0 /\ Forall (fun c => In c alphabet32) text /\
   exists data, base32_decode text = Ok data /\ base32_encode data = Ok text) \/
  (~ (length text mod 8 = 0 /\ Forall (fun c => In c alphabet32) text) /\
   base32_decode text = Err UnexpectedData).
Proof.
  destruct (Nat.eq_dec (length text mod 8) 0) as [Hm|Hm].
  - destruct (existsb base32_invalid text) eqn:He.
    + right. split; [|unfold base32_decode; rewrite Hm, He; reflexivity].
      intros [_ Hf]. apply existsb_exists in He. destruct He as (c & Hc & Hi).
      rewrite Forall_forall in Hf. apply Hf, base32_invalid_spec in Hc. congruence.
    + assert (Forall (fun c => In c alphabet32) text) as Hf.
      { apply Forall_forall. intros c Hc. apply base32_invalid_spec.
        destruct (base32_invalid c) eqn:Hi; [|reflexivity]. exfalso.
        assert (existsb base32_invalid text = true) as Ht
          by (apply existsb_exists; exists c; split; assumption). congruence. }
      left. split; [exact Hm|]. split; [exact Hf|].
      destruct (base32_decode_ok text Hm Hf) as (d & Hd & Ht). exists d. split; [exact Hd|].
      apply base32_encode_spec, Ht.
  - right. split; [intros [H _]; exact (Hm H)|].
    unfold base32_decode. apply Nat.eqb_neq in Hm. rewrite Hm. reflexivity.
Qed.

(** * Pearson checksum *)

Lemma pearson_perm_inj a b : pearson_perm a = pearson_perm b -> a = b.
Proof.
  intros H. pose proof (sweep2 (fun a b =>
     implb (Byte.eqb (pearson_perm a) (pearson_perm b)) (Byte.eqb a b))
     ltac:(vm_compute; reflexivity) a b) as Hs. cbn beta in Hs.
  rewrite H, eqb_refl in Hs. cbn [implb] in Hs. apply eqb_eq, Hs.
Qed.

Lemma b_xor_to_N a b : Byte.to_N (b_xor a b) = N.lxor (Byte.to_N a) (Byte.to_N b).
Proof.
  unfold b_xor. rewrite to_N_u8. apply N.mod_small.
  assert (N.lxor (Byte.to_N a) (Byte.to_N b) < 2 ^ 8)%N as H; [|exact H].
  pose proof (sweep2 (fun a b => N.lxor (Byte.to_N a) (Byte.to_N b) <? 2 ^ 8)%N
                     ltac:(vm_compute; reflexivity) a b) as Hs.
  apply N.ltb_lt, Hs.
Qed.

Lemma b_xor_inj_l h a b : b_xor h a = b_xor h b -> a = b.
Proof.
  intros H. apply (f_equal Byte.to_N) in H. rewrite !b_xor_to_N in H. apply to_N_inj.
  apply (f_equal (N.lxor (Byte.to_N h))) in H.
  rewrite <- !N.lxor_assoc, N.lxor_nilpotent, !N.lxor_0_l in H. exact H.
Qed.

Lemma b_xor_inj_r h a b : b_xor a h = b_xor b h -> a = b.
Proof.
  intros H. apply (f_equal Byte.to_N) in H. rewrite !b_xor_to_N in H. apply to_N_inj.
  apply (f_equal (fun x => N.lxor x (Byte.to_N h))) in H.
  rewrite !N.lxor_assoc, N.lxor_nilpotent, !N.lxor_0_r in H. exact H.
Qed.

Definition pearson_step (hash b : byte) : byte := pearson_perm (b_xor hash b).

Lemma pearson_fold_inj l h1 h2 :
  fold_left pearson_step l h1 = fold_left pearson_step l h2 -> h1 = h2.
Proof.
  revert h1 h2; induction l as [|b l IH]; cbn [fold_left]; intros h1 h2 H; [exact H|].
  apply IH in H. apply pearson_perm_inj in H. eapply b_xor_inj_r; exact H.
Qed.

Lemma pearson_virtual_inj l v1 v2 : pearson_hash l v1 = pearson_hash l v2 -> v1 = v2.
Proof. intros H. apply pearson_fold_inj in H. apply pearson_perm_inj, H. Qed.

Lemma pearson_hash_app l1 l2 v :
  pearson_hash (l1 ++ l2) v = fold_left pearson_step l2 (pearson_hash l1 v).
Proof. apply fold_left_app. Qed.

Lemma pearson_single l1 a b l2 v :
  a <> b -> pearson_hash (l1 ++ a :: l2) v <> pearson_hash (l1 ++ b :: l2) v.
Proof.
  intros Hab H. rewrite !pearson_hash_app in H. cbn [fold_left] in H.
  apply pearson_fold_inj in H. apply pearson_perm_inj in H. apply b_xor_inj_l in H. exact (Hab H).
Qed.
