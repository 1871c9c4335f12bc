(** Base64: proofs. *)
From Verif Require Import M_Base M_Base64 P_Base S_Codec P_Codec S_Base64.
From Coq Require Import ZArith ZifyBool ZifyNat ZifyN.
Ltac Zify.zify_post_hook ::= Z.div_mod_to_equations.

Definition sym64 (c : byte) (v : N) : Prop :=
  (v < 64)%N /\ nth_error alphabet64 (N.to_nat v) = Some c.

(** * Tables *)

Lemma b64_val_spec c x : b64_val c = Some x <-> sym64 c (Byte.to_N x).
Proof.
  unfold sym64. fold (b_nat x). split.
  - intros H.
    pose proof (sweep1 (fun c => match b64_val c with
       | Some x => (Byte.to_N x <? 64)%N && match nth_error alphabet64 (b_nat x) with
                                            | Some d => Byte.eqb d c | None => false end
       | None => true end) ltac:(vm_compute; reflexivity) c) as Hs.
    cbn beta in Hs. rewrite H in Hs. apply andb_true_iff in Hs. destruct Hs as [H1 H2].
    apply N.ltb_lt in H1. split; [exact H1|].
    destruct (nth_error alphabet64 (b_nat x)) as [d|]; [|discriminate].
    apply eqb_eq in H2. congruence.
  - intros [Hx Hc].
    pose proof (sweep_below 64 (fun x => match nth_error alphabet64 (b_nat x) with
       | Some c => match b64_val c with Some y => Byte.eqb y x | None => false end
       | None => true end) ltac:(vm_compute; reflexivity) x) as Hs.
    cbn beta in Hs. rewrite Hc in Hs.
    destruct (b64_val c) as [y|].
    + f_equal. apply eqb_eq, Hs. unfold b_nat. lia.
    + exfalso. assert (b_nat x < 64) as Hlt by (unfold b_nat; lia). specialize (Hs Hlt). discriminate.
Qed.

Lemma sym64_fun c v1 v2 : sym64 c v1 -> sym64 c v2 -> v1 = v2.
Proof.
  intros H1 H2.
  assert (forall v, sym64 c v -> b64_val c = Some (u8 v)) as Hv.
  { intros v [Hv Hn]. apply b64_val_spec. rewrite to_N_u8, N.mod_small by lia. split; assumption. }
  pose proof (Hv _ H1) as E1. pose proof (Hv _ H2) as E2. rewrite E1 in E2.
  injection E2 as E2. apply (f_equal Byte.to_N) in E2. rewrite !to_N_u8 in E2.
  destruct H1, H2. rewrite !N.mod_small in E2 by lia. exact E2.
Qed.

Lemma sym64_val c v : sym64 c v -> b64_val c = Some (u8 v).
Proof.
  intros [Hv Hn]. apply b64_val_spec. rewrite to_N_u8, N.mod_small by lia. split; assumption.
Qed.

Lemma sym64_not c v : sym64 c v -> c <> "="%byte /\ c <> "_"%byte /\ c <> ":"%byte /\ c <> x00.
Proof.
  intros H. apply sym64_val in H.
  pose proof (sweep1 (fun c => match b64_val c with
     | Some _ => negb (Byte.eqb c "=") && negb (Byte.eqb c "_") && negb (Byte.eqb c ":") &&
                 negb (Byte.eqb c x00)
     | None => true end) ltac:(vm_compute; reflexivity) c) as Hs.
  cbn beta in Hs. rewrite H in Hs. rewrite !andb_true_iff, !negb_true_iff, !eqb_neq in Hs. tauto.
Qed.

Lemma b64_sym_ok i : (Byte.to_N i < 64)%N -> sym64 (b64_sym i) (Byte.to_N i).
Proof.
  intros Hi. split; [exact Hi|]. unfold b64_sym. fold (b_nat i).
  change BASE64_ALPHABET with alphabet64. apply nth_error_nth'. change (length alphabet64) with 64.
  unfold b_nat. lia.
Qed.

Lemma val_lt c x : b64_val c = Some x -> b_nat x < 64.
Proof. intros H. apply b64_val_spec in H. destruct H as [H _]. unfold b_nat. lia. Qed.

(** * Groups *)

Local Notation bit b i := (N.testbit (Byte.to_N b) i).

Definition sym_bits (e : byte) (l : list bool) : bool :=
  (Byte.to_N e <? 64)%N && bools_eqb (bits 6 (Byte.to_N e)) l.

Lemma sym_bits_spec e l : sym_bits e l = true -> (Byte.to_N e < 64)%N /\ bits 6 (Byte.to_N e) = l.
Proof.
  unfold sym_bits. rewrite andb_true_iff. intros [H1 H2].
  split; [apply N.ltb_lt, H1|apply bools_eqb_eq, H2].
Qed.

Lemma enc1 a : sym_bits (b_shr a 2) [bit a 7; bit a 6; bit a 5; bit a 4; bit a 3; bit a 2] = true.
Proof.
  exact (sweep1 (fun a => sym_bits (b_shr a 2) [bit a 7; bit a 6; bit a 5; bit a 4; bit a 3; bit a 2])
                ltac:(vm_compute; reflexivity) a).
Qed.

Lemma enc2 a b : sym_bits (b_or (b_shl (b_and a x03) 4) (b_shr b 4))
  [bit a 1; bit a 0; bit b 7; bit b 6; bit b 5; bit b 4] = true.
Proof.
  exact (sweep2 (fun a b => sym_bits (b_or (b_shl (b_and a x03) 4) (b_shr b 4))
    [bit a 1; bit a 0; bit b 7; bit b 6; bit b 5; bit b 4]) ltac:(vm_compute; reflexivity) a b).
Qed.

Lemma enc2' a : sym_bits (b_shl (b_and a x03) 4) [bit a 1; bit a 0; false; false; false; false] = true.
Proof.
  exact (sweep1 (fun a => sym_bits (b_shl (b_and a x03) 4) [bit a 1; bit a 0; false; false; false; false])
                ltac:(vm_compute; reflexivity) a).
Qed.

Lemma enc3 a b : sym_bits (b_or (b_shl (b_and a x0f) 2) (b_shr b 6))
  [bit a 3; bit a 2; bit a 1; bit a 0; bit b 7; bit b 6] = true.
Proof.
  exact (sweep2 (fun a b => sym_bits (b_or (b_shl (b_and a x0f) 2) (b_shr b 6))
    [bit a 3; bit a 2; bit a 1; bit a 0; bit b 7; bit b 6]) ltac:(vm_compute; reflexivity) a b).
Qed.

Lemma enc3' a : sym_bits (b_shl (b_and a x0f) 2) [bit a 3; bit a 2; bit a 1; bit a 0; false; false] = true.
Proof.
  exact (sweep1 (fun a => sym_bits (b_shl (b_and a x0f) 2) [bit a 3; bit a 2; bit a 1; bit a 0; false; false])
                ltac:(vm_compute; reflexivity) a).
Qed.

Lemma enc4 a : sym_bits (b_and a x3f) [bit a 5; bit a 4; bit a 3; bit a 2; bit a 1; bit a 0] = true.
Proof.
  exact (sweep1 (fun a => sym_bits (b_and a x3f) [bit a 5; bit a 4; bit a 3; bit a 2; bit a 1; bit a 0])
                ltac:(vm_compute; reflexivity) a).
Qed.

Lemma dec1 x y : b_nat x < 64 -> b_nat y < 64 ->
  bits 8 (Byte.to_N (b_or (b_shl x 2) (b_shr y 4))) =
  [bit x 5; bit x 4; bit x 3; bit x 2; bit x 1; bit x 0; bit y 5; bit y 4].
Proof.
  intros Hx Hy. apply bools_eqb_eq.
  exact (sweep_below2 64 (fun x y => bools_eqb (bits 8 (Byte.to_N (b_or (b_shl x 2) (b_shr y 4))))
    [bit x 5; bit x 4; bit x 3; bit x 2; bit x 1; bit x 0; bit y 5; bit y 4])
    ltac:(vm_compute; reflexivity) x y Hx Hy).
Qed.

Lemma dec2 x y : b_nat x < 64 -> b_nat y < 64 ->
  bits 8 (Byte.to_N (b_or (b_shl x 4) (b_shr y 2))) =
  [bit x 3; bit x 2; bit x 1; bit x 0; bit y 5; bit y 4; bit y 3; bit y 2].
Proof.
  intros Hx Hy. apply bools_eqb_eq.
  exact (sweep_below2 64 (fun x y => bools_eqb (bits 8 (Byte.to_N (b_or (b_shl x 4) (b_shr y 2))))
    [bit x 3; bit x 2; bit x 1; bit x 0; bit y 5; bit y 4; bit y 3; bit y 2])
    ltac:(vm_compute; reflexivity) x y Hx Hy).
Qed.

Lemma dec3 x y : b_nat x < 64 -> b_nat y < 64 ->
  bits 8 (Byte.to_N (b_or (b_shl x 6) y)) =
  [bit x 1; bit x 0; bit y 5; bit y 4; bit y 3; bit y 2; bit y 1; bit y 0].
Proof.
  intros Hx Hy. apply bools_eqb_eq.
  exact (sweep_below2 64 (fun x y => bools_eqb (bits 8 (Byte.to_N (b_or (b_shl x 6) y)))
    [bit x 1; bit x 0; bit y 5; bit y 4; bit y 3; bit y 2; bit y 1; bit y 0])
    ltac:(vm_compute; reflexivity) x y Hx Hy).
Qed.

Lemma tail4_zero y : b_nat y < 64 ->
  Byte.eqb (b_and y x0f) x00 = true <-> [bit y 3; bit y 2; bit y 1; bit y 0] = repeat false 4.
Proof.
  intros Hy. pose proof (sweep_below 64 (fun y => Bool.eqb (Byte.eqb (b_and y x0f) x00)
    (bools_eqb [bit y 3; bit y 2; bit y 1; bit y 0] (repeat false 4)))
    ltac:(vm_compute; reflexivity) y Hy) as H.
  cbn beta in H. apply eqb_prop in H. rewrite H. split; [apply bools_eqb_eq|].
  intros ->. reflexivity.
Qed.

Lemma tail2_zero y : b_nat y < 64 ->
  Byte.eqb (b_and y x03) x00 = true <-> [bit y 1; bit y 0] = repeat false 2.
Proof.
  intros Hy. pose proof (sweep_below 64 (fun y => Bool.eqb (Byte.eqb (b_and y x03) x00)
    (bools_eqb [bit y 1; bit y 0] (repeat false 2)))
    ltac:(vm_compute; reflexivity) y Hy) as H.
  cbn beta in H. apply eqb_prop in H. rewrite H. split; [apply bools_eqb_eq|].
  intros ->. reflexivity.
Qed.

Lemma bits6 x : bits 6 (Byte.to_N x) = [bit x 5; bit x 4; bit x 3; bit x 2; bit x 1; bit x 0].
Proof. reflexivity. Qed.

(** * Lengths and uniqueness *)

Lemma length_flat_bits6 vs : length (flat_map (bits 6) vs) = 6 * length vs.
Proof.
  induction vs as [|v vs IH]; cbn [flat_map length]; [reflexivity|].
  rewrite app_length, IH, length_bits. lia.
Qed.

Lemma text_cons_quad a b c d va vb vc vd t data1 data2 pads slack :
  sym64 a va -> sym64 b vb -> sym64 c vc -> sym64 d vd ->
  flat_map (bits 6) [va; vb; vc; vd] = byte_bits data1 ->
  base64_text data2 t pads slack ->
  base64_text (data1 ++ data2) (a :: b :: c :: d :: t) pads slack.
Proof.
  intros Ha Hb Hc Hd Hbits (vs & (syms & -> & Hf) & Hb2 & Hs).
  exists (va :: vb :: vc :: vd :: vs). split.
  - exists (a :: b :: c :: d :: syms). split; [reflexivity|]. repeat (constructor; [assumption|]). exact Hf.
  - split; [|exact Hs]. rewrite byte_bits_app, <- Hbits, <- app_assoc, <- Hb2.
    cbn [flat_map]. rewrite !app_nil_r, <- !app_assoc. reflexivity.
Qed.

(** * Encoder *)

Lemma b64_encode_spec data : base64_canonical data (b64_encode data).
Proof.
  remember (length data) as n eqn:Hn. revert data Hn.
  induction n as [n IH] using lt_wf_ind; intros data Hn.
  destruct data as [|a [|b [|c r]]]; cbn [b64_encode].
  - exists 0, []. split; [exists []; split; [reflexivity|constructor]|]. split; [reflexivity|lia].
  - pose proof (sym_bits_spec _ _ (enc1 a)) as [L1 B1].
    pose proof (sym_bits_spec _ _ (enc2' a)) as [L2 B2].
    exists 2. eexists [_; _]. split.
    + exists [b64_sym (b_shr a 2); b64_sym (b_shl (b_and a x03) 4)]. split; [reflexivity|].
      constructor; [apply b64_sym_ok; exact L1|]. constructor; [apply b64_sym_ok; exact L2|]. constructor.
    + split; [|lia]. cbn [flat_map]. rewrite B1, B2. reflexivity.
  - pose proof (sym_bits_spec _ _ (enc1 a)) as [L1 B1].
    pose proof (sym_bits_spec _ _ (enc2 a b)) as [L2 B2].
    pose proof (sym_bits_spec _ _ (enc3' b)) as [L3 B3].
    exists 1. eexists [_; _; _]. split.
    + exists [b64_sym (b_shr a 2); b64_sym (b_or (b_shl (b_and a x03) 4) (b_shr b 4));
              b64_sym (b_shl (b_and b x0f) 2)]. split; [reflexivity|].
      constructor; [apply b64_sym_ok; exact L1|]. constructor; [apply b64_sym_ok; exact L2|].
      constructor; [apply b64_sym_ok; exact L3|]. constructor.
    + split; [|lia]. cbn [flat_map]. rewrite B1, B2, B3. reflexivity.
  - pose proof (sym_bits_spec _ _ (enc1 a)) as [L1 B1].
    pose proof (sym_bits_spec _ _ (enc2 a b)) as [L2 B2].
    pose proof (sym_bits_spec _ _ (enc3 b c)) as [L3 B3].
    pose proof (sym_bits_spec _ _ (enc4 c)) as [L4 B4].
    destruct (IH (length r)) with (data := r) as [pads Ht]; [cbn in Hn; lia|reflexivity|].
    exists pads. change (a :: b :: c :: r) with ([a; b; c] ++ r).
    eapply text_cons_quad; try (apply b64_sym_ok; assumption); [|exact Ht].
    cbn [flat_map]. rewrite B1, B2, B3, B4. reflexivity.
Qed.

(** * Decoder *)

Lemma quad_sound a b c d data : b64_quad a b c d = Some data ->
  exists va vb vc vd, sym64 a va /\ sym64 b vb /\ sym64 c vc /\ sym64 d vd /\
    flat_map (bits 6) [va; vb; vc; vd] = byte_bits data.
Proof.
  unfold b64_quad. destruct (b64_val a) as [x|] eqn:Ea; [|discriminate].
  destruct (b64_val b) as [y|] eqn:Eb; [|discriminate].
  destruct (b64_val c) as [z|] eqn:Ec; [|discriminate].
  destruct (b64_val d) as [w|] eqn:Ed; [|discriminate].
  intros [= <-]. exists (Byte.to_N x), (Byte.to_N y), (Byte.to_N z), (Byte.to_N w).
  repeat (split; [apply b64_val_spec; assumption|]).
  unfold byte_bits. cbn [flat_map].
  rewrite dec1, dec2, dec3 by (eapply val_lt; eassumption). reflexivity.
Qed.

Lemma tail2_sound a b data pads : pads <= 2 -> b64_tail2 a b = Some data ->
  base64_text data ([a; b] ++ repeat "="%byte pads) pads 4.
Proof.
  intros Hp. unfold b64_tail2. destruct (b64_val a) as [x|] eqn:Ea; [|discriminate].
  destruct (b64_val b) as [y|] eqn:Eb; [|discriminate].
  destruct (Byte.eqb (b_and y x0f) x00) eqn:E; [|discriminate]. intros [= <-].
  apply tail4_zero in E; [|eapply val_lt; eassumption].
  exists [Byte.to_N x; Byte.to_N y]. split.
  - exists [a; b]. split; [reflexivity|].
    constructor; [apply b64_val_spec, Ea|]. constructor; [apply b64_val_spec, Eb|]. constructor.
  - split; [|lia]. unfold byte_bits. cbn [flat_map]. rewrite dec1 by (eapply val_lt; eassumption).
    rewrite !bits6, <- E. reflexivity.
Qed.

Lemma tail3_sound a b c data pads : pads <= 1 -> b64_tail3 a b c = Some data ->
  base64_text data ([a; b; c] ++ repeat "="%byte pads) pads 2.
Proof.
  intros Hp. unfold b64_tail3. destruct (b64_val a) as [x|] eqn:Ea; [|discriminate].
  destruct (b64_val b) as [y|] eqn:Eb; [|discriminate].
  destruct (b64_val c) as [z|] eqn:Ec; [|discriminate].
  destruct (Byte.eqb (b_and z x03) x00) eqn:E; [|discriminate]. intros [= <-].
  apply tail2_zero in E; [|eapply val_lt; eassumption].
  exists [Byte.to_N x; Byte.to_N y; Byte.to_N z]. split.
  - exists [a; b; c]. split; [reflexivity|].
    constructor; [apply b64_val_spec, Ea|]. constructor; [apply b64_val_spec, Eb|].
    constructor; [apply b64_val_spec, Ec|]. constructor.
  - split; [|lia]. unfold byte_bits. cbn [flat_map].
    rewrite dec1, dec2 by (eapply val_lt; eassumption). rewrite !bits6, <- E. reflexivity.
Qed.

Lemma b64_decode_sound text data : b64_decode text = Some data -> base64_accepted data text.
Proof.
  remember (length text) as n eqn:Hn. revert text data Hn.
  induction n as [n IH] using lt_wf_ind; intros text data Hn.
  destruct text as [|a [|b [|c [|d rest]]]]; cbn [b64_decode].
  - intros [= <-]. exists 0, 0. split; [|lia]. exists [].
    split; [exists []; split; [reflexivity|constructor]|]. split; [reflexivity|lia].
  - discriminate.
  - intros H. exists 0, 4. split; [|lia]. apply (tail2_sound a b data 0); [lia|exact H].
  - destruct (Byte.eqb c b64_pad) eqn:E.
    + apply eqb_eq in E. subst c. intros H. exists 1, 4. split; [|lia].
      apply (tail2_sound a b data 1); [lia|exact H].
    + intros H. exists 0, 2. split; [|lia]. apply (tail3_sound a b c data 0); [lia|exact H].
  - destruct rest as [|e rest].
    + destruct (Byte.eqb d b64_pad) eqn:Ed.
      * apply eqb_eq in Ed. subst d. destruct (Byte.eqb c b64_pad) eqn:Ec.
        -- apply eqb_eq in Ec. subst c. intros H. exists 2, 4. split; [|lia].
           apply (tail2_sound a b data 2); [lia|exact H].
        -- intros H. exists 1, 2. split; [|lia]. apply (tail3_sound a b c data 1); [lia|exact H].
      * intros H. exists 0, 0. split; [|lia].
        destruct (quad_sound _ _ _ _ _ H) as (va & vb & vc & vd & Ha & Hb & Hc & Hd & Hbits).
        rewrite <- (app_nil_r data). eapply text_cons_quad; try eassumption.
        exists []. split; [exists []; split; [reflexivity|constructor]|]. split; [reflexivity|lia].
    + destruct (b64_quad a b c d) as [x|] eqn:Eq; [|discriminate].
      destruct (b64_decode (e :: rest)) as [y|] eqn:Er; [|discriminate]. intros [= <-].
      destruct (quad_sound _ _ _ _ _ Eq) as (va & vb & vc & vd & Ha & Hb & Hc & Hd & Hbits).
      destruct (IH (length (e :: rest))) with (text := e :: rest) (data := y)
        as (pads & slack & Ht & Hle); [cbn in *; lia|reflexivity|exact Er|].
      exists pads, slack. split; [|exact Hle]. eapply text_cons_quad; eassumption.
Qed.

Lemma split_pads syms1 syms2 vs1 vs2 p1 p2 :
  Forall2 sym64 syms1 vs1 -> Forall2 sym64 syms2 vs2 ->
  syms1 ++ repeat "="%byte p1 = syms2 ++ repeat "="%byte p2 -> syms1 = syms2 /\ p1 = p2.
Proof.
  intros H1. revert syms2 vs2. induction H1 as [|c v s1 v1 Hc _ IH]; intros syms2 vs2 H2 E.
  - destruct H2 as [|c v s2 v2 Hc _].
    + split; [reflexivity|]. apply (f_equal (@length byte)) in E. cbn [app] in E.
      rewrite !repeat_length in E. exact E.
    + exfalso. destruct p1; [discriminate|]. cbn in E. injection E as E _.
      apply sym64_not in Hc. destruct Hc as [Hc _]. congruence.
  - destruct H2 as [|c2 v2' s2 v2 Hc2 H2].
    + exfalso. destruct p2; [discriminate|]. cbn in E. injection E as E _.
      apply sym64_not in Hc. destruct Hc as [Hc _]. congruence.
    + cbn in E. injection E as -> E. destruct (IH _ _ H2 E) as [-> ->]. split; reflexivity.
Qed.

Lemma base64_text_fun_data d1 d2 text p1 p2 s1 s2 :
  base64_text d1 text p1 s1 -> base64_text d2 text p2 s2 -> d1 = d2 /\ p1 = p2 /\ s1 = s2.
Proof.
  intros (v1 & (y1 & -> & F1) & B1 & L1) (v2 & (y2 & E & F2) & B2 & L2).
  destruct (split_pads _ _ _ _ _ _ F1 F2 E) as [-> ->].
  assert (v1 = v2) as ->.
  { clear - F1 F2. revert v2 F2. induction F1 as [|c v ? ? Hv _ IH]; intros v2 F2; inversion F2; subst.
    - reflexivity.
    - f_equal; [eapply sym64_fun; eassumption|apply IH; assumption]. }
  rewrite B1 in B2.
  pose proof (f_equal (@length bool) B2) as Hl. rewrite !app_length, !repeat_length, !length_byte_bits in Hl.
  assert (s1 = s2) as -> by lia.
  apply app_inv_tail in B2. apply byte_bits_inj in B2. auto.
Qed.

Lemma bits6_last_zero v k : (v < 64)%N -> skipn (6 - k) (bits 6 v) = repeat false k ->
  skipn (6 - k) (bits 6 (Byte.to_N (u8 v))) = repeat false k.
Proof. intros Hv H. rewrite to_N_u8, N.mod_small by lia. exact H. Qed.

Lemma val_u8 c v : sym64 c v -> b64_val c = Some (u8 v) /\ b_nat (u8 v) < 64 /\
                                bits 6 (Byte.to_N (u8 v)) = bits 6 v.
Proof.
  intros H. split; [apply sym64_val, H|]. destruct H as [H _].
  unfold b_nat. rewrite to_N_u8, N.mod_small by lia. split; [lia|reflexivity].
Qed.

Lemma is_some_decode_complete data text pads slack :
  base64_text data text pads slack -> 2 * pads <= slack -> b64_decode text <> None.
Proof.
  intros (vs & (syms & -> & F) & B & L) Hle.
  remember (length syms) as n eqn:Hn. revert syms vs data Hn F B.
  induction n as [n IH] using lt_wf_ind; intros syms vs data Hn F B.
  pose proof (f_equal (@length bool) B) as Hl.
  rewrite length_flat_bits6, app_length, repeat_length, length_byte_bits in Hl.
  destruct F as [|a va s1 v1 Ha F].
  { cbn in Hl. assert (pads = 0) as -> by lia. cbn. discriminate. }
  destruct F as [|b vb s2 v2 Hb F]; [cbn in Hl; exfalso; lia|].
  destruct F as [|c vc s3 v3 Hc F].
  { cbn [length] in Hl. assert (length data = 1 /\ slack = 4) as [Hd ->] by lia.
    destruct data as [|d0 [|? ?]]; try discriminate Hd.
    destruct (val_u8 _ _ Ha) as (Ea & La & Ba). destruct (val_u8 _ _ Hb) as (Eb & Lb & Bb).
    assert (b64_tail2 a b <> None) as Ht.
    { unfold b64_tail2. rewrite Ea, Eb.
      assert (Byte.eqb (b_and (u8 vb) x0f) x00 = true) as ->; [|discriminate].
      apply tail4_zero; [exact Lb|]. cbn [flat_map] in B. rewrite app_nil_r in B.
      apply (f_equal (skipn 8)) in B. change (skipn 8 (bits 6 va ++ bits 6 vb)) with (skipn 2 (bits 6 vb)) in B.
      rewrite <- Bb in B. exact B. }
    destruct pads as [|[|[|pads]]]; [exact Ht|exact Ht|exact Ht|exfalso; lia]. }
  destruct F as [|d vd s4 v4 Hd F].
  { cbn [length] in Hl. assert (length data = 2 /\ slack = 2) as [Hd ->] by lia.
    destruct data as [|d0 [|d1 [|? ?]]]; try discriminate Hd.
    destruct (val_u8 _ _ Ha) as (Ea & La & Ba). destruct (val_u8 _ _ Hb) as (Eb & Lb & Bb).
    destruct (val_u8 _ _ Hc) as (Ec & Lc & Bc).
    assert (b64_tail3 a b c <> None) as Ht.
    { unfold b64_tail3. rewrite Ea, Eb, Ec.
      assert (Byte.eqb (b_and (u8 vc) x03) x00 = true) as ->; [|discriminate].
      apply tail2_zero; [exact Lc|]. cbn [flat_map] in B. rewrite app_nil_r in B.
      apply (f_equal (skipn 16)) in B.
      change (skipn 16 (bits 6 va ++ bits 6 vb ++ bits 6 vc)) with (skipn 4 (bits 6 vc)) in B.
      rewrite <- Bc in B. exact B. }
    assert (Byte.eqb c b64_pad = false) as Hcp by (apply eqb_neq; apply sym64_not in Hc; apply Hc).
    destruct pads as [|[|pads]]; [| |exfalso; lia]; cbn; rewrite Hcp; exact Ht. }
  destruct (val_u8 _ _ Ha) as (Ea & La & Ba). destruct (val_u8 _ _ Hb) as (Eb & Lb & Bb).
  destruct (val_u8 _ _ Hc) as (Ec & Lc & Bc). destruct (val_u8 _ _ Hd) as (Ed & Ld & Bd).
  assert (exists q, b64_quad a b c d = Some q) as [q Hq].
  { unfold b64_quad. rewrite Ea, Eb, Ec, Ed. eexists; reflexivity. }
  assert (Byte.eqb d b64_pad = false) as Hdp by (apply eqb_neq; apply sym64_not in Hd; apply Hd).
  cbn [app b64_decode]. destruct (s4 ++ repeat "="%byte pads) as [|e rest] eqn:E.
  { rewrite Hdp, Hq. discriminate. }
  rewrite Hq.
  destruct data as [|d0 [|d1 [|d2 data]]]; [exfalso; cbn in Hl; lia..|].
  assert (flat_map (bits 6) v4 = byte_bits data ++ repeat false slack) as B4.
  { apply (f_equal (skipn 24)) in B. exact B. }
  assert (b64_decode (s4 ++ repeat "="%byte pads) <> None) as Hr.
  { eapply (IH (length s4)); [cbn in Hn; lia|reflexivity|exact F|exact B4]. }
  rewrite E in Hr. destruct (b64_decode (e :: rest)); [discriminate|contradiction].
Qed.

Lemma b64_decode_spec text data : b64_decode text = Some data <-> base64_accepted data text.
Proof.
  split; [apply b64_decode_sound|].
  intros (pads & slack & Ht & Hle).
  destruct (b64_decode text) as [d|] eqn:E.
  - apply b64_decode_sound in E. destruct E as (p2 & s2 & Ht2 & _).
    destruct (base64_text_fun_data _ _ _ _ _ _ _ Ht Ht2) as [-> _]. reflexivity.
  - exfalso. exact (is_some_decode_complete _ _ _ _ Ht Hle E).
Qed.

Lemma canonical_accepted data text : base64_canonical data text -> base64_accepted data text.
Proof. intros [pads H]. exists pads, (2 * pads). split; [exact H|lia]. Qed.

Lemma b64_roundtrip data : b64_decode (b64_encode data) = Some data.
Proof. apply b64_decode_spec, canonical_accepted, b64_encode_spec. Qed.

Lemma b64_encode_inj a b : b64_encode a = b64_encode b -> a = b.
Proof.
  intros H. pose proof (b64_roundtrip a) as Ha. rewrite H, b64_roundtrip in Ha. congruence.
Qed.

Lemma b64_encode_chars data c : In c (b64_encode data) -> c = "="%byte \/ In c alphabet64.
Proof.
  destruct (b64_encode_spec data) as (pads & vs & (syms & -> & F) & _).
  rewrite in_app_iff. intros [H|H].
  - right. clear - F H. induction F as [|d v s v' [_ Hd] _ IH]; [destruct H|].
    destruct H as [->|H]; [eapply nth_error_In; exact Hd|apply IH, H].
  - left. apply repeat_spec in H. exact H.
Qed.

Lemma b64_encode_no data c :
  c = "_"%byte \/ c = ":"%byte \/ c = x00 -> ~ In c (b64_encode data).
Proof.
  intros Hc H. apply b64_encode_chars in H. destruct H as [H|H].
  - destruct Hc as [->|[->| ->]]; discriminate.
  - assert (contains_byte c alphabet64 = true) as Ht by (apply contains_byte_spec; exact H).
    destruct Hc as [->|[->| ->]]; vm_compute in Ht; discriminate.
Qed.

Lemma b64_encode_length data : length (b64_encode data) = 4 * ((length data + 2) / 3).
Proof.
  remember (length data) as n eqn:Hn. revert data Hn.
  induction n as [n IH] using lt_wf_ind; intros data Hn.
  destruct data as [|a [|b [|c r]]]; cbn [b64_encode length] in *; subst n; try reflexivity.
  rewrite (IH (length r)) by (reflexivity || lia).
  replace (S (S (S (length r))) + 2) with ((length r + 2) + 1 * 3) by lia.
  rewrite Nat.div_add by lia. lia.
Qed.
