(** Validation of recovery codes: proofs. *)
From Verif Require Import M_Base M_Codec M_Prims M_Recovery P_Base S_Codec P_Codec S_Recovery P_Format P_Lines.
From Coq Require Import ZArith ZifyBool ZifyNat ZifyN.
Ltac Zify.zify_post_hook ::= Z.div_mod_to_equations.

(** * Splitting texts *)

Lemma base32_text_split d t1 t2 :
  base32_text d (t1 ++ t2) -> length t1 mod 8 = 0 ->
  exists d1 d2, d = d1 ++ d2 /\ base32_text d1 t1 /\ base32_text d2 t2.
Proof.
  intros H Hm. pose proof (base32_text_alphabet _ _ H) as Ha. apply Forall_app in Ha.
  destruct Ha as [A1 A2]. pose proof (base32_text_mod _ _ H) as [_ Hm2]. rewrite app_length in Hm2.
  destruct (base32_decode_ok t1 Hm A1) as (d1 & _ & T1).
  destruct (base32_decode_ok t2) as (d2 & _ & T2); [lia|exact A2|].
  exists d1, d2. split; [|split; assumption].
  eapply base32_text_fun_data; [exact H|]. apply base32_text_app; assumption.
Qed.

Lemma base32_text_group d t :
  base32_text d t -> length t = 8 ->
  base32_decode_chunk (map base32_lookup t) = Ok d /\ Forall (fun i => b_nat i < 32) (map base32_lookup t).
Proof.
  intros H Hl. pose proof (base32_text_alphabet _ _ H) as Ha.
  assert (Forall (fun i => b_nat i < 32) (map base32_lookup t)) as Hf.
  { apply Forall_map. eapply Forall_impl; [|exact Ha]. cbn beta. intros c Hc.
    apply base32_invalid_spec, alphabet_lookup in Hc. unfold b_nat. lia. }
  split; [|exact Hf]. apply base32_decode_spec in H. unfold base32_decode in H.
  rewrite Hl in H. cbn [Nat.modulo Nat.divmod fst snd Nat.sub Nat.eqb negb] in H.
  destruct (existsb base32_invalid t); [discriminate|].
  assert (chunks 8 (map base32_lookup t) = [map base32_lookup t]) as E.
  { rewrite <- (app_nil_r (map base32_lookup t)) at 1.
    rewrite chunks_app by (rewrite ?map_length; lia). reflexivity. }
  rewrite E in H. cbn [mapM] in H.
  destruct (base32_decode_chunk (map base32_lookup t)) as [o| |]; cbn [bind] in H; try discriminate.
  cbn [concat] in H. rewrite app_nil_r in H. exact H.
Qed.

Lemma lookup_inj c c' : inA c -> inA c' -> base32_lookup c = base32_lookup c' -> c = c'.
Proof.
  intros H H' E. apply base32_invalid_spec, alphabet_lookup in H.
  apply base32_invalid_spec, alphabet_lookup in H'. destruct H as [_ H], H' as [_ H'].
  rewrite E in H. congruence.
Qed.

Lemma split_at_multiple (n : nat) (a b : bytes) c :
  0 < n -> length (a ++ c :: b) mod n = 0 ->
  exists a1 a2 b2 b1, a = a1 ++ a2 /\ b = b2 ++ b1 /\ length a1 mod n = 0 /\
                      length (a2 ++ c :: b2) = n /\ length b1 mod n = 0.
Proof.
  intros Hn Hm. rewrite app_length in Hm. cbn [length] in Hm.
  set (q := length a / n). set (r := length a mod n).
  pose proof (Nat.div_mod (length a) n ltac:(lia)) as Hdm. fold q r in Hdm.
  pose proof (Nat.mod_upper_bound (length a) n ltac:(lia)) as Hr. fold r in Hr.
  assert (n - S r <= length b) as Hb.
  { apply Nat.mod_divides in Hm; [|lia]. destruct Hm as [k Hk].
    assert (n * q + r + S (length b) = n * k) as Hk' by lia.
    assert (k > q) by nia. nia. }
  exists (firstn (n * q) a), (skipn (n * q) a), (firstn (n - S r) b), (skipn (n - S r) b).
  rewrite !firstn_skipn. split; [reflexivity|]. split; [reflexivity|].
  rewrite firstn_length, Nat.min_l by lia. split; [rewrite Nat.mul_comm; apply Nat.mod_mul; lia|].
  split.
  - rewrite app_length, skipn_length. cbn [length]. rewrite firstn_length. lia.
  - rewrite skipn_length. apply Nat.mod_divides in Hm; [|lia]. destruct Hm as [k Hk].
    replace (length b - (n - S r)) with ((k - q - 1) * n) by nia. apply Nat.mod_mul. lia.
Qed.

(** Two texts of one line differing in one symbol cannot both be valid for the same virtual byte. *)
Lemma line_sep a c c' b l l' v :
  length (a ++ c :: b) = 24 -> c <> c' ->
  base32_text l (a ++ c :: b) -> base32_text l' (a ++ c' :: b) ->
  line_valid v l -> line_valid v l' -> False.
Proof.
  intros Hl Hne T T' V V'.
  destruct (split_at_multiple 8 a b c) as (a1 & a2 & b2 & b1 & -> & -> & M1 & M2 & M3);
    [lia|rewrite Hl; reflexivity|].
  pose proof (base32_text_alphabet _ _ T) as A. pose proof (base32_text_alphabet _ _ T') as A'.
  assert (inA c /\ inA c') as [Ac Ac'].
  { apply Forall_app in A, A'. destruct A as [_ A], A' as [_ A']. inversion A; inversion A'; subst. split; assumption. }
  replace ((a1 ++ a2) ++ c :: b2 ++ b1) with (a1 ++ (a2 ++ c :: b2) ++ b1) in T
    by (rewrite <- !app_assoc; reflexivity).
  replace ((a1 ++ a2) ++ c' :: b2 ++ b1) with (a1 ++ (a2 ++ c' :: b2) ++ b1) in T'
    by (rewrite <- !app_assoc; reflexivity).
  assert (length (a2 ++ c' :: b2) = 8) as M2' by (rewrite app_length in *; cbn [length] in *; lia).
  destruct (base32_text_split _ _ _ T M1) as (d1 & r & -> & T1 & Tr).
  destruct (base32_text_split _ _ _ Tr ltac:(rewrite M2; reflexivity)) as (g & d3 & -> & Tg & T3).
  destruct (base32_text_split _ _ _ T' M1) as (d1' & r' & -> & T1' & Tr').
  destruct (base32_text_split _ _ _ Tr' ltac:(rewrite M2'; reflexivity)) as (g' & d3' & -> & Tg' & T3').
  assert (d1' = d1) as -> by (eapply base32_text_fun_data; eassumption).
  assert (d3' = d3) as -> by (eapply base32_text_fun_data; eassumption).
  pose proof (line_valid_length _ _ V) as L. pose proof (line_valid_length _ _ V') as L'.
  apply line_valid_fold in V; [|exact L]. apply line_valid_fold in V'; [|exact L'].
  assert (fold_left pearson_step (d1 ++ g ++ d3) (pearson_perm v) =
          fold_left pearson_step (d1 ++ g' ++ d3) (pearson_perm v)) as E by congruence.
  revert E. apply fold_sep_ctx. intros h.
  destruct (base32_text_group _ _ Tg M2) as [G F]. destruct (base32_text_group _ _ Tg' M2') as [G' F'].
  rewrite map_app in G, G', F, F'. cbn [map] in G, G', F, F'.
  eapply group_sep with (6 := G').
  - rewrite <- (map_length base32_lookup) in M2. rewrite map_app in M2. exact M2.
  - intros E. apply lookup_inj in E; [exact (Hne E)|exact Ac|exact Ac'].
  - exact F.
  - apply Forall_app in F'. destruct F' as [_ F']. inversion F'; subst. assumption.
  - exact G.
Qed.

(** * Characterisation of [validate] *)

Lemma chunk_checksum line v :
  length line = 15 ->
  exists c, idx line BLOCK_SIZE = Ok c /\
            (Byte.eqb c (pearson_hash (firstn BLOCK_SIZE line) v) = true <-> line_valid v line).
Proof.
  intros Hl. destruct (nth_error line 14) as [c|] eqn:E.
  2:{ apply nth_error_None in E. lia. }
  exists c. unfold idx. change BLOCK_SIZE with 14. rewrite E. split; [reflexivity|].
  assert (line = firstn 14 line ++ [c]) as Hs.
  { rewrite <- (firstn_skipn 14 line) at 1. f_equal.
    destruct (skipn 14 line) as [|d [|? ?]] eqn:Es; try (apply (f_equal (@length byte)) in Es;
      rewrite skipn_length in Es; cbn in Es; lia).
    rewrite <- (firstn_skipn 14 line) in E. rewrite Es in E.
    rewrite nth_error_app2 in E by (rewrite firstn_length; lia).
    rewrite firstn_length, Nat.min_l in E by lia. cbn in E. congruence. }
  rewrite eqb_eq. split.
  - intros ->. exists (firstn 14 line). split; [rewrite firstn_length; lia|exact Hs].
  - intros (block & Hb & ->). rewrite firstn_app, Hb in Hs. cbn [Nat.sub firstn] in Hs.
    rewrite firstn_all2 in Hs by lia. rewrite firstn_app, Hb. cbn [Nat.sub firstn].
    rewrite firstn_all2 by lia. rewrite !app_nil_r in *. apply app_inv_head in Hs. congruence.
Qed.

(** Description of the loop over the lines from number [i] on. *)
Definition panics_at (P : prims) (i : nat) : bool := (256 <=? i) && p_overflow_checks P.

Lemma validate_step P i line rest :
  length line = 15 ->
  (panics_at P i = true /\ validate_loop P i (line :: rest) false = Panic) \/
  (panics_at P i = false /\ line_valid (final_byte i) line /\
   validate_loop P i (line :: rest) false = validate_loop P (S i) rest true) \/
  (panics_at P i = false /\ line_valid (nonfinal_byte i) line /\
   validate_loop P i (line :: rest) false = validate_loop P (S i) rest false) \/
  (panics_at P i = false /\ ~ line_valid (final_byte i) line /\ ~ line_valid (nonfinal_byte i) line /\
   validate_loop P i (line :: rest) false = Err (RecoveryCodeChecksumMismatch i)).
Proof.
  intros Hl. cbn [validate_loop].
  destruct (chunk_checksum line (final_byte i) Hl) as (c & Ec & Hf).
  destruct (chunk_checksum line (nonfinal_byte i) Hl) as (c' & Ec' & Hn).
  rewrite Ec in Ec'. injection Ec' as <-. rewrite Ec. cbn [bind].
  rewrite final_virtual_byte_eq. fold (panics_at P i). destruct (panics_at P i); [left; auto|right].
  cbn [bind]. rewrite usize_as_u8_eq.
  destruct (Byte.eqb c (pearson_hash (firstn BLOCK_SIZE line) (final_byte i))).
  - left. split; [reflexivity|]. split; [apply Hf; reflexivity|reflexivity].
  - destruct (Byte.eqb c (pearson_hash (firstn BLOCK_SIZE line) (nonfinal_byte i))); cbn [negb].
    + right. left. split; [reflexivity|]. split; [apply Hn; reflexivity|reflexivity].
    + right. right. split; [reflexivity|].
      split; [intros H; apply Hf in H; discriminate|].
      split; [intros H; apply Hn in H; discriminate|reflexivity].
Qed.

Lemma validate_loop_true P i lines :
  validate_loop P i lines true = Ok (true, match lines with [] => None | _ => Some i end).
Proof. destruct lines; reflexivity. Qed.

(** Lines numbered from [i]: all valid as non-final lines. *)
Fixpoint nonfinal_from (i : nat) (lines : list bytes) : Prop :=
  match lines with
  | [] => True
  | l :: ls => line_valid (nonfinal_byte i) l /\ nonfinal_from (S i) ls
  end.

Lemma nonfinal_from_spec i lines :
  nonfinal_from i lines <-> forall j l, nth_error lines j = Some l -> line_valid (nonfinal_byte (i + j)) l.
Proof.
  revert i; induction lines as [|l ls IH]; intros i; cbn [nonfinal_from].
  - split; [intros _ [|j] l H; discriminate|auto].
  - rewrite IH. split.
    + intros [H1 H2] [|j] l' H; cbn in H.
      * injection H as <-. rewrite Nat.add_0_r. exact H1.
      * apply H2 in H. replace (i + S j) with (S i + j) by lia. exact H.
    + intros H. split.
      * specialize (H 0 l eq_refl). rewrite Nat.add_0_r in H. exact H.
      * intros j l' Hj. specialize (H (S j) l' Hj). replace (S i + j) with (i + S j) by lia. exact H.
Qed.

Lemma nonfinal_length i lines : nonfinal_from i lines -> Forall (fun l => length l = 15) lines.
Proof.
  revert i; induction lines as [|l ls IH]; intros i H; constructor.
  - destruct H as [H _]. eapply line_valid_length; exact H.
  - destruct H as [_ H]. eapply IH; exact H.
Qed.

(** Running over valid non-final lines. *)
Lemma validate_skip P i pre rest :
  nonfinal_from i pre -> (i + length pre <= 256 \/ p_overflow_checks P = false) ->
  validate_loop P i (pre ++ rest) false = validate_loop P (i + length pre) rest false.
Proof.
  revert i; induction pre as [|l ls IH]; intros i Hn Hle; cbn [app length].
  - rewrite Nat.add_0_r. reflexivity.
  - destruct Hn as [Hl Hn]. cbn [length] in Hle.
    destruct (validate_step P i l (ls ++ rest)) as [[Hp _]|[(Hp & Hf & _)|[(Hp & _ & ->)|(_ & _ & Hnn & _)]]].
    + eapply line_valid_length; exact Hl.
    + exfalso. unfold panics_at in Hp. apply andb_true_iff in Hp. destruct Hp as [Hp Ho].
      apply Nat.leb_le in Hp. destruct Hle; [lia|congruence].
    + exfalso. apply (final_neq_nonfinal i). eapply line_valid_virtual_inj; eassumption.
    + rewrite IH; [|exact Hn|destruct Hle; [left; lia|right; assumption]]. f_equal. lia.
    + contradiction.
Qed.

(** Complete description of the loop over 15-byte lines. *)
Inductive loop_outcome (P : prims) (i : nat) (lines : list bytes) : res (bool * option nat) -> Prop :=
| LOpanic : forall pre rest, lines = pre ++ rest -> rest <> [] -> nonfinal_from i pre ->
    256 <= i + length pre -> p_overflow_checks P = true -> loop_outcome P i lines Panic
| LOincomplete : nonfinal_from i lines ->
    loop_outcome P i lines (Ok (false, None))
| LOfinal : forall pre l, lines = pre ++ [l] -> nonfinal_from i pre ->
    line_valid (final_byte (i + length pre)) l ->
    (i + length pre < 256 \/ p_overflow_checks P = false) ->
    loop_outcome P i lines (Ok (true, None))
| LOextra : forall pre l rest, lines = pre ++ l :: rest -> rest <> [] -> nonfinal_from i pre ->
    line_valid (final_byte (i + length pre)) l ->
    loop_outcome P i lines (Ok (true, Some (S (i + length pre))))
| LOmismatch : forall pre l rest, lines = pre ++ l :: rest -> nonfinal_from i pre ->
    ~ line_valid (final_byte (i + length pre)) l -> ~ line_valid (nonfinal_byte (i + length pre)) l ->
    loop_outcome P i lines (Err (RecoveryCodeChecksumMismatch (i + length pre))).

Lemma validate_loop_outcome P i lines :
  Forall (fun l => length l = 15) lines -> loop_outcome P i lines (validate_loop P i lines false).
Proof.
  intros Hf. revert i. induction Hf as [|l ls Hl Hf IH]; intros i.
  - apply LOincomplete. exact I.
  - destruct (validate_step P i l ls Hl) as [(Hp & ->)|[(Hp & Hv & ->)|[(Hp & Hv & ->)|(Hp & Hv1 & Hv2 & ->)]]].
    + unfold panics_at in Hp. apply andb_true_iff in Hp. destruct Hp as [Hp Ho]. apply Nat.leb_le in Hp.
      apply (LOpanic P i (l :: ls) [] (l :: ls)); [reflexivity|discriminate|exact I|cbn; lia|exact Ho].
    + rewrite validate_loop_true. destruct ls as [|l' ls].
      * apply (LOfinal P i [l] [] l); [reflexivity|exact I|cbn; rewrite Nat.add_0_r; exact Hv|].
        unfold panics_at in Hp. apply andb_false_iff in Hp. rewrite Nat.leb_gt in Hp. cbn. rewrite Nat.add_0_r. exact Hp.
      * replace (Some (S i)) with (Some (S (i + length (@nil bytes)))) by (cbn; f_equal; lia).
        apply (LOextra P i (l :: l' :: ls) [] l (l' :: ls)); [reflexivity|discriminate|exact I|].
        cbn. rewrite Nat.add_0_r. exact Hv.
    + specialize (IH (S i)). destruct IH as [pre rest -> Hr Hn Hle Ho|Hn|pre l' -> Hn Hv' Hlt|pre l' rest -> Hr Hn Hv'|pre l' rest -> Hn Hv1 Hv2].
      * apply (LOpanic P i _ (l :: pre) rest); [reflexivity|exact Hr|split; assumption|cbn [length]; lia|exact Ho].
      * apply LOincomplete. split; assumption.
      * apply (LOfinal P i _ (l :: pre) l'); [reflexivity|split; assumption| |].
        -- cbn [length]. replace (i + S (length pre)) with (S i + length pre) by lia. exact Hv'.
        -- cbn [length]. replace (i + S (length pre)) with (S i + length pre) by lia. exact Hlt.
      * replace (S (S i + length pre)) with (S (i + length (l :: pre))) by (cbn [length]; lia).
        apply (LOextra P i _ (l :: pre) l' rest); [reflexivity|exact Hr|split; assumption|].
        cbn [length]. replace (i + S (length pre)) with (S i + length pre) by lia. exact Hv'.
      * replace (S i + length pre) with (i + length (l :: pre)) in * by (cbn [length]; lia).
        apply (LOmismatch P i _ (l :: pre) l' rest); [reflexivity|split; assumption|exact Hv1|exact Hv2].
    + replace (RecoveryCodeChecksumMismatch i) with (RecoveryCodeChecksumMismatch (i + length (@nil bytes)))
        by (cbn [length]; rewrite Nat.add_0_r; reflexivity).
      apply (LOmismatch P i (l :: ls) [] l ls); cbn [length]; rewrite ?Nat.add_0_r;
        [reflexivity|exact I|exact Hv1|exact Hv2].
Qed.

(** * Whole codes *)

Lemma chunks_app_multiple {A} n (a r : list A) :
  0 < n -> length a mod n = 0 -> chunks n (a ++ r) = chunks n a ++ chunks n r.
Proof.
  intros Hn. revert a. apply chunk_ind; [exact Hn|reflexivity|].
  intros a s Ha _ IH. rewrite <- app_assoc.
  rewrite (chunks_app n a (s ++ r)), (chunks_app n a s) by assumption. cbn [app]. rewrite IH. reflexivity.
Qed.

Lemma length_concat_15 (lines : list bytes) :
  Forall (fun l => length l = 15) lines -> length (concat lines) = 15 * length lines.
Proof.
  induction 1 as [|l ls Hl _ IH]; [reflexivity|]. cbn [concat length]. rewrite app_length, IH. lia.
Qed.

Lemma chunks_concat_15 (lines : list bytes) :
  Forall (fun l => length l = 15) lines -> chunks 15 (concat lines) = lines.
Proof. intros H. apply chunks_concat; [lia|exact H]. Qed.

Lemma validate_unfold P code :
  exists lines, length lines = length (significant code) / 24 /\
    Forall (fun l => length l = 15) lines /\
    base32_text (concat lines) (firstn (length (significant code) / 24 * 24) (significant code)) /\
    validate P code =
      let? (seen_last, extra_row) := validate_loop P 0 lines false in
      if negb seen_last then Err RecoveryCodeIncomplete
      else match extra_row with
           | Some row => Err (RecoveryCodeExtraData row)
           | None => if negb (length (significant code) mod 24 =? 0)
                     then Err (RecoveryCodeExtraData (length (significant code) / 24))
                     else Ok (concat lines)
           end.
Proof.
  unfold validate. rewrite format_code_false. change LINE_SIZE with 24. change (BLOCK_SIZE + 1) with 15.
  set (s := significant code). set (full := firstn (length s / 24 * 24) s).
  assert (length full = length s / 24 * 24) as Hl.
  { unfold full. rewrite firstn_length. lia. }
  destruct (base32_decode_ok full) as (d & Hd & Ht).
  { rewrite Hl. lia. }
  { pose proof (significant_inA code) as Ha. fold s in Ha. rewrite <- (firstn_skipn (length s / 24 * 24) s) in Ha.
    apply Forall_app in Ha. exact (proj1 Ha). }
  pose proof (base32_text_length _ _ Ht) as Hlen.
  assert (length d mod 15 = 0) as Hm by lia.
  exists (chunks 15 d). rewrite concat_chunks by (exact Hm || lia). split.
  { rewrite length_chunks by (exact Hm || lia). rewrite Hl in Hlen.
    set (q := length s / 24) in *.
    replace (length d) with (q * 15) by lia. apply Nat.div_mul. lia. }
  split; [apply Forall_chunks_length; [lia|exact Hm]|]. split; [exact Ht|].
  rewrite Hd. reflexivity.
Qed.

(** Two descriptions of a complete code. *)
Lemma lines_valid_snoc lines :
  lines_valid lines <->
  exists pre l, lines = pre ++ [l] /\ nonfinal_from 0 pre /\ line_valid (final_byte (length pre)) l.
Proof.
  split.
  - intros [Hne Hv]. destruct (exists_last Hne) as (pre & l & ->). exists pre, l.
    split; [reflexivity|]. rewrite app_length in Hv. cbn [length] in Hv. split.
    + apply nonfinal_from_spec. intros j l' Hj. cbn [Nat.add].
      assert (j < length pre) as Hlt by (apply nth_error_Some; congruence).
      specialize (Hv j l'). rewrite nth_error_app1 in Hv by exact Hlt. specialize (Hv Hj).
      unfold virtual_byte in Hv. destruct (Nat.eqb_spec (S j) (length pre + 1)); [lia|exact Hv].
    + specialize (Hv (length pre) l). rewrite nth_error_app2, Nat.sub_diag in Hv by lia.
      specialize (Hv eq_refl). unfold virtual_byte in Hv.
      destruct (Nat.eqb_spec (S (length pre)) (length pre + 1)); [exact Hv|lia].
  - intros (pre & l & -> & Hn & Hf). split; [destruct pre; discriminate|].
    rewrite nonfinal_from_spec in Hn. cbn [Nat.add] in Hn.
    intros j l' Hj. rewrite app_length. cbn [length]. unfold virtual_byte.
    destruct (Nat.lt_ge_cases j (length pre)) as [Hlt|Hge].
    + rewrite nth_error_app1 in Hj by exact Hlt.
      destruct (Nat.eqb_spec (S j) (length pre + 1)); [lia|]. apply Hn, Hj.
    + rewrite nth_error_app2 in Hj by exact Hge.
      destruct (j - length pre) as [|k] eqn:Ek; [|destruct k; discriminate].
      cbn in Hj. injection Hj as <-. assert (j = length pre) as -> by lia.
      destruct (Nat.eqb_spec (S (length pre)) (length pre + 1)); [exact Hf|lia].
Qed.

Lemma lines_valid_length lines : lines_valid lines -> Forall (fun l => length l = 15) lines.
Proof.
  intros H. apply lines_valid_snoc in H. destruct H as (pre & l & -> & Hn & Hf).
  apply Forall_app. split; [eapply nonfinal_length; exact Hn|].
  constructor; [eapply line_valid_length; exact Hf|constructor].
Qed.

Lemma code_lines_size text lines : code_lines text lines -> length (significant text) = 24 * length lines.
Proof.
  intros [Ht Hv]. apply base32_text_length in Ht. apply lines_valid_length in Hv.
  rewrite (length_concat_15 _ Hv) in Ht. lia.
Qed.

Lemma code_lines_fun text l1 l2 : code_lines text l1 -> code_lines text l2 -> l1 = l2.
Proof.
  intros [T1 V1] [T2 V2]. apply lines_valid_length in V1, V2.
  rewrite <- (chunks_concat_15 l1), <- (chunks_concat_15 l2) by assumption. f_equal.
  eapply base32_text_fun_data; eassumption.
Qed.

Definition small_enough (P : prims) (n : nat) : Prop := n <= 256 \/ p_overflow_checks P = false.

Lemma validate_ok_iff P code d :
  validate P code = Ok d <->
  exists lines, d = concat lines /\ code_lines code lines /\ small_enough P (length lines).
Proof.
  destruct (validate_unfold P code) as (lines & Hlen & H15 & Ht & ->). split.
  - pose proof (validate_loop_outcome P 0 lines H15) as Ho.
    destruct Ho as [pre rest -> Hr Hn Hle Ho|Hn|pre l -> Hn Hv Hlt|pre l rest -> Hr Hn Hv|pre l rest -> Hn Hv1 Hv2];
      cbn [bind negb]; try discriminate.
    destruct (Nat.eqb_spec (length (significant code) mod 24) 0) as [Hm|Hm]; cbn [negb]; [|discriminate].
    intros [= <-]. exists (pre ++ [l]). split; [reflexivity|]. split; [split|].
    + rewrite firstn_all2 in Ht by lia. exact Ht.
    + apply lines_valid_snoc. exists pre, l. cbn [Nat.add] in Hv. auto.
    + unfold small_enough. rewrite app_length. cbn [length]. cbn [Nat.add] in Hlt.
      destruct Hlt; [left; lia|right; assumption].
  - intros (lines' & -> & Hc & Hs).
    pose proof (code_lines_size _ _ Hc) as Hsz. destruct Hc as [Hct Hcv].
    assert (lines = lines') as ->.
    { rewrite <- (chunks_concat_15 lines), <- (chunks_concat_15 lines') by (assumption || apply lines_valid_length, Hcv).
      f_equal. eapply base32_text_fun_data; [exact Ht|]. rewrite firstn_all2 by lia. exact Hct. }
    apply lines_valid_snoc in Hcv. destruct Hcv as (pre & l & -> & Hn & Hf).
    rewrite app_length in Hs. cbn [length] in Hs.
    rewrite validate_skip; [|exact Hn|destruct Hs; [left; lia|right; assumption]].
    cbn [Nat.add].
    destruct (validate_step P (length pre) l []) as [[Hp _]|[(Hp & _ & ->)|[(Hp & Hv & _)|(_ & Hnn & _)]]].
    + eapply line_valid_length; exact Hf.
    + exfalso. unfold panics_at in Hp. apply andb_true_iff in Hp. destruct Hp as [Hp Ho]. apply Nat.leb_le in Hp.
      destruct Hs; [lia|congruence].
    + cbn [validate_loop bind negb]. rewrite Hsz, app_length.
      destruct (Nat.eqb_spec ((24 * (length pre + length [l])) mod 24) 0) as [_|Hm]; [reflexivity|].
      exfalso. apply Hm. rewrite Nat.mul_comm. apply Nat.mod_mul. lia.
    + exfalso. apply (final_neq_nonfinal (length pre)). eapply line_valid_virtual_inj; eassumption.
    + contradiction.
Qed.

Lemma validate_no_panic P code :
  small_enough P (length (significant code) / 24) -> validate P code <> Panic.
Proof.
  intros Hs. destruct (validate_unfold P code) as (lines & Hlen & H15 & Ht & ->).
  pose proof (validate_loop_outcome P 0 lines H15) as Ho.
  destruct Ho as [pre rest -> Hr Hn Hle Ho|Hn|pre l -> Hn Hv Hlt|pre l rest -> Hr Hn Hv|pre l rest -> Hn Hv1 Hv2];
    cbn [bind negb]; try discriminate.
  - exfalso. rewrite app_length in Hlen. destruct rest; [contradiction|]. cbn [length] in Hlen.
    destruct Hs; [lia|congruence].
  - destruct (length (significant code) mod 24 =? 0); discriminate.
Qed.

Lemma validate_err P code :
  small_enough P (length (significant code) / 24) -> (forall d, validate P code <> Ok d) ->
  exists e, validate P code = Err e.
Proof.
  intros Hs Hn. pose proof (validate_no_panic P code Hs) as Hp.
  destruct (validate P code) as [d|e|]; [exfalso; exact (Hn d eq_refl)|exists e; reflexivity|contradiction].
Qed.

Lemma validate_ok_size P code d : validate P code = Ok d ->
  length (significant code) mod 24 = 0 /\ small_enough P (length (significant code) / 24).
Proof.
  intros H. apply validate_ok_iff in H. destruct H as (lines & -> & Hc & Hs).
  apply code_lines_size in Hc. rewrite Hc. split; [rewrite Nat.mul_comm; apply Nat.mod_mul; lia|].
  rewrite Nat.mul_comm, Nat.div_mul by lia. exact Hs.
Qed.

(** C10 *)
Lemma validate_bad_length P code d : length (significant code) mod 24 <> 0 -> validate P code <> Ok d.
Proof. intros Hm H. apply validate_ok_size in H. destruct H; contradiction. Qed.

(** C09: substitution of one significant character *)
Lemma substitution P s s' code code' A u u' B d d' :
  s = significant code -> s' = significant code' -> s = A ++ u :: B -> s' = A ++ u' :: B -> u <> u' ->
  validate P code = Ok d -> validate P code' = Ok d' -> False.
Proof.
  intros Es Es' E E' Hne V V'.
  apply validate_ok_iff in V, V'. destruct V as (ls & -> & C & _), V' as (ls' & -> & C' & _).
  pose proof (code_lines_size _ _ C) as Hsz. pose proof (code_lines_size _ _ C') as Hsz'.
  destruct C as [T V], C' as [T' V']. rewrite <- Es in *. rewrite <- Es' in *. clear Es Es'. subst s s'.
  assert (length ls = length ls') as Hll by (rewrite !app_length in *; cbn [length] in *; lia).
  destruct (split_at_multiple 24 A B u) as (A1 & A2 & B2 & B1 & -> & -> & M1 & M2 & M3);
    [lia|rewrite Hsz, Nat.mul_comm; apply Nat.mod_mul; lia|].
  replace ((A1 ++ A2) ++ u :: B2 ++ B1) with (A1 ++ (A2 ++ u :: B2) ++ B1) in T
    by (rewrite <- !app_assoc; reflexivity).
  replace ((A1 ++ A2) ++ u' :: B2 ++ B1) with (A1 ++ (A2 ++ u' :: B2) ++ B1) in T'
    by (rewrite <- !app_assoc; reflexivity).
  assert (length (A2 ++ u' :: B2) = 24) as M2' by (rewrite app_length in *; cbn [length] in *; lia).
  assert (length A1 mod 8 = 0) as M18 by lia.
  destruct (base32_text_split _ _ _ T M18) as (d1 & r & Ed & T1 & Tr).
  destruct (base32_text_split _ _ _ Tr ltac:(rewrite M2; reflexivity)) as (l & d3 & -> & Tg & T3).
  destruct (base32_text_split _ _ _ T' M18) as (d1' & r' & Ed' & T1' & Tr').
  destruct (base32_text_split _ _ _ Tr' ltac:(rewrite M2'; reflexivity)) as (l' & d3' & -> & Tg' & T3').
  assert (d1' = d1) as -> by (eapply base32_text_fun_data; eassumption).
  assert (d3' = d3) as -> by (eapply base32_text_fun_data; eassumption).
  assert (length d1 mod 15 = 0) as Md1 by (apply base32_text_length in T1; lia).
  assert (length l = 15) as Ll by (apply base32_text_length in Tg; lia).
  assert (length l' = 15) as Ll' by (apply base32_text_length in Tg'; lia).
  assert (ls = chunks 15 d1 ++ l :: chunks 15 d3) as Els.
  { rewrite <- (chunks_concat_15 ls) by (apply lines_valid_length, V). rewrite Ed.
    rewrite chunks_app_multiple, chunks_app by (assumption || lia). reflexivity. }
  assert (ls' = chunks 15 d1 ++ l' :: chunks 15 d3) as Els'.
  { rewrite <- (chunks_concat_15 ls') by (apply lines_valid_length, V'). rewrite Ed'.
    rewrite chunks_app_multiple, chunks_app by (assumption || lia). reflexivity. }
  destruct V as [_ V], V' as [_ V']. rewrite <- Hll in V'.
  specialize (V (length (chunks 15 d1)) l). specialize (V' (length (chunks 15 d1)) l').
  rewrite Els, nth_error_app2, Nat.sub_diag in V by lia. rewrite <- Els in V.
  rewrite Els', nth_error_app2, Nat.sub_diag in V' by lia.
  specialize (V eq_refl). specialize (V' eq_refl).
  eapply line_sep; [exact M2|exact Hne|exact Tg|exact Tg'|exact V|exact V'].
Qed.

Lemma significant_single c : significant [c] = [] \/ significant [c] = [upcase c].
Proof. rewrite significant_cons. destruct (contains_byte (upcase c) alphabet32); auto. Qed.

Lemma validate_significant P c1 c2 : significant c1 = significant c2 -> validate P c1 = validate P c2.
Proof. intros H. unfold validate. rewrite !format_code_false, H. reflexivity. Qed.

(** One significant character replaced, inserted or deleted, possibly together with insignificant
    ones. *)
Lemma one_character_edit P a u w b d :
  validate P (a ++ u ++ b) = Ok d ->
  length (significant u) <= 1 -> length (significant w) <= 1 -> significant u <> significant w ->
  exists e, validate P (a ++ w ++ b) = Err e.
Proof.
  intros V Hu Hw Hne. pose proof (validate_ok_size _ _ _ V) as [Hm Hs].
  rewrite !significant_app, !app_length in Hm, Hs.
  apply validate_err.
  - rewrite !significant_app, !app_length. unfold small_enough in *. destruct Hs; [left; lia|right; assumption].
  - intros d' V'. pose proof (validate_ok_size _ _ _ V') as [Hm' _].
    rewrite !significant_app, !app_length in Hm'.
    destruct (significant u) as [|x [|? ?]] eqn:Eu; cbn [length] in *; [| |lia];
      destruct (significant w) as [|y [|? ?]] eqn:Ew; cbn [length] in *; try lia; [contradiction|].
    eapply substitution with (code := a ++ u ++ b) (code' := a ++ w ++ b);
      [reflexivity|reflexivity|rewrite !significant_app, Eu; reflexivity|rewrite !significant_app, Ew; reflexivity| |exact V|exact V'].
    intros ->. contradiction.
Qed.

(** Lines seen by the loop for a text starting like another one. *)
Lemma lines_prefix P code lines t rest :
  significant code = t ++ rest -> Forall (fun l => length l = 15) lines -> base32_text (concat lines) t ->
  exists more,
    Forall (fun l => length l = 15) more /\ length more = length rest / 24 /\
    base32_text (concat more) (firstn (length rest / 24 * 24) rest) /\
    validate P code =
      let? (seen_last, extra_row) := validate_loop P 0 (lines ++ more) false in
      if negb seen_last then Err RecoveryCodeIncomplete
      else match extra_row with
           | Some row => Err (RecoveryCodeExtraData row)
           | None => if negb (length (significant code) mod 24 =? 0)
                     then Err (RecoveryCodeExtraData (length (significant code) / 24))
                     else Ok (concat (lines ++ more))
           end.
Proof.
  intros Es H15 T.
  pose proof (base32_text_length _ _ T) as Hlt. rewrite (length_concat_15 _ H15) in Hlt.
  assert (length t = 24 * length lines) as Ht by lia.
  destruct (validate_unfold P code) as (ls & Hlen & Hls & Tls & ->).
  set (q := length rest / 24).
  assert (length (significant code) / 24 = length lines + q) as Hq.
  { rewrite Es, app_length, Ht. unfold q. lia. }
  rewrite Hq in Tls. rewrite Es in Tls. rewrite firstn_app in Tls.
  rewrite firstn_all2 in Tls by lia.
  replace ((length lines + q) * 24 - length t) with (q * 24) in Tls by lia.
  destruct (base32_text_split _ _ _ Tls) as (d1 & d2 & Ed & T1 & T2); [lia|].
  assert (d1 = concat lines) as -> by (eapply base32_text_fun_data; eassumption).
  assert (length d2 mod 15 = 0) as Md2.
  { apply base32_text_length in T2. rewrite firstn_length in T2. lia. }
  assert (ls = lines ++ chunks 15 d2) as ->.
  { rewrite <- (chunks_concat_15 ls) by exact Hls. rewrite Ed, chunks_app_multiple.
    - rewrite chunks_concat_15 by exact H15. reflexivity.
    - lia.
    - rewrite length_concat_15 by exact H15. rewrite Nat.mul_comm. apply Nat.mod_mul. lia. }
  exists (chunks 15 d2). split; [apply Forall_chunks_length; [lia|exact Md2]|].
  split; [rewrite app_length in Hlen; lia|].
  split; [rewrite concat_chunks by (exact Md2 || lia); exact T2|]. reflexivity.
Qed.

Lemma nonfinal_app i a b : nonfinal_from i (a ++ b) <-> nonfinal_from i a /\ nonfinal_from (i + length a) b.
Proof.
  revert i; induction a as [|l a IH]; intros i; cbn [app nonfinal_from length].
  - rewrite Nat.add_0_r. tauto.
  - rewrite IH. replace (i + S (length a)) with (S i + length a) by lia. tauto.
Qed.

(** C11: proper prefixes *)
Lemma truncated_code P code code' d rest :
  validate P code = Ok d -> significant code = significant code' ++ rest -> rest <> [] ->
  validate P code' = Err RecoveryCodeIncomplete.
Proof.
  intros V Es Hr. apply validate_ok_iff in V. destruct V as (lines & -> & C & Hs).
  pose proof (code_lines_size _ _ C) as Hsz. destruct C as [T V].
  pose proof (lines_valid_length _ V) as L15.
  destruct (validate_unfold P code') as (ls & Hlen & Hls & Tls & ->).
  set (s' := significant code') in *.
  assert (length ls < length lines) as Hlt.
  { rewrite Es, app_length in Hsz. destruct rest; [contradiction|]. cbn [length] in Hsz. lia. }
  assert (exists more, lines = ls ++ more) as [more ->].
  { rewrite Es in T. rewrite <- (firstn_skipn (length s' / 24 * 24) s') in T. rewrite <- app_assoc in T.
    destruct (base32_text_split _ _ _ T) as (d1 & d2 & Ed & T1 & T2); [rewrite firstn_length; lia|].
    assert (d1 = concat ls) as -> by (eapply base32_text_fun_data; eassumption).
    exists (chunks 15 d2). rewrite <- (chunks_concat_15 lines) by exact L15. rewrite Ed, chunks_app_multiple.
    - rewrite chunks_concat_15 by exact Hls. reflexivity.
    - lia.
    - rewrite length_concat_15 by exact Hls. rewrite Nat.mul_comm. apply Nat.mod_mul. lia. }
  apply lines_valid_snoc in V. destruct V as (pre & l & E & Hn & _).
  rewrite app_length in Hlt.
  assert (more <> []) as Hm by (intros ->; cbn in Hlt; lia).
  destruct (exists_last Hm) as (more' & l' & ->). rewrite app_assoc in E. apply app_inj_tail in E.
  destruct E as [<- _]. apply nonfinal_app in Hn. destruct Hn as [Hn _].
  rewrite <- (app_nil_r ls), validate_skip; [reflexivity|exact Hn|].
  rewrite app_length in Hs. destruct Hs; [left; lia|right; assumption].
Qed.

(** C11: additional characters *)
Lemma overlong_code P code code' d extra :
  validate P code = Ok d -> significant code' = significant code ++ extra -> extra <> [] ->
  validate P code' = Err (RecoveryCodeExtraData (length (significant code) / 24)).
Proof.
  intros V Es Hx. apply validate_ok_iff in V. destruct V as (lines & -> & C & Hs).
  pose proof (code_lines_size _ _ C) as Hsz. destruct C as [T V].
  pose proof (lines_valid_length _ V) as L15.
  destruct (lines_prefix P code' lines (significant code) extra Es L15 T) as (more & Hm15 & Hml & Tm & ->).
  apply lines_valid_snoc in V. destruct V as (pre & l & -> & Hn & Hf).
  rewrite app_length in Hs, Hsz. cbn [length] in Hs, Hsz.
  rewrite <- app_assoc. rewrite validate_skip; [|exact Hn|destruct Hs; [left; lia|right; assumption]].
  cbn [app Nat.add].
  destruct (validate_step P (length pre) l more) as [[Hp _]|[(Hp & _ & ->)|[(Hp & Hv & _)|(_ & Hnn & _)]]].
  - eapply line_valid_length; exact Hf.
  - exfalso. unfold panics_at in Hp. apply andb_true_iff in Hp. destruct Hp as [Hp Ho]. apply Nat.leb_le in Hp.
    destruct Hs; [lia|congruence].
  - rewrite validate_loop_true. cbn [bind negb].
    assert (length (significant code) / 24 = S (length pre)) as Hq.
    { rewrite Hsz, Nat.mul_comm, Nat.div_mul by lia. lia. }
    rewrite Hq. destruct more as [|m more]; [|reflexivity].
    rewrite Es, app_length.
    assert (length extra <> 0) as Hx' by (destruct extra; [contradiction|discriminate]).
    cbn [length] in Hml.
    destruct (Nat.eqb_spec ((length (significant code) + length extra) mod 24) 0) as [Hz|Hz]; [exfalso; lia|].
    cbn [negb]. do 2 f_equal. lia.
  - exfalso. apply (final_neq_nonfinal (length pre)). eapply line_valid_virtual_inj; eassumption.
  - contradiction.
Qed.

(** C12: a line that belongs elsewhere *)
Lemma misplaced_line P code pre l v t1 t2 t3 :
  significant code = t1 ++ t2 ++ t3 ->
  base32_text (concat pre) t1 -> base32_text l t2 ->
  nonfinal_from 0 pre -> line_valid v l ->
  v <> nonfinal_byte (length pre) -> v <> final_byte (length pre) ->
  small_enough P (S (length pre)) ->
  validate P code = Err (RecoveryCodeChecksumMismatch (length pre)).
Proof.
  intros Es T1 T2 Hn Hv Hne1 Hne2 Hs.
  pose proof (nonfinal_length _ _ Hn) as P15. pose proof (line_valid_length _ _ Hv) as L15.
  destruct (lines_prefix P code (pre ++ [l]) (t1 ++ t2) t3) as (more & _ & _ & _ & ->).
  - rewrite Es, app_assoc. reflexivity.
  - apply Forall_app. split; [exact P15|]. constructor; [exact L15|constructor].
  - rewrite concat_app. cbn [concat]. rewrite app_nil_r. apply base32_text_app; assumption.
  - rewrite <- app_assoc. rewrite validate_skip; [|exact Hn|destruct Hs; [left; lia|right; assumption]].
    cbn [app Nat.add].
    destruct (validate_step P (length pre) l more) as [[Hp _]|[(Hp & Hf & _)|[(Hp & Hf & _)|(_ & _ & _ & ->)]]].
    + exact L15.
    + exfalso. unfold panics_at in Hp. apply andb_true_iff in Hp. destruct Hp as [Hp Ho]. apply Nat.leb_le in Hp.
      destruct Hs; [lia|congruence].
    + exfalso. apply Hne2. eapply line_valid_virtual_inj; eassumption.
    + exfalso. apply Hne1. eapply line_valid_virtual_inj; eassumption.
    + reflexivity.
Qed.

Lemma virtual_byte_other n i j :
  n <= 128 -> i < 128 -> i <> j -> j < n ->
  virtual_byte n j <> nonfinal_byte i /\ virtual_byte n j <> final_byte i.
Proof.
  intros Hn Hi Hij Hj. unfold virtual_byte.
  destruct (S j =? n); split; intros E; apply (f_equal Byte.to_N) in E;
    rewrite ?to_N_final, ?to_N_nonfinal in E; lia.
Qed.

Lemma exchanged_lines P code code' L1 a L2 b L3 :
  code_lines code (L1 ++ a :: L2 ++ b :: L3) ->
  length (L1 ++ a :: L2 ++ b :: L3) <= 128 ->
  base32_text (concat (L1 ++ b :: L2 ++ a :: L3)) (significant code') ->
  validate P code' = Err (RecoveryCodeChecksumMismatch (length L1)).
Proof.
  intros [T V] Hle T'. set (n := length (L1 ++ a :: L2 ++ b :: L3)) in *.
  assert (n = length L1 + S (length L2 + S (length L3))) as Hn.
  { unfold n. rewrite app_length. cbn [length]. rewrite app_length. reflexivity. }
  pose proof (lines_valid_length _ V) as L15.
  apply Forall_app in L15. destruct L15 as [F1 F2]. inversion F2 as [|? ? Fa F3]; subst.
  apply Forall_app in F3. destruct F3 as [FL2 F4]. inversion F4 as [|? ? Fb FL3]; subst.
  destruct V as [_ V]. fold n in V.
  assert (nonfinal_from 0 L1) as Hnf.
  { apply nonfinal_from_spec. intros j l Hj. cbn [Nat.add].
    assert (j < length L1) as Hlt by (apply nth_error_Some; congruence).
    specialize (V j l). rewrite nth_error_app1 in V by exact Hlt. specialize (V Hj).
    unfold virtual_byte in V. destruct (Nat.eqb_spec (S j) n); [lia|exact V]. }
  assert (line_valid (virtual_byte n (length L1 + S (length L2))) b) as Hb.
  { apply V. rewrite nth_error_app2 by lia.
    replace (length L1 + S (length L2) - length L1) with (S (length L2)) by lia. cbn [nth_error].
    rewrite nth_error_app2, Nat.sub_diag by lia. reflexivity. }
  destruct (virtual_byte_other n (length L1) (length L1 + S (length L2))) as [N1 N2]; [lia..|].
  pose proof (base32_text_length _ _ T') as Hlen'.
  assert (length (concat (L1 ++ b :: L2 ++ a :: L3)) = 15 * n) as Hc.
  { rewrite length_concat_15.
    - f_equal. rewrite app_length. cbn [length]. rewrite app_length. cbn [length]. lia.
    - apply Forall_app. split; [exact F1|]. constructor; [exact Fb|]. apply Forall_app. split; [exact FL2|].
      constructor; [exact Fa|exact FL3]. }
  set (s := significant code') in *.
  rewrite concat_app in T'. cbn [concat] in T'.
  rewrite <- (firstn_skipn (24 * length L1) s) in T'.
  destruct (base32_text_split _ _ _ T') as (d1 & d2 & Ed & T1 & T2); [rewrite firstn_length; lia|].
  assert (length d1 = length (concat L1)) as Hd1.
  { apply base32_text_length in T1. rewrite firstn_length in T1. rewrite length_concat_15 by exact F1. lia. }
  assert (d1 = concat L1 /\ d2 = b ++ concat (L2 ++ a :: L3)) as [-> ->].
  { symmetry in Ed. apply app_eq_app in Ed. destruct Ed as [z [[-> Ez]|[Ez1 Ez2]]].
    - rewrite app_length in Hd1. assert (z = []) as -> by (destruct z; [reflexivity|cbn in Hd1; lia]).
      rewrite app_nil_r. cbn in Ez. auto.
    - rewrite Ez1, app_length in Hd1. assert (z = []) as -> by (destruct z; [reflexivity|cbn in Hd1; lia]).
      rewrite app_nil_r in Ez1. cbn in Ez2. auto. }
  set (s2 := skipn (24 * length L1) s) in *.
  assert (length s2 = 24 * (n - length L1)) as Hs2 by (unfold s2; rewrite skipn_length; lia).
  rewrite <- (firstn_skipn 24 s2) in T2.
  destruct (base32_text_split _ _ _ T2) as (e1 & e2 & Ee & T3 & T4).
  { rewrite firstn_length, Nat.min_l by lia. reflexivity. }
  assert (length e1 = 15) as He1.
  { apply base32_text_length in T3. rewrite firstn_length, Nat.min_l in T3 by lia. lia. }
  assert (b = e1) as <-.
  { apply (f_equal (firstn 15)) in Ee. rewrite !firstn_app, He1, Fb in Ee.
    rewrite (firstn_all2 b), (firstn_all2 e1) in Ee by lia. cbn [Nat.sub firstn] in Ee. rewrite !app_nil_r in Ee. exact Ee. }
  eapply misplaced_line with (t1 := firstn (24 * length L1) s) (t2 := firstn 24 s2) (t3 := skipn 24 s2);
    [|exact T1|exact T3|exact Hnf|exact Hb|exact N1|exact N2|left; lia].
  rewrite firstn_skipn. unfold s2. rewrite firstn_skipn. reflexivity.
Qed.

(** C14: more than 256 lines with overflow checks *)
Lemma validate_panic P code pre l t1 t2 t3 :
  p_overflow_checks P = true ->
  significant code = t1 ++ t2 ++ t3 -> base32_text (concat pre) t1 -> base32_text l t2 ->
  nonfinal_from 0 pre -> length pre = 256 -> length l = 15 ->
  validate P code = Panic.
Proof.
  intros Ho Es T1 T2 Hn Hl L15. pose proof (nonfinal_length _ _ Hn) as P15.
  destruct (lines_prefix P code (pre ++ [l]) (t1 ++ t2) t3) as (more & _ & _ & _ & ->).
  - rewrite Es, app_assoc. reflexivity.
  - apply Forall_app. split; [exact P15|]. constructor; [exact L15|constructor].
  - rewrite concat_app. cbn [concat]. rewrite app_nil_r. apply base32_text_app; assumption.
  - rewrite <- app_assoc. rewrite validate_skip; [|exact Hn|left; cbn [Nat.add]; lia].
    cbn [app Nat.add].
    destruct (validate_step P (length pre) l more L15) as [[_ ->]|[(Hp & _)|[(Hp & _)|(Hp & _)]]];
      [reflexivity|exfalso; unfold panics_at in Hp; rewrite Ho, Hl in Hp; discriminate..].
Qed.
