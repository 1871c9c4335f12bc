(** Counting the byte sequences that lead to a password. *)
From Verif Require Import M_Base M_Prims M_Types M_Crypto P_Base S_Policy P_Policy S_Count.
From Coq Require Import ZArith ZifyBool ZifyNat ZifyN.
Ltac Zify.zify_post_hook ::= Z.div_mod_to_equations.

Lemma count_mod m n j : j < n -> length (filter (fun k => k mod n =? j) (seq 0 m)) = (m + (n - 1 - j)) / n.
Proof.
  intros Hj. induction m as [|m IH].
  - cbn [seq filter length]. symmetry. apply Nat.div_small. lia.
  - rewrite seq_S, filter_app, app_length, IH. change (0 + m) with m. cbn [filter].
    pose proof (Nat.div_mod m n ltac:(lia)) as E. pose proof (Nat.mod_upper_bound m n ltac:(lia)) as Hr.
    set (q := m / n) in *. set (r := m mod n) in *. clearbody q r.
    destruct (Nat.eqb_spec r j) as [->|Hn]; cbn [length].
    + rewrite <- (Nat.div_unique (m + (n - 1 - j)) n q (n - 1)), <- (Nat.div_unique (S m + (n - 1 - j)) n (q + 1) 0); nia.
    + destruct (Nat.lt_ge_cases r j).
      * rewrite <- (Nat.div_unique (m + (n - 1 - j)) n q (r + n - 1 - j)), <- (Nat.div_unique (S m + (n - 1 - j)) n q (r + n - j)); nia.
      * rewrite <- (Nat.div_unique (m + (n - 1 - j)) n (q + 1) (r - 1 - j)), <- (Nat.div_unique (S m + (n - 1 - j)) n (q + 1) (r - j)); nia.
Qed.

Lemma all_bytes_nat : map b_nat all_bytes = seq 0 256.
Proof.
  unfold all_bytes. rewrite map_map. rewrite <- (map_id (seq 0 256)) at 2. apply map_ext_in. intros k Hk. apply in_seq in Hk.
  unfold b_nat. rewrite to_N_u8, N.mod_small by lia. lia.
Qed.
Lemma all_bytes_NoDup : NoDup all_bytes.
Proof. apply (NoDup_map_inv b_nat). rewrite all_bytes_nat. apply seq_NoDup. Qed.

Definition having (n j : nat) : bytes := filter (fun b => b_nat b mod n =? j) all_bytes.
Lemma length_having n j : j < n -> length (having n j) = (256 + (n - 1 - j)) / n.
Proof.
  intros Hj. rewrite <- count_mod by exact Hj. unfold having. rewrite <- all_bytes_nat. clear. induction all_bytes as [|b l IH]; [reflexivity|].
  cbn [filter map]. destruct (b_nat b mod n =? j); cbn [length]; rewrite IH; reflexivity.
Qed.
Lemma having_bounds n j : j < n -> 256 / n <= length (having n j) <= (255 + n) / n.
Proof.
  intros Hj. rewrite length_having by exact Hj. split; apply Nat.div_le_mono; lia.
Qed.
Lemma in_having n j b : In b (having n j) <-> b_nat b mod n = j.
Proof. unfold having. rewrite filter_In, Nat.eqb_eq. pose proof (in_all_bytes b). tauto. Qed.

(** Characters occur once among those available. *)
Fixpoint no_dup (l : bytes) : bool := match l with [] => true | c :: l' => negb (contains_byte c l') && no_dup l' end.
Lemma no_dup_ok l : no_dup l = true -> NoDup l.
Proof.
  induction l as [|c l IH]; intros H; [constructor|]. apply andb_prop in H. destruct H as [H1 H2]. constructor; [|apply IH, H2].
  apply negb_true_iff, contains_byte_false in H1. exact H1.
Qed.
Lemma pool_unique allowed i j c t t' :
  nth_error (pool allowed CHARS_MAPPING) i = Some (c, t) -> nth_error (pool allowed CHARS_MAPPING) j = Some (c, t') -> i = j.
Proof.
  intros Hi Hj. assert (NoDup (map fst (pool allowed CHARS_MAPPING))) as Hn.
  { apply no_dup_ok. clear. destruct allowed as [[] [] [] []]; vm_compute; reflexivity. }
  apply (map_nth_error fst) in Hi, Hj. cbn [fst] in Hi, Hj. rewrite NoDup_nth_error in Hn.
  apply Hn; [apply nth_error_Some; congruence|congruence].
Qed.

Lemma NoDup_both {A} (l l' : list A) : NoDup l -> NoDup l' -> (forall x, In x l -> ~ In x l') -> NoDup (l ++ l').
Proof.
  induction l as [|x l IH]; intros H1 H2 H3; [exact H2|]. inversion H1 as [|? ? Hx H1']; subst. cbn. constructor.
  - rewrite in_app_iff. intros [H|H]; [exact (Hx H)|]. exact (H3 x (or_introl eq_refl) H).
  - apply IH; [exact H1'|exact H2|]. intros y Hy. apply H3. right. exact Hy.
Qed.

(** Number of characters available at each position. *)
Fixpoint sizes (cs seen : charset) (ts : list ctype) : list nat :=
  match ts with
  | [] => []
  | t :: ts' => num_chars (allowed_types cs seen (length ts)) :: sizes cs (cs_insert seen t) ts'
  end.

Lemma loop_count cs seen len i ts pw :
  subset seen cs -> cs_len cs <> 0 -> i + length pw = len -> Forall2 char_of ts pw -> producible cs seen ts ->
  exists L, NoDup L /\ (forall l, In l L <-> length l = length pw /\ to_password_loop cs seen len i l = Ok pw) /\
    product (map (fun k => 256 / k) (sizes cs seen ts)) <= length L <= product (map (fun k => (255 + k) / k) (sizes cs seen ts)).
Proof.
  intros Hs Hne Hl Hf. revert seen i Hs Hl; induction Hf as [|t c ts pw Hc Hf IH]; intros seen i Hs Hl Hp.
  - exists [[]]. split; [repeat constructor; intros []|]. split; [|cbn; lia].
    intros l. split; [intros [<-|[]]; split; reflexivity|]. intros [H _]. destruct l; [left; reflexivity|discriminate H].
  - cbn [producible] in Hp. destruct Hp as [Ht Hp]. pose proof (Forall2_len _ _ _ Hf) as Hlen. cbn [length] in Ht, Hl. rewrite Hlen in Ht.
    destruct (IH (cs_insert seen t) (S i)) as (L & HL & HI & Hb).
    { apply subset_insert; [exact Hs|]. eapply allowed_subset; exact Ht. }
    { lia. }
    { exact Hp. }
    set (al := allowed_types cs seen (S (length pw))) in *.
    pose proof (allowed_nonempty cs seen (S (length pw)) Hs Hne ltac:(lia)) as Hn. fold al in Hn.
    assert (In (c, t) (pool al CHARS_MAPPING)) as Hin by (apply in_pool; split; assumption).
    apply In_nth_error in Hin. destruct Hin as [k Hk].
    assert (k < num_chars al) as Hklt by (rewrite num_chars_pool; apply nth_error_Some; congruence).
    exists (flat_map (fun b => map (cons b) L) (having (num_chars al) k)). split; [|split].
    + assert (NoDup (having (num_chars al) k)) as Hh by (apply NoDup_filter, all_bytes_NoDup).
      induction (having (num_chars al) k) as [|b l IHl]; [constructor|]. inversion Hh as [|? ? Hb1 Hh']; subst. cbn [flat_map].
      apply NoDup_both; [apply FinFun.Injective_map_NoDup; [intros x y [=]; assumption|exact HL]|apply IHl, Hh'|].
      intros x Hx Hx'. apply in_map_iff in Hx. destruct Hx as (y & <- & _). apply in_flat_map in Hx'. destruct Hx' as (b' & Hb' & Hx').
      apply in_map_iff in Hx'. destruct Hx' as (z & [= -> ->] & _). exact (Hb1 Hb').
    + intros l. rewrite in_flat_map. cbn [length]. split.
      * intros (b & Hb1 & Hx). apply in_having in Hb1. apply in_map_iff in Hx. destruct Hx as (y & <- & Hy). apply HI in Hy. destruct Hy as [Hy1 Hy2].
        split; [cbn [length]; congruence|]. cbn [to_password_loop]. replace (len - i) with (S (length pw)) by lia. fold (allowed_types cs seen (S (length pw))). fold al.
        destruct (Nat.eqb_spec (num_chars al) 0) as [E|_]; [contradiction|]. rewrite pick_char_pool, Hb1, Hk, Hy2. reflexivity.
      * intros [H1 H2]. destruct l as [|b l]; [discriminate H1|]. injection H1 as H1. cbn [to_password_loop] in H2.
        replace (len - i) with (S (length pw)) in H2 by lia. fold (allowed_types cs seen (S (length pw))) in H2. fold al in H2.
        destruct (Nat.eqb_spec (num_chars al) 0) as [E|_]; [contradiction|]. rewrite pick_char_pool in H2.
        destruct (nth_error (pool al CHARS_MAPPING) (b_nat b mod num_chars al)) as [[c' t']|] eqn:E.
        2:{ apply nth_error_None in E. rewrite <- num_chars_pool in E. pose proof (Nat.mod_upper_bound (b_nat b) _ Hn). lia. }
        destruct (to_password_loop cs (cs_insert seen t') len (S i) l) as [pw'|e|] eqn:El; cbn [bind] in H2; [|discriminate..].
        injection H2 as -> ->. pose proof (pool_unique _ _ _ _ _ _ E Hk) as Ej.
        assert (t' = t) as ->. { apply nth_error_In, in_pool in E. eapply char_of_unique; [apply E|exact Hc]. }
        exists b. split; [apply in_having, Ej|]. apply in_map, HI. split; [exact H1|exact El].
    + cbn [sizes map]. unfold product. cbn [fold_right]. fold (product (map (fun k => 256 / k) (sizes cs (cs_insert seen t) ts))).
      fold (product (map (fun k => (255 + k) / k) (sizes cs (cs_insert seen t) ts))). cbn [length]. rewrite Hlen. fold al.
      assert (length (flat_map (fun b => map (cons b) L) (having (num_chars al) k)) = length (having (num_chars al) k) * length L) as ->.
      { induction (having (num_chars al) k) as [|b l IHl]; [reflexivity|]. cbn [flat_map length]. rewrite app_length, map_length, IHl. reflexivity. }
      destruct (having_bounds (num_chars al) k Hklt) as [B1 B2]. destruct Hb as [B3 B4]. split; apply Nat.mul_le_mono; assumption.
Qed.

Lemma num_chars_total cs : num_chars cs = total (selected_types cs).
Proof. destruct cs as [[] [] [] []]; vm_compute; reflexivity. Qed.

Lemma unseen_remove cs seen t : unseen cs (cs_insert seen t) = remove ctype_eq_dec t (unseen cs seen).
Proof. destruct t, cs as [[] [] [] []], seen as [[] [] [] []]; vm_compute; reflexivity. Qed.

Lemma sizes_choices cs ts : forall seen, subset seen cs -> producible cs seen ts -> sizes cs seen ts = choices (selected_types cs) (unseen cs seen) ts.
Proof.
  induction ts as [|t ts IH]; intros seen Hs Hp; [reflexivity|]. cbn [sizes choices producible] in *. destruct Hp as [Ht Hp]. f_equal.
  - rewrite num_chars_total. f_equal. unfold allowed_types. rewrite length_unseen by exact Hs.
    destruct (Nat.leb_spec (length (t :: ts)) (cs_len cs - cs_len seen)), (Nat.ltb_spec (cs_len cs - cs_len seen) (length (t :: ts))); try lia; [|reflexivity].
    clear. destruct cs as [[] [] [] []], seen as [[] [] [] []]; reflexivity.
  - rewrite <- unseen_remove. apply IH; [|exact Hp]. apply subset_insert; [exact Hs|]. eapply allowed_subset; exact Ht.
Qed.

Lemma count_sequences n cs pw ts : cs_len cs <> 0 -> meets_policy n cs pw -> Forall2 char_of ts pw ->
  exists L, NoDup L /\ (forall l, In l L <-> length l = n /\ to_password l cs = Ok pw) /\
    product (map (fun k => 256 / k) (choices (selected_types cs) (selected_types cs) ts)) <= length L <=
    product (map (fun k => (255 + k) / k) (choices (selected_types cs) (selected_types cs) ts)).
Proof.
  intros Hne (Hlen & ts' & Hf' & Hrest) Hf. subst n.
  assert (ts' = ts) as ->.
  { clear Hrest. revert ts Hf. induction Hf' as [|t c ts' pw Hc Hf' IH]; intros ts Hf; inversion Hf; subst; [reflexivity|].
    f_equal; [eapply char_of_unique; eassumption|apply IH; assumption]. }
  apply (policy_type_policy cs ts pw Hf) in Hrest. apply producible_policy in Hrest; [|apply subset_empty].
  destruct (loop_count cs cs_empty (length pw) 0 ts pw (subset_empty cs) Hne eq_refl Hf Hrest) as (L & H1 & H2 & H3).
  exists L. split; [exact H1|]. split.
  - intros l. rewrite H2. unfold to_password. split; intros [E1 E2]; (split; [exact E1|]); rewrite E1 in *; exact E2.
  - rewrite (sizes_choices cs ts cs_empty (subset_empty cs) Hrest) in H3. replace (selected_types cs) with (unseen cs cs_empty) at 2 4; [exact H3|].
    destruct cs as [[] [] [] []]; reflexivity.
Qed.

(** * All types selected *)

Definition all_selected : charset := mk_charset true true true true.
Definition most (j : nat) : nat := match j with 0 => 1 | 1 => 32 | 2 => 9 * 32 | 3 => 5 * 9 * 32 | _ => 4 * 5 * 9 * 32 end.

Lemma sizes_most ts : forall seen, producible all_selected seen ts -> length (unseen all_selected seen) <= length ts ->
  product (map (fun k => (255 + k) / k) (sizes all_selected seen ts)) <=
  4 ^ (length ts - length (unseen all_selected seen)) * most (length (unseen all_selected seen)).
Proof.
  induction ts as [|t ts IH]; intros seen Hp Hj.
  - destruct (unseen all_selected seen); [cbn; lia|cbn in Hj; lia].
  - cbn [producible] in Hp. destruct Hp as [Ht Hp]. specialize (IH _ Hp). unfold product in *. cbn [sizes map fold_right].
    assert (cs_len all_selected - cs_len seen = length (unseen all_selected seen)) as El by (destruct seen as [[] [] [] []]; reflexivity).
    unfold allowed_types in *. rewrite El in *.
    assert (forall k x, 4 ^ (S k) * x = 4 * (4 ^ k * x)) as Hpow by (intros; cbn [Nat.pow]; lia).
    destruct (Nat.leb_spec (length (t :: ts)) (length (unseen all_selected seen))) as [Hle|Hgt].
    + assert (length (unseen all_selected (cs_insert seen t)) = length ts) as E1.
      { cbn [length] in *. clear IH Hp. destruct t, seen as [[] [] [] []]; vm_compute in Ht; try discriminate Ht; cbn in Hle, Hj |- *; lia. }
      rewrite E1, Nat.sub_diag in IH. specialize (IH (le_n _)). cbn [length] in *.
      replace (S (length ts) - length (unseen all_selected seen)) with 0 by lia. rewrite Nat.pow_0_r, Nat.mul_1_l in *.
      assert (length (unseen all_selected seen) = S (length ts)) as E2 by lia.
      eapply Nat.le_trans; [apply Nat.mul_le_mono_l, IH|]. rewrite <- E1. clear - Ht. 
      destruct t, seen as [[] [] [] []]; vm_compute in Ht; try discriminate Ht; apply Nat.leb_le; vm_compute; reflexivity.
    + replace ((255 + num_chars all_selected) / num_chars all_selected) with 4 by reflexivity.
      cbn [length] in *. assert (length (unseen all_selected (cs_insert seen t)) = length (unseen all_selected seen) \/
        S (length (unseen all_selected (cs_insert seen t))) = length (unseen all_selected seen)) as [E1|E1].
      { clear. destruct t, seen as [[] [] [] []]; cbn; auto. }
      * rewrite E1 in IH. replace (S (length ts) - length (unseen all_selected seen)) with (S (length ts - length (unseen all_selected seen))) by lia.
        rewrite Hpow. specialize (IH ltac:(lia)). lia.
      * rewrite <- E1. set (j := length (unseen all_selected (cs_insert seen t))) in *. specialize (IH ltac:(lia)).
        replace (S (length ts) - S j) with (length ts - j) by lia. eapply Nat.le_trans; [apply Nat.mul_le_mono_l, IH|].
        assert (S j <= 4) as H4 by (rewrite E1; clear; destruct seen as [[] [] [] []]; cbn; lia).
        assert (4 * most j <= most (S j)) as Hm by (do 4 (destruct j as [|j]; [cbn; lia|]); lia).
        rewrite Nat.mul_assoc, (Nat.mul_comm 4), <- Nat.mul_assoc. apply Nat.mul_le_mono_l, Hm.
Qed.

Lemma at_most n pw L : 4 <= n -> meets_policy n all_selected pw -> NoDup L ->
  (forall l, In l L -> length l = n /\ to_password l all_selected = Ok pw) -> length L <= 4 ^ (n - 4) * (4 * 5 * 9 * 32).
Proof.
  intros Hn (Hlen & ts & Hf & Hrest) HL HI. subst n.
  apply (policy_type_policy all_selected ts pw Hf) in Hrest. apply producible_policy in Hrest; [|apply subset_empty].
  destruct (loop_count all_selected cs_empty (length pw) 0 ts pw (subset_empty _) ltac:(discriminate) eq_refl Hf Hrest) as (L' & H1 & H2 & _ & H3).
  eapply Nat.le_trans; [|eapply Nat.le_trans; [exact H3|]].
  - apply NoDup_incl_length; [exact HL|]. intros l Hl. apply H2. destruct (HI l Hl) as [E1 E2]. split; [exact E1|].
    unfold to_password in E2. rewrite E1 in E2. exact E2.
  - apply Forall2_len in Hf. pose proof (sizes_most ts cs_empty Hrest) as H. change (length (unseen all_selected cs_empty)) with 4 in H.
    rewrite Hf in H. apply H. exact Hn.
Qed.

Lemma complete_length (L L' : list bytes) (R : bytes -> Prop) :
  NoDup L -> NoDup L' -> (forall l, In l L <-> R l) -> (forall l, In l L' <-> R l) -> length L = length L'.
Proof.
  intros H1 H2 H3 H4. apply Nat.le_antisymm; apply NoDup_incl_length; try assumption; intros l Hl.
  - apply H4, H3, Hl.
  - apply H3, H4, Hl.
Qed.

Lemma digits_equal n pw L : let cs := mk_charset false false true false in meets_policy n cs pw -> NoDup L ->
  (forall l, In l L <-> length l = n /\ to_password l cs = Ok pw) -> length L = 32 ^ n.
Proof.
  intros cs Hm HL HI. pose proof Hm as (Hlen & ts & Hf & Ht & _). destruct (count_sequences n cs pw ts ltac:(discriminate) Hm Hf) as (L' & H1 & H2 & H3).
  rewrite (complete_length L L' _ HL H1 HI H2).
  assert (forall f ts missing, Forall (fun t => t = Digit) ts -> (missing = [] \/ missing = [Digit]) ->
    product (map f (choices [Digit] missing ts)) = f 8 ^ length ts) as Hc.
  { clear. intros f ts. induction ts as [|t ts IH]; intros missing H Hd; [reflexivity|].
    inversion H as [|? ? Et H']; subst t; subst. unfold product in *. cbn [choices map fold_right length Nat.pow]. rewrite IH; [|exact H'|].
    - f_equal. f_equal. destruct Hd as [-> | ->]; [reflexivity|]. destruct (_ <? _); reflexivity.
    - left. destruct Hd as [-> | ->]; reflexivity. }
  change (selected_types cs) with [Digit] in H3. rewrite !Hc in H3; [|eapply Forall_impl; [|exact Ht]; intros [] E; try discriminate E; reflexivity|auto..].
  - apply Forall2_len in Hf. rewrite Hf, Hlen in H3. change (256 / 8) with 32 in H3. change ((255 + 8) / 8) with 32 in H3. lia.
  - eapply Forall_impl; [|exact Ht]; intros [] E; try discriminate E; reflexivity.
Qed.

Lemma amount_ok t : exists l, NoDup l /\ (forall c, In c l <-> char_of t c) /\ length l = amount t.
Proof.
  exists (chars_of t). split; [apply no_dup_ok; destruct t; vm_compute; reflexivity|]. split; [intros c; apply in_chars_of|].
  destruct t; reflexivity.
Qed.
