(** Generated passwords: proofs. *)
From Verif Require Import M_Base M_Prims M_Types M_Crypto P_Base S_Policy.
From Coq Require Import ZArith ZifyBool ZifyNat ZifyN.
Ltac Zify.zify_post_hook ::= Z.div_mod_to_equations.

(** * Characters *)

Definition char_ofb (t : ctype) (c : byte) : bool :=
  let n := Byte.to_N c in
  match t with
  | Lower => (97 <=? n)%N && (n <=? 122)%N && negb (contains_byte c (bs "ilo"))
  | Upper => (65 <=? n)%N && (n <=? 90)%N && negb (contains_byte c (bs "ILO"))
  | Digit => (50 <=? n)%N && (n <=? 57)%N
  | Symbol => (33 <=? n)%N && (n <=? 126)%N && negb ((48 <=? n)%N && (n <=? 57)%N) &&
              negb ((65 <=? n)%N && (n <=? 90)%N) && negb ((97 <=? n)%N && (n <=? 122)%N) &&
              negb (contains_byte c [x22; x27; x5c; x60])
  end.

Lemma char_ofb_spec t c : char_ofb t c = true <-> char_of t c.
Proof.
  destruct t; unfold char_ofb, char_of;
    rewrite ?andb_true_iff, ?negb_true_iff, ?andb_false_iff, ?contains_byte_false, ?N.leb_le, ?N.leb_gt;
    intuition lia.
Qed.

Definition chars_of (t : ctype) : bytes :=
  match t with
  | Lower => CHARS_LOWER | Upper => CHARS_UPPER | Digit => CHARS_DIGIT | Symbol => CHARS_SYMBOL
  end.

Lemma in_chars_of t c : In c (chars_of t) <-> char_of t c.
Proof.
  rewrite <- char_ofb_spec, <- contains_byte_spec.
  assert (Bool.eqb (contains_byte c (chars_of t)) (char_ofb t c) = true) as H.
  { destruct t.
    - exact (sweep1 (fun c => Bool.eqb (contains_byte c (chars_of Lower)) (char_ofb Lower c))
                    ltac:(vm_compute; reflexivity) c).
    - exact (sweep1 (fun c => Bool.eqb (contains_byte c (chars_of Upper)) (char_ofb Upper c))
                    ltac:(vm_compute; reflexivity) c).
    - exact (sweep1 (fun c => Bool.eqb (contains_byte c (chars_of Digit)) (char_ofb Digit c))
                    ltac:(vm_compute; reflexivity) c).
    - exact (sweep1 (fun c => Bool.eqb (contains_byte c (chars_of Symbol)) (char_ofb Symbol c))
                    ltac:(vm_compute; reflexivity) c). }
  apply eqb_prop in H. rewrite H. reflexivity.
Qed.

Lemma char_of_unique t1 t2 c : char_of t1 c -> char_of t2 c -> t1 = t2.
Proof. destruct t1, t2; unfold char_of; intuition lia. Qed.

(** * Choosing a character *)

(** Characters available for a set of types, in table order. *)
Definition pool (allowed : charset) (mapping : list (ctype * bytes)) : list (byte * ctype) :=
  flat_map (fun '(t, chars) => if cs_contains allowed t then map (fun c => (c, t)) chars else [])
           mapping.

Lemma pick_char_pool allowed mapping index :
  pick_char allowed mapping index = nth_error (pool allowed mapping) index.
Proof.
  revert index; induction mapping as [|[t chars] mapping IH]; intros index; cbn [pick_char pool flat_map].
  - destruct index; reflexivity.
  - destruct (cs_contains allowed t); [|apply IH].
    destruct (nth_error chars index) as [c|] eqn:E.
    + rewrite nth_error_app1 by (rewrite map_length; apply nth_error_Some; congruence).
      symmetry. apply map_nth_error with (f := fun c => (c, t)), E.
    + apply nth_error_None in E. rewrite nth_error_app2 by (rewrite map_length; exact E).
      rewrite map_length. apply IH.
Qed.

Lemma num_chars_pool allowed : num_chars allowed = length (pool allowed CHARS_MAPPING).
Proof. destruct allowed as [[] [] [] []]; vm_compute; reflexivity. Qed.

Lemma in_pool allowed c t :
  In (c, t) (pool allowed CHARS_MAPPING) <-> cs_contains allowed t = true /\ char_of t c.
Proof.
  rewrite <- in_chars_of. unfold pool. rewrite in_flat_map. split.
  - intros ([t' chars] & Hin & H).
    assert (chars = chars_of t') as ->.
    { unfold CHARS_MAPPING in Hin. cbn [In] in Hin.
      destruct Hin as [E|[E|[E|[E|[]]]]]; injection E as <- <-; reflexivity. }
    destruct (cs_contains allowed t') eqn:E; [|destruct H].
    apply in_map_iff in H. destruct H as (c' & [= -> ->] & Hc). split; assumption.
  - intros [Ha Hc]. exists (t, chars_of t). split.
    + destruct t; unfold CHARS_MAPPING; cbn; auto.
    + rewrite Ha. apply in_map_iff. exists c. split; [reflexivity|exact Hc].
Qed.

Lemma pool_length_le allowed : length (pool allowed CHARS_MAPPING) <= 82.
Proof. rewrite <- num_chars_pool. destruct allowed as [[] [] [] []]; vm_compute; lia. Qed.

Lemma num_chars_zero allowed : num_chars allowed = 0 <-> cs_len allowed = 0.
Proof. destruct allowed as [[] [] [] []]; vm_compute; split; congruence. Qed.

(** * The loop *)

Definition subset (a b : charset) : Prop := forall t, cs_contains a t = true -> cs_contains b t = true.

(** Types that may be used next. *)
Definition allowed_types (cs seen : charset) (remaining : nat) : charset :=
  if remaining <=? cs_len cs - cs_len seen then cs_diff cs seen else cs.

(** Type sequences the loop can produce. *)
Fixpoint producible (cs seen : charset) (ts : list ctype) : Prop :=
  match ts with
  | [] => True
  | t :: ts' =>
      cs_contains (allowed_types cs seen (length ts)) t = true /\ producible cs (cs_insert seen t) ts'
  end.

Lemma subset_insert seen cs t :
  subset seen cs -> cs_contains cs t = true -> subset (cs_insert seen t) cs.
Proof.
  intros Hs Ht t' Ht'. specialize (Hs t'). destruct t, t'; cbn in *; auto.
Qed.

Lemma allowed_subset cs seen r t :
  cs_contains (allowed_types cs seen r) t = true -> cs_contains cs t = true.
Proof.
  unfold allowed_types. destruct (r <=? cs_len cs - cs_len seen); [|auto].
  destruct t; cbn; rewrite andb_true_iff; tauto.
Qed.

Lemma cs_diff_len cs seen : subset seen cs -> cs_len (cs_diff cs seen) = cs_len cs - cs_len seen.
Proof.
  intros H. pose proof (H Lower); pose proof (H Upper); pose proof (H Digit); pose proof (H Symbol).
  destruct cs as [[] [] [] []], seen as [[] [] [] []]; cbn in *; intuition congruence.
Qed.

Lemma allowed_nonempty cs seen r :
  subset seen cs -> cs_len cs <> 0 -> 0 < r -> num_chars (allowed_types cs seen r) <> 0.
Proof.
  intros Hs Hne Hr. rewrite num_chars_zero. unfold allowed_types.
  destruct (Nat.leb_spec r (cs_len cs - cs_len seen)); [|exact Hne].
  rewrite cs_diff_len by exact Hs. lia.
Qed.

Lemma loop_sound cs seen len i l :
  subset seen cs -> cs_len cs <> 0 -> i + length l = len ->
  exists pw ts, to_password_loop cs seen len i l = Ok pw /\
                Forall2 char_of ts pw /\ producible cs seen ts /\ length pw = length l.
Proof.
  intros Hs Hne. revert seen i Hs; induction l as [|b l IH]; intros seen i Hs Hl.
  - exists [], []. repeat split; constructor.
  - cbn [to_password_loop length] in *.
    replace (len - i) with (S (length l)) by lia.
    fold (allowed_types cs seen (S (length l))).
    pose proof (allowed_nonempty cs seen (S (length l)) Hs Hne ltac:(lia)) as Hn.
    destruct (Nat.eqb_spec (num_chars (allowed_types cs seen (S (length l)))) 0) as [E|_];
      [contradiction|].
    rewrite pick_char_pool.
    assert (b_nat b mod num_chars (allowed_types cs seen (S (length l))) <
            length (pool (allowed_types cs seen (S (length l))) CHARS_MAPPING)) as Hlt.
    { rewrite <- num_chars_pool. apply Nat.mod_upper_bound, Hn. }
    destruct (nth_error (pool (allowed_types cs seen (S (length l))) CHARS_MAPPING) _)
      as [[c t]|] eqn:E.
    2:{ apply nth_error_None in E. lia. }
    apply nth_error_In, in_pool in E. destruct E as [Ht Hc].
    destruct (IH (cs_insert seen t) (S i)) as (pw & ts & Hpw & Hf & Hp & Hlen).
    + apply subset_insert; [exact Hs|]. eapply allowed_subset; exact Ht.
    + lia.
    + rewrite Hpw. cbn [bind]. exists (c :: pw), (t :: ts). split; [reflexivity|].
      split; [constructor; assumption|]. cbn [length]. split; [|congruence].
      cbn [producible length]. split; [|exact Hp].
      apply Forall2_len in Hf. rewrite Hf, Hlen. exact Ht.
Qed.

Lemma loop_complete cs seen len i ts pw :
  subset seen cs -> cs_len cs <> 0 -> i + length pw = len ->
  Forall2 char_of ts pw -> producible cs seen ts ->
  exists l, length l = length pw /\ to_password_loop cs seen len i l = Ok pw.
Proof.
  intros Hs Hne Hl Hf. revert seen i Hs Hl; induction Hf as [|t c ts pw Hc Hf IH];
    intros seen i Hs Hl Hp.
  - exists []. split; reflexivity.
  - cbn [producible length] in *. destruct Hp as [Ht Hp].
    pose proof (Forall2_len _ _ _ Hf) as Hlen. rewrite Hlen in Ht.
    destruct (IH (cs_insert seen t) (S i)) as (l & Hll & Hl2).
    { apply subset_insert; [exact Hs|]. eapply allowed_subset; exact Ht. }
    { lia. }
    { exact Hp. }
    assert (In (c, t) (pool (allowed_types cs seen (S (length pw))) CHARS_MAPPING)) as Hin
      by (apply in_pool; split; assumption).
    apply In_nth_error in Hin. destruct Hin as [k Hk].
    assert (k < length (pool (allowed_types cs seen (S (length pw))) CHARS_MAPPING)) as Hklt
      by (apply nth_error_Some; congruence).
    pose proof (pool_length_le (allowed_types cs seen (S (length pw)))) as Hle.
    exists (u8 (N.of_nat k) :: l). split; [cbn [length]; congruence|].
    cbn [to_password_loop length].
    replace (len - i) with (S (length pw)) by lia.
    fold (allowed_types cs seen (S (length pw))).
    pose proof (allowed_nonempty cs seen (S (length pw)) Hs Hne ltac:(lia)) as Hn.
    destruct (Nat.eqb_spec (num_chars (allowed_types cs seen (S (length pw)))) 0) as [E|_];
      [contradiction|].
    rewrite pick_char_pool.
    assert (b_nat (u8 (N.of_nat k)) = k) as ->.
    { unfold b_nat. rewrite to_N_u8. rewrite N.mod_small by lia. lia. }
    rewrite Nat.mod_small by (rewrite num_chars_pool; exact Hklt).
    rewrite Hk, Hl2. reflexivity.
Qed.

(** * Type sequences *)

Definition unseen (cs seen : charset) : list ctype :=
  filter (fun t => cs_contains cs t && negb (cs_contains seen t)) all_types.

Lemma in_all_types t : In t all_types.
Proof. destruct t; cbn; auto. Qed.

Lemma in_unseen cs seen t :
  In t (unseen cs seen) <-> cs_contains cs t = true /\ cs_contains seen t = false.
Proof.
  unfold unseen. rewrite filter_In, andb_true_iff, negb_true_iff.
  pose proof (in_all_types t). tauto.
Qed.

Lemma NoDup_all_types : NoDup all_types.
Proof. unfold all_types. repeat constructor; cbn; intuition congruence. Qed.

Lemma NoDup_unseen cs seen : NoDup (unseen cs seen).
Proof. apply NoDup_filter, NoDup_all_types. Qed.

Lemma length_unseen cs seen : subset seen cs -> length (unseen cs seen) = cs_len cs - cs_len seen.
Proof.
  intros H. pose proof (H Lower); pose proof (H Upper); pose proof (H Digit); pose proof (H Symbol).
  destruct cs as [[] [] [] []], seen as [[] [] [] []]; cbn in *; intuition congruence.
Qed.

Lemma contains_insert s t t' :
  cs_contains (cs_insert s t) t' = true <-> t' = t \/ cs_contains s t' = true.
Proof. destruct t, t'; cbn; intuition congruence. Qed.

Lemma contains_insert_false s t t' :
  cs_contains (cs_insert s t) t' = false <-> t' <> t /\ cs_contains s t' = false.
Proof.
  rewrite <- !not_true_iff_false, contains_insert. tauto.
Qed.

Lemma ctype_dec (a b : ctype) : {a = b} + {a <> b}.
Proof. decide equality. Qed.

Lemma unseen_insert_new cs seen t :
  cs_contains cs t = true -> cs_contains seen t = false ->
  S (length (unseen cs (cs_insert seen t))) = length (unseen cs seen).
Proof.
  intros H1 H2. destruct t, cs as [[] [] [] []], seen as [[] [] [] []]; cbn in *; congruence.
Qed.

Lemma unseen_insert_old cs seen t :
  cs_contains seen t = true -> unseen cs (cs_insert seen t) = unseen cs seen.
Proof. intros H2. destruct t, seen as [[] [] [] []]; cbn in *; try discriminate; reflexivity. Qed.

Definition type_policy (cs seen : charset) (ts : list ctype) : Prop :=
  Forall (fun t => cs_contains cs t = true) ts /\
  (length (unseen cs seen) <= length ts -> forall t, In t (unseen cs seen) -> In t ts) /\
  (length ts < length (unseen cs seen) -> NoDup ts /\ forall t, In t ts -> cs_contains seen t = false).

Lemma diff_contains cs seen t :
  cs_contains (cs_diff cs seen) t = true <-> In t (unseen cs seen).
Proof. rewrite in_unseen. destruct t; cbn; rewrite andb_true_iff, negb_true_iff; reflexivity. Qed.

Lemma producible_policy cs seen ts :
  subset seen cs -> producible cs seen ts <-> type_policy cs seen ts.
Proof.
  revert seen; induction ts as [|t ts IH]; intros seen Hs.
  - cbn [producible]. split; [intros _|intros _; exact I].
    split; [constructor|]. split.
    + cbn [length]. intros Hl t Ht. destruct (unseen cs seen); [destruct Ht|cbn in Hl; lia].
    + intros _. split; [constructor|intros t []].
  - cbn [producible]. unfold allowed_types. rewrite <- length_unseen by exact Hs.
    cbn [length]. split.
    + intros [Ht Hp].
      assert (cs_contains cs t = true) as Htc.
      { destruct (S (length ts) <=? _); [apply diff_contains, in_unseen in Ht; tauto|exact Ht]. }
      apply IH in Hp; [|apply subset_insert; assumption].
      destruct Hp as (Hf & Hge & Hlt). split; [constructor; assumption|].
      destruct (Nat.leb_spec (S (length ts)) (length (unseen cs seen))) as [Hle|Hgt].
      * apply diff_contains in Ht. pose proof Ht as Hu. apply in_unseen in Ht. destruct Ht as [_ Hn].
        pose proof (unseen_insert_new cs seen t Htc Hn) as Hlen. split.
        { cbn [length]. intros Hle2 t' Ht'. destruct (ctype_dec t' t) as [->|Hne]; [left; reflexivity|right].
          apply Hge; [lia|]. apply in_unseen. apply in_unseen in Ht'.
          split; [tauto|]. apply contains_insert_false. tauto. }
        { cbn [length]. intros Hlt2. destruct Hlt as [Hnd Hns]; [lia|]. split.
          - constructor; [|exact Hnd]. intros Hin. apply Hns in Hin.
            apply contains_insert_false in Hin. tauto.
          - intros t' [<-|Hin]; [exact Hn|]. apply Hns, contains_insert_false in Hin. tauto. }
      * split; [|cbn [length]; lia]. intros _ t' Ht'.
        destruct (ctype_dec t' t) as [->|Hne]; [left; reflexivity|right].
        destruct (cs_contains seen t) eqn:E.
        { rewrite unseen_insert_old in Hge by exact E. apply Hge; [lia|exact Ht']. }
        { pose proof (unseen_insert_new cs seen t Htc E) as Hlen.
          apply Hge; [lia|]. apply in_unseen. apply in_unseen in Ht'.
          split; [tauto|]. apply contains_insert_false. tauto. }
    + intros (Hf & Hge & Hlt). inversion Hf as [|? ? Htc Hf']; subst. cbn [length] in *.
      assert (S (length ts) <= length (unseen cs seen) -> cs_contains seen t = false) as Hnew.
      { intros Hle. destruct (Nat.eq_dec (S (length ts)) (length (unseen cs seen))) as [He|He].
        - destruct (cs_contains seen t) eqn:E; [|reflexivity]. exfalso.
          assert (incl (unseen cs seen) ts) as Hincl.
          { intros t' Ht'. pose proof Ht' as Ht2. apply Hge in Ht'; [|lia].
            destruct Ht' as [<-|Hi]; [|exact Hi]. apply in_unseen in Ht2. destruct Ht2; congruence. }
          apply NoDup_incl_length in Hincl; [lia|apply NoDup_unseen].
        - apply Hlt; [lia|left; reflexivity]. }
      split.
      * destruct (Nat.leb_spec (S (length ts)) (length (unseen cs seen))) as [Hle|Hgt]; [|exact Htc].
        apply diff_contains, in_unseen. split; [exact Htc|apply Hnew, Hle].
      * apply IH; [apply subset_insert; assumption|]. split; [exact Hf'|]. split.
        { intros Hle t' Ht'. pose proof Ht' as Ht2. apply in_unseen in Ht2.
          destruct Ht2 as [Hc2 Hn2]. apply contains_insert_false in Hn2. destruct Hn2 as [Hne Hn2].
          destruct (Nat.le_gt_cases (length (unseen cs seen)) (S (length ts))) as [Hl2|Hl2].
          - destruct (Hge Hl2 t') as [E|E]; [apply in_unseen; tauto|congruence|exact E].
          - exfalso. pose proof (unseen_insert_new cs seen t Htc (Hnew ltac:(lia))). lia. }
        { intros Hl2.
          assert (S (length ts) < length (unseen cs seen)) as Hl3.
          { destruct (cs_contains seen t) eqn:E.
            - rewrite unseen_insert_old in Hl2 by exact E.
              destruct (Nat.eq_dec (S (length ts)) (length (unseen cs seen))) as [He|He]; [|lia].
              exfalso. specialize (Hnew ltac:(lia)). congruence.
            - pose proof (unseen_insert_new cs seen t Htc E). lia. }
          destruct (Hlt Hl3) as [Hnd Hns]. inversion Hnd as [|? ? Hnin Hnd']; subst.
          split; [exact Hnd'|]. intros t' Ht'. apply contains_insert_false.
          split; [intros ->; exact (Hnin Ht')|apply Hns; right; exact Ht']. }
Qed.

(** * Statements *)

Lemma selected_count_unseen cs : selected_count cs = length (unseen cs cs_empty).
Proof. destruct cs as [[] [] [] []]; reflexivity. Qed.

Lemma selected_count_len cs : selected_count cs = cs_len cs.
Proof. destruct cs as [[] [] [] []]; reflexivity. Qed.

Lemma in_unseen_empty cs t : In t (unseen cs cs_empty) <-> cs_contains cs t = true.
Proof. rewrite in_unseen. destruct t; cbn; tauto. Qed.

Lemma subset_empty cs : subset cs_empty cs.
Proof. intros t H. destruct t; discriminate H. Qed.

Lemma policy_type_policy cs ts pw :
  Forall2 char_of ts pw ->
  type_policy cs cs_empty ts <->
  (Forall (fun t => cs_contains cs t = true) ts /\
   (selected_count cs <= length pw -> forall t, cs_contains cs t = true -> In t ts) /\
   (length pw < selected_count cs -> NoDup ts)).
Proof.
  intros Hf. apply Forall2_len in Hf. unfold type_policy. rewrite selected_count_unseen, <- Hf.
  split; intros (H1 & H2 & H3); (split; [exact H1|]); split.
  - intros Hl t Ht. apply H2; [exact Hl|]. apply in_unseen_empty, Ht.
  - intros Hl. apply H3, Hl.
  - intros Hl t Ht. apply H2; [exact Hl|]. apply in_unseen_empty, Ht.
  - intros Hl. split; [apply H3, Hl|]. intros t _. destruct t; reflexivity.
Qed.

Lemma to_password_ok l cs :
  cs_len cs <> 0 -> exists pw, to_password l cs = Ok pw /\ meets_policy (length l) cs pw.
Proof.
  intros Hne.
  destruct (loop_sound cs cs_empty (length l) 0 l (subset_empty cs) Hne eq_refl)
    as (pw & ts & Hpw & Hf & Hp & Hlen).
  exists pw. split; [exact Hpw|]. split; [exact Hlen|]. exists ts. split; [exact Hf|].
  rewrite <- Hlen. apply (policy_type_policy cs ts pw Hf).
  apply producible_policy; [apply subset_empty|exact Hp].
Qed.

Lemma to_password_policy l cs pw :
  cs_len cs <> 0 -> to_password l cs = Ok pw -> meets_policy (length l) cs pw.
Proof.
  intros Hne H. destruct (to_password_ok l cs Hne) as (pw' & H' & Hm). congruence.
Qed.

Lemma to_password_surj n cs pw :
  cs_len cs <> 0 ->
  meets_policy n cs pw <-> exists l, length l = n /\ to_password l cs = Ok pw.
Proof.
  intros Hne. split.
  - intros (Hlen & ts & Hf & Hrest). subst n.
    apply (policy_type_policy cs ts pw Hf) in Hrest.
    apply producible_policy in Hrest; [|apply subset_empty].
    destruct (loop_complete cs cs_empty (length pw) 0 ts pw (subset_empty cs) Hne eq_refl Hf Hrest)
      as (l & Hl & Hr).
    exists l. split; [exact Hl|]. unfold to_password. rewrite Hl. exact Hr.
  - intros (l & <- & H). apply to_password_policy; assumption.
Qed.

Lemma to_password_empty_charset l : to_password l cs_empty = match l with [] => Ok [] | _ => Panic end.
Proof.
  destruct l as [|b l]; [reflexivity|]. unfold to_password. cbn [to_password_loop].
  change (cs_len cs_empty) with 0. cbn [Nat.sub].
  destruct (length (b :: l) - 0 <=? 0); reflexivity.
Qed.

Lemma cs_len_zero cs : cs_len cs = 0 <-> cs = cs_empty.
Proof. destruct cs as [[] [] [] []]; vm_compute; split; congruence. Qed.

Lemma no_ambiguous n cs pw c :
  meets_policy n cs pw -> In c pw -> ~ In c (bs "IlioOL01""'\`").
Proof.
  intros (_ & ts & Hf & _) Hin Hbad.
  assert (exists t, char_of t c) as [t Ht].
  { clear - Hf Hin. induction Hf as [|t c' ts pw Hc _ IH]; [destruct Hin|].
    destruct Hin as [->|Hin]; [exists t; exact Hc|apply IH, Hin]. }
  apply char_ofb_spec in Ht.
  pose proof (sweep1 (fun c => implb (contains_byte c (bs "IlioOL01""'\`"))
     (negb (char_ofb Lower c) && negb (char_ofb Upper c) && negb (char_ofb Digit c) &&
      negb (char_ofb Symbol c))) ltac:(vm_compute; reflexivity) c) as Hs.
  cbn beta in Hs. apply contains_byte_spec in Hbad. rewrite Hbad in Hs. cbn [implb] in Hs.
  rewrite !andb_true_iff, !negb_true_iff in Hs. destruct Hs as [[[H1 H2] H3] H4].
  destruct t; congruence.
Qed.

(** When deriving a password panics. *)
Lemma derive_password_panic P pp salt len cs :
  prims_ok P ->
  derive_password P pp salt len cs = Panic <->
  (len = 0 \/ cs = cs_empty \/ 137438953471 < len)%N.
Proof.
  intros HP. unfold derive_password, derive_bits.
  destruct (N.eqb_spec len 0) as [->|Hlen].
  { cbn. split; [intros _; left; reflexivity|reflexivity]. }
  cbn [orb].
  destruct (N.ltb_spec 4294967295 (len / 32)) as [Hbig|Hsmall].
  { cbn [bind]. split; [intros _; right; right; lia|reflexivity]. }
  cbn [bind].
  destruct (Nat.eq_dec (cs_len cs) 0) as [E|E].
  - apply cs_len_zero in E. subst. rewrite to_password_empty_charset.
    pose proof (ok_scrypt_len P HP pp salt (N.to_nat len)) as Hl.
    destruct (p_scrypt P pp salt (N.to_nat len)); [cbn in Hl; lia|].
    split; [intros _; right; left; reflexivity|reflexivity].
  - destruct (to_password_ok (p_scrypt P pp salt (N.to_nat len)) cs E) as (pw & Hpw & _).
    rewrite Hpw. split; [discriminate|]. intros [H|[H|H]].
    + lia.
    + apply cs_len_zero in H. lia.
    + lia.
Qed.

Lemma derive_password_policy P pp salt len cs :
  prims_ok P -> (0 < len < 137438953472)%N -> cs <> cs_empty ->
  exists pw, derive_password P pp salt len cs = Ok pw /\ meets_policy (N.to_nat len) cs pw.
Proof.
  intros HP Hlen Hcs. unfold derive_password, derive_bits.
  destruct (N.eqb_spec len 0) as [->|_]; [lia|]. cbn [orb].
  destruct (N.ltb_spec 4294967295 (len / 32)) as [Hbig|_]; [lia|]. cbn [bind].
  destruct (to_password_ok (p_scrypt P pp salt (N.to_nat len)) cs) as (pw & Hpw & Hm).
  { intros E. apply Hcs, cs_len_zero, E. }
  exists pw. split; [exact Hpw|]. rewrite (ok_scrypt_len P HP) in Hm. exact Hm.
Qed.
