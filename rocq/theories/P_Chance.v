(** Counting sequences of random values. *)
From stdpp Require Import gmap.
From Coq Require Import ZArith ZifyBool ZifyNat ZifyN.
From Verif Require Import M_Base M_Prims M_Types M_Crypto M_Recovery M_Json M_Serde M_Storage M_Passwords M_History S_Vault S_Api S_Chance
  P_Base P_Count P_Api.

(** * Sequences of elements of a list *)

Lemma apart_NoDup {A} (l q : list A) : List.NoDup l -> List.NoDup q -> (forall a, In a l -> ~ In a q) -> List.NoDup (l ++ q).
Proof.
  intros Hl Hq H. induction Hl as [|a l Ha Hl IH]; [exact Hq|]. cbn [app]. constructor.
  - rewrite in_app_iff. intros [H'|H']; [contradiction|exact (H a (or_introl eq_refl) H')].
  - apply IH. intros b Hb. apply H. right. exact Hb.
Qed.

Fixpoint tuples {A} (l : list A) (n : nat) : list (list A) :=
  match n with 0 => [[]] | S n' => flat_map (fun a => map (cons a) (tuples l n')) l end.
Lemma in_tuples {A} (l : list A) n t : In t (tuples l n) <-> length t = n /\ forall a, In a t -> In a l.
Proof.
  revert t. induction n as [|n IH]; intros t; cbn [tuples].
  - split.
    + intros [<-|[]]. split; [reflexivity|intros a []].
    + intros [H _]. destruct t; [left; reflexivity|discriminate H].
  - rewrite in_flat_map. split.
    + intros (a & Ha & Ht). apply in_map_iff in Ht. destruct Ht as (u & <- & Hu). apply IH in Hu. destruct Hu as [H1 H2].
      split; [cbn; lia|]. intros b [<-|Hb]; auto.
    + intros [H1 H2]. destruct t as [|a t]; [discriminate H1|]. exists a. split; [apply H2; left; reflexivity|].
      apply in_map, IH. split; [cbn in H1; lia|]. intros b Hb. apply H2. right. exact Hb.
Qed.
Lemma tuples_NoDup {A} (l : list A) n : List.NoDup l -> List.NoDup (tuples l n).
Proof.
  intros Hl. induction n as [|n IH]; cbn [tuples]; [constructor; [intros []|constructor]|].
  generalize Hl. generalize l at 1 3 as q. induction q as [|a q IHq]; intros Hq; cbn [flat_map]; [constructor|]. inversion Hq; subst.
  apply apart_NoDup.
  - apply FinFun.Injective_map_NoDup; [intros x y [=]; assumption|exact IH].
  - apply IHq; assumption.
  - intros t Ht Ht'. apply in_map_iff in Ht. destruct Ht as (u & <- & _). apply in_flat_map in Ht'.
    destruct Ht' as (b & Hb & Hu). apply in_map_iff in Hu. destruct Hu as (w & [= -> _] & _). contradiction.
Qed.
Lemma length_flat_cons {A} (l : list A) (q : list (list A)) : length (flat_map (fun a => map (cons a) q) l) = length l * length q.
Proof. induction l as [|a l IH]; [reflexivity|]. cbn [flat_map length]. rewrite app_length, map_length, IH. reflexivity. Qed.
Lemma length_tuples {A} (l : list A) n : N.of_nat (length (tuples l n)) = (N.of_nat (length l) ^ N.of_nat n)%N.
Proof.
  induction n as [|n IH]; [reflexivity|]. cbn [tuples]. rewrite Nat2N.inj_succ, N.pow_succ_r', length_flat_cons, Nat2N.inj_mul, IH. reflexivity.
Qed.

Definition texts_of (n : nat) : list bytes := tuples all_bytes n.
Lemma in_texts_of n t : In t (texts_of n) <-> length t = n.
Proof. unfold texts_of. rewrite in_tuples. split; [tauto|]. intros H. split; [exact H|]. intros a _. apply in_all_bytes. Qed.
Lemma texts_of_NoDup n : List.NoDup (texts_of n).
Proof. apply tuples_NoDup, all_bytes_NoDup. Qed.
Lemma length_texts_of n : N.of_nat (length (texts_of n)) = (2 ^ (8 * N.of_nat n))%N.
Proof.
  unfold texts_of. rewrite length_tuples. rewrite N.pow_mul_r. f_equal.
Qed.

Definition tapes (n : nat) : list tape := tuples (texts_of 32) n.
Lemma in_tapes n T : In T (tapes n) <-> tape_ok n T.
Proof.
  unfold tapes, tape_ok. rewrite in_tuples, List.Forall_forall. split; intros [H1 H2]; (split; [exact H1|]); intros b Hb;
    apply in_texts_of, H2, Hb.
Qed.
Lemma tapes_NoDup n : List.NoDup (tapes n).
Proof. apply tuples_NoDup, texts_of_NoDup. Qed.
Lemma length_tapes n : N.of_nat (length (tapes n)) = (2 ^ (256 * N.of_nat n))%N.
Proof.
  unfold tapes. rewrite length_tuples, length_texts_of, (N.pow_mul_r 2 256). f_equal.
Qed.

(** * Two blocks that start alike *)

Definition prefix (T : tape) (i : nat) : bytes := firstn 12 (nth i T []).
Definition alike_at (p : nat * nat) (T : tape) : bool := bytes_eqb (prefix T p.1) (prefix T p.2).

Fixpoint replace_at {A} (l : list A) (i : nat) (f : A -> A) : list A :=
  match l, i with
  | [], _ => []
  | a :: l', 0 => f a :: l'
  | a :: l', S i' => a :: replace_at l' i' f
  end.
Lemma length_replace {A} (l : list A) i f : length (replace_at l i f) = length l.
Proof. revert i. induction l as [|a l IH]; intros [|i]; cbn; auto. Qed.
Lemma nth_replace {A} (l : list A) i f d : i < length l -> nth i (replace_at l i f) d = f (nth i l d).
Proof. revert i. induction l as [|a l IH]; intros [|i] H; cbn in *; try lia; [reflexivity|]. apply IH. lia. Qed.
Lemma nth_replace_other {A} (l : list A) i j f d : i <> j -> nth j (replace_at l i f) d = nth j l d.
Proof.
  revert i j. induction l as [|a l IH]; intros [|i] [|j] H; cbn; try reflexivity; try lia. apply IH. lia.
Qed.
Lemma replace_eq {A} (l l' : list A) i f f' d : length l = length l' -> replace_at l i f = replace_at l' i f' ->
  forall j, j <> i -> nth j l d = nth j l' d.
Proof.
  intros Hl E j Hj. rewrite <- (nth_replace_other l i j f d), E, nth_replace_other by auto. reflexivity.
Qed.

Definition put_prefix (j : nat) (p : bytes) (T : tape) : tape := replace_at T j (fun b => p ++ skipn 12 b).
Lemma put_prefix_ok n j p T : tape_ok n T -> length p = 12 -> tape_ok n (put_prefix j p T).
Proof.
  intros [H1 H2] Hp. unfold put_prefix. split; [rewrite length_replace; exact H1|].
  clear H1. revert j. induction H2 as [|b T Hb HT IH]; intros [|j]; cbn [replace_at]; constructor; auto.
  rewrite app_length, skipn_length. lia.
Qed.

Lemma nth_block n T i : tape_ok n T -> i < n -> length (nth i T []) = 32.
Proof. intros [H1 H2] Hi. rewrite List.Forall_forall in H2. apply H2, nth_In. lia. Qed.

Lemma put_prefix_inj n i j p p' T T' : i < n -> j < n -> i <> j -> tape_ok n T -> tape_ok n T' -> length p = 12 -> length p' = 12 ->
  alike_at (i, j) T = true -> alike_at (i, j) T' = true -> put_prefix j p T = put_prefix j p' T' -> T = T' /\ p = p'.
Proof.
  intros Hi Hj Hij HT HT' Hp Hp' Ha Ha' E. unfold alike_at, prefix in Ha, Ha'. cbn [fst snd] in Ha, Ha'.
  apply bytes_eqb_eq in Ha. apply bytes_eqb_eq in Ha'.
  assert (length T = length T') as Hl by (destruct HT, HT'; congruence).
  assert (forall k, k <> j -> nth k T [] = nth k T' []) as Ho by (intros k Hk; exact (replace_eq T T' j _ _ [] Hl E k Hk)).
  assert (nth j (put_prefix j p T) [] = nth j (put_prefix j p' T') []) as En by (rewrite E; reflexivity).
  unfold put_prefix in En. rewrite !nth_replace in En by (destruct HT, HT'; lia).
  apply app_inj_1 in En; [|congruence]. destruct En as [-> En]. split; [|reflexivity].
  apply (nth_ext T T' [] []); [exact Hl|]. intros k Hk. destruct (Nat.eq_dec k j) as [->|Hkj]; [|apply Ho, Hkj].
  rewrite <- (firstn_skipn 12 (nth j T [])), <- (firstn_skipn 12 (nth j T' [])), En. f_equal.
  rewrite <- Ha, <- Ha'. f_equal. apply Ho. exact Hij.
Qed.

Lemma NoDup_map_on {A B} (f : A -> B) l : (forall x y, In x l -> In y l -> f x = f y -> x = y) -> List.NoDup l -> List.NoDup (map f l).
Proof.
  intros Hf Hl. induction Hl as [|a l Ha Hl IH]; cbn [map]; [constructor|]. constructor.
  - intros H. apply in_map_iff in H. destruct H as (b & E & Hb). apply Ha. rewrite (Hf a b); [exact Hb|left; reflexivity|right; exact Hb|auto].
  - apply IH. intros x y Hx Hy. apply Hf; right; assumption.
Qed.
Lemma NoDup_prod {A B} (l : list A) (q : list B) : List.NoDup l -> List.NoDup q -> List.NoDup (list_prod l q).
Proof.
  intros Hl Hq. induction Hl as [|a l Ha Hl IH]; cbn [list_prod]; [constructor|]. apply apart_NoDup.
  - apply FinFun.Injective_map_NoDup; [intros x y [=]; assumption|exact Hq].
  - exact IH.
  - intros [x y] Hx Hy. apply in_map_iff in Hx. destruct Hx as (z & [= <- <-] & _). apply in_prod_iff in Hy. tauto.
Qed.

Lemma alike_few n i j (B : list tape) : i < n -> j < n -> i <> j -> List.NoDup B -> (forall T, In T B -> tape_ok n T /\ alike_at (i, j) T = true) ->
  length B * length (texts_of 12) <= length (tapes n).
Proof.
  intros Hi Hj Hij HB Hok. rewrite <- prod_length, <- (map_length (fun Tp => put_prefix j Tp.2 Tp.1) (list_prod B (texts_of 12))).
  apply NoDup_incl_length.
  - apply NoDup_map_on; [|apply NoDup_prod; [exact HB|apply texts_of_NoDup]].
    intros [T p] [T' p'] H H' E. apply in_prod_iff in H, H'. destruct H as [HT Hp], H' as [HT' Hp']. apply in_texts_of in Hp, Hp'.
    destruct (Hok _ HT) as [H1 H2], (Hok _ HT') as [H1' H2']. cbn [fst snd] in E.
    destruct (put_prefix_inj n i j p p' T T' Hi Hj Hij H1 H1' Hp Hp' H2 H2' E) as [-> ->]. reflexivity.
  - intros T H. apply in_map_iff in H. destruct H as ([T0 p] & <- & H). apply in_prod_iff in H. destruct H as [HT Hp].
    apply in_tapes, put_prefix_ok; [apply Hok, HT|apply in_texts_of, Hp].
Qed.

(** * All pairs *)

Fixpoint pairs_below (n : nat) : list (nat * nat) :=
  match n with 0 => [] | S n' => map (fun i => (i, n')) (seq 0 n') ++ pairs_below n' end.
Lemma in_pairs n i j : In (i, j) (pairs_below n) <-> i < j < n.
Proof.
  induction n as [|n IH]; cbn [pairs_below]; [split; [intros []|lia]|]. rewrite in_app_iff, in_map_iff, IH. split.
  - intros [(k & [= <- <-] & Hk)|H]; [apply in_seq in Hk; lia|lia].
  - intros H. destruct (Nat.eq_dec j n) as [->|Hj]; [left; exists i; split; [reflexivity|apply in_seq; lia]|right; lia].
Qed.
Lemma length_pairs n : 2 * length (pairs_below n) = n * (n - 1).
Proof.
  induction n as [|n IH]; [reflexivity|]. cbn [pairs_below]. rewrite app_length, map_length, seq_length. destruct n; [reflexivity|]. nia.
Qed.

Lemma union_bound {A K} (c : K -> A -> bool) (ks : list K) (l : list A) :
  (forall a, In a l -> exists k, In k ks /\ c k a = true) ->
  length l <= list_sum (map (fun k => length (List.filter (c k) l)) ks).
Proof.
  induction l as [|a l IH]; intros H; [cbn; lia|].
  specialize (IH (fun b Hb => H b (or_intror Hb))).
  destruct (H a (or_introl eq_refl)) as (k & Hk & Hc).
  assert (forall ks, list_sum (map (fun k => length (List.filter (c k) l)) ks) <= list_sum (map (fun k => length (List.filter (c k) (a :: l))) ks)) as Hm.
  { intros q. induction q as [|x q IHq]; [cbn; lia|]. cbn [map]. unfold list_sum in *. cbn [fold_right List.filter].
    destruct (c x a); cbn [length]; cbn [List.filter] in IHq; lia. }
  apply in_split in Hk. destruct Hk as (k1 & k2 & ->). rewrite map_app, list_sum_app in *. cbn [map] in *.
  pose proof (Hm k1) as M1. pose proof (Hm k2) as M2.
  assert (length (List.filter (c k) (a :: l)) = S (length (List.filter (c k) l))) as Hk.
  { cbn [List.filter]. rewrite Hc. reflexivity. }
  rewrite Hk. unfold list_sum in *. cbn [fold_right] in *. change (length (a :: l)) with (S (length l)). lia.
Qed.

Lemma sum_bound (f : nat * nat -> nat) ks x m : (forall k, In k ks -> f k * x <= m) -> list_sum (map f ks) * x <= length ks * m.
Proof.
  induction ks as [|k ks IH]; intros H; [cbn; lia|]. specialize (IH (fun q Hq => H q (or_intror Hq))).
  specialize (H k (or_introl eq_refl)). unfold list_sum in *. cbn [map fold_right length]. nia.
Qed.

Lemma alike_bound n (B : list tape) : List.NoDup B -> (forall T, In T B -> tape_ok n T /\ exists i j, i < j < n /\ prefix T i = prefix T j) ->
  (N.of_nat (length B) * 2 ^ 97 <= N.of_nat (n * (n - 1)) * 2 ^ (256 * N.of_nat n))%N.
Proof.
  intros HB Hok.
  assert (length B <= list_sum (map (fun k => length (List.filter (alike_at k) B)) (pairs_below n))) as H1.
  { apply union_bound. intros T HT. destruct (Hok T HT) as (_ & i & j & Hij & E). exists (i, j). split; [apply in_pairs, Hij|].
    unfold alike_at. cbn [fst snd]. apply bytes_eqb_eq, E. }
  assert (list_sum (map (fun k => length (List.filter (alike_at k) B)) (pairs_below n)) * length (texts_of 12) <=
          length (pairs_below n) * length (tapes n)) as H2.
  { apply sum_bound. intros [i j] Hk. apply in_pairs in Hk. apply (alike_few n i j); [lia..|apply List.NoDup_filter, HB|].
    intros T HT. apply filter_In in HT. destruct HT as [HT Ha]. split; [apply Hok, HT|exact Ha]. }
  assert (2 * (length B * length (texts_of 12)) <= n * (n - 1) * length (tapes n)) as H3.
  { rewrite <- length_pairs. nia. }
  clear H1 H2. pose proof (length_texts_of 12) as Ht. pose proof (length_tapes n) as HT. revert Ht HT H3.
  generalize (length (texts_of 12)) (length (tapes n)). intros x y Hx Hy H3.
  rewrite <- Hy. replace (2 ^ 97)%N with (2 * 2 ^ (8 * N.of_nat 12))%N by reflexivity. rewrite <- Hx. clear Hx Hy. nia.
Qed.

(** * Values drawn by calls *)

Definition within (k : nat) {A} (m : M A) : Prop := forall s, s_rand (snd (m s)) <= s_rand s + k.
Lemma within_bind j k {A B} (m : M A) (f : A -> M B) : within j m -> (forall a, within k (f a)) -> within (j + k) (bindM m f).
Proof.
  intros H1 H2 s. unfold bindM. specialize (H1 s). destruct (m s) as [[a|e|] s']; cbn [snd] in *; [|lia..].
  specialize (H2 a s'). lia.
Qed.
Lemma within_more j k {A} (m : M A) : within j m -> j <= k -> within k m.
Proof. intros H Hk s. specialize (H s). lia. Qed.
Lemma within_0 {A B} (m : M A) (f : A -> M B) k : within 0 m -> (forall a, within k (f a)) -> within k (bindM m f).
Proof. apply (within_bind 0 k). Qed.
Lemma within_1 {A B} (m : M A) (f : A -> M B) k : within 1 m -> (forall a, within k (f a)) -> within (S k) (bindM m f).
Proof. apply (within_bind 1 k). Qed.
Lemma within_reads {A} (f : st -> res A) : within 0 (reads f).
Proof. intros s. cbn. lia. Qed.
Lemma within_lift {A} (r : res A) : within 0 (lift r).
Proof. intros s. cbn. lia. Qed.
Lemma within_ret {A} (r : A) : within 0 (ret r).
Proof. intros s. cbn. lia. Qed.
Lemma within_draw P n : within 1 (draw P n).
Proof. intros s. cbn. lia. Qed.
Lemma within_flush P : within 0 (flush P).
Proof. intros s. unfold flush. destruct (p_write P (s_flushes s)); cbn; lia. Qed.
Lemma within_put d : within 0 (put_data d).
Proof. intros s. cbn. lia. Qed.
Lemma within_set k v : within 0 (io_set k v).
Proof. intros s. cbn. lia. Qed.
Lemma within_remove k : within 0 (io_remove k).
Proof. intros s. unfold io_remove. destruct (s_data s !! k); cbn; lia. Qed.
Lemma within_secrets a b c : within 0 (set_secrets a b c).
Proof. intros s. cbn. lia. Qed.
Lemma within_encrypted P k t e : within 1 (set_encrypted P k t e).
Proof. intros s. unfold set_encrypted. destruct (encrypt_data P (s_rand s) t e); cbn; lia. Qed.
Lemma within_ensure P a b c : within 1 (ensure_site_data P a b c).
Proof.
  intros s. unfold ensure_site_data.
  destruct (storage_get P site_of_json (s_data s) (get_site_key P a b) c); [cbn; lia| |cbn; lia].
  apply within_encrypted.
Qed.
Lemma within_loop P l h : within 0 (remove_sites_loop P l h).
Proof.
  induction l as [|x l IH]; [apply within_ret|]. cbn [remove_sites_loop]. apply within_0; [apply within_remove|].
  intros _. exact IH.
Qed.
Ltac within_0_tac :=
  first [ apply within_reads | apply within_lift | apply within_ret | apply within_flush | apply within_put | apply within_set
        | apply within_remove | apply within_secrets | apply within_loop ].
Ltac within_1_tac := first [ apply within_draw | apply within_encrypted | apply within_ensure ].
Ltac within_tac :=
  repeat first
    [ apply within_0; [within_0_tac|intros ?]
    | apply within_1; [within_1_tac|intros ?]
    | within_1_tac
    | apply (within_more 0); [within_0_tac|lia]
    | apply (within_more 1); [within_1_tac|lia] ].

Lemma exec_within P o s : s_rand (snd (exec P o s)) <= s_rand s + 3.
Proof.
  destruct o; cbn [exec]; try rewrite as_out_snd; try (cbn; lia).
  - revert s. change (within 3 (reset P pp)). unfold reset, storage_clear, set_hmac_secret, set_salt, io_clear.
    apply within_1; [within_1_tac|intros ?]. apply within_0; [within_0_tac|intros ?].
    apply within_1; [within_1_tac|intros ?]. apply within_1.
    + apply within_0; [within_0_tac|intros ?]. apply within_0; [within_0_tac|intros ?]. apply within_encrypted.
    + intros ?. within_tac.
  - revert s. change (within 3 (unlock P pp)). unfold unlock. within_tac.
  - revert s. change (within 3 (get_alias P s0)). unfold get_alias, the_hmac, the_key. within_tac.
  - revert s. change (within 3 (set_alias P s0 a)). unfold set_alias, the_hmac, the_key. within_tac.
    destruct a3; within_tac. apply within_1; [unfold storage_set_alias; destruct (bytes_eqb _ _); within_tac|intros ?; within_tac].
  - revert s. change (within 3 (remove_alias P s0)). unfold remove_alias, the_hmac, the_key, storage_remove_alias.
    repeat (apply within_0; [within_0_tac|intros ?]). apply within_0; [|intros ?; within_tac].
    apply within_0; [within_0_tac|intros ?]. destruct (site_alias _); within_tac.
  - revert s. change (within 3 (remove_sites P l)). unfold remove_sites, the_hmac, the_key. destruct l; within_tac.
  - revert s. change (within 3 (set_generated P s0 n r len cs)).
    unfold set_generated, the_hmac, the_key, set_password, storage_set. within_tac.
  - revert s. change (within 3 (set_stored P s0 n r text)).
    unfold set_stored, the_hmac, the_key, set_password, storage_set. within_tac.
  - revert s. change (within 3 (has P s0 n r)). unfold has, the_hmac, the_key. within_tac.
  - revert s. change (within 3 (get P s0 n r)). unfold get, the_hmac, the_key, the_primary. within_tac.
  - revert s. change (within 3 (get_notes P s0 n r)). unfold get_notes, the_hmac, the_key. within_tac.
  - revert s. change (within 3 (set_notes P s0 n r notes)).
    unfold set_notes, the_hmac, the_key, set_password, storage_set. within_tac.
  - revert s. change (within 3 (remove P s0 n r)). unfold remove, the_hmac, the_key, remove_password. within_tac.
  - revert s. change (within 3 (get_recovery_code P (stored_password_new s0 n r text))). unfold get_recovery_code, the_key. within_tac.
    intros s. cbn. lia.
  - revert s. change (within 3 (decode_recovery_code P code)). unfold decode_recovery_code, the_primary. within_tac.
Qed.
Lemma run_within P l s : s_rand (snd (run P l s)) <= s_rand s + 3 * length l.
Proof.
  revert s; induction l as [|o l IH]; intros s; [cbn; lia|]. cbn [run].
  pose proof (exec_within P o s) as H. destruct (exec P o s) as [r s1]. specialize (IH s1).
  destruct (run P l s1) as [rs s2]. cbn [snd length] in *. lia.
Qed.

(** * The program with random values from a tape *)

Lemma with_tape_ok P T : prims_ok P -> prims_ok (with_tape P T).
Proof.
  intros [H1 H2 H3 H4 H5 H6 H7]. split; cbn [with_tape p_hmac p_seal p_open p_scrypt p_random p_order]; try assumption.
  intros i n. rewrite firstn_length, app_length, repeat_length. lia.
Qed.
Lemma tape_nonce P n T i : tape_ok n T -> i < n -> p_random (with_tape P T) i 12 = prefix T i.
Proof.
  intros HT Hi. cbn [with_tape p_random]. rewrite firstn_app, (nth_block n T i HT Hi). cbn [Nat.sub firstn]. apply app_nil_r.
Qed.

(** Whether two of finitely many values are alike can be decided. *)
Lemma alike_or_not (T : tape) n : (exists i j, i < j < n /\ prefix T i = prefix T j) \/
  (forall i j, i < n -> j < n -> prefix T i = prefix T j -> i = j).
Proof.
  destruct (existsb (fun p => alike_at p T) (pairs_below n)) eqn:E.
  - left. apply existsb_exists in E. destruct E as ([i j] & Hin & E). apply in_pairs in Hin. exists i, j. split; [exact Hin|].
    apply bytes_eqb_eq, E.
  - right. assert (forall i j, i < j < n -> prefix T i <> prefix T j) as H.
    { intros i j Hij Eq. assert (existsb (fun p => alike_at p T) (pairs_below n) = true) as H'; [|congruence].
      apply existsb_exists. exists (i, j). split; [apply in_pairs, Hij|]. apply bytes_eqb_eq, Eq. }
    intros i j Hi Hj Eq. destruct (Nat.lt_trichotomy i j) as [Hl|[Hl|Hl]]; [|exact Hl|].
    + destruct (H i j); [lia|exact Eq].
    + destruct (H j i); [lia|symmetry; exact Eq].
Qed.

Lemma repeats_alike P l s T : prims_ok P -> fresh P s -> s_rand s = 0 -> tape_ok (3 * length l) T -> repeats (with_tape P T) l s ->
  exists i j, i < j < 3 * length l /\ prefix T i = prefix T j.
Proof.
  intros HP Hf H0 HT Hr. destruct (alike_or_not T (3 * length l)) as [H|Hinj]; [exact H|exfalso].
  pose proof (run_within (with_tape P T) l s) as Hw. rewrite H0 in Hw.
  pose proof (nonces_unique (with_tape P T) l s (with_tape_ok P T HP) Hf) as Hu.
  assert (forall i j, i < s_rand (snd (run (with_tape P T) l s)) -> j < s_rand (snd (run (with_tape P T) l s)) ->
     p_random (with_tape P T) i 12 = p_random (with_tape P T) j 12 -> i = j) as Hi.
  { intros i j Hi Hj E. rewrite !(tape_nonce P _ T _ HT) in E by lia. apply Hinj; [lia..|exact E]. }
  specialize (Hu Hi). destruct Hr as (i & j & o1 & s1 & o2 & s2 & Hn1 & Hn2 & H).
  destruct (Hu i j o1 s1 o2 s2 Hn1 Hn2) as (U1 & U2 & U3).
  destruct H as [(k1 & v1 & k2 & v2 & n & E1 & E2 & N1 & N2 & V1 & V2 & H)|[(c & k2 & v2 & n & Ec & E2 & N2 & V1 & V2)|(c1 & c2 & n & Ec1 & Ec2 & V1 & V2 & H)]].
  - exact (H (U1 k1 v1 k2 v2 n E1 E2 N1 N2 V1 V2)).
  - exact (U2 c k2 v2 n Ec E2 N2 V1 V2).
  - exact (H (U3 c1 c2 n Ec1 Ec2 V1 V2)).
Qed.

Lemma few_repeats P l s B : prims_ok P -> fresh P s -> s_rand s = 0 -> List.NoDup B ->
  (forall T, In T B -> tape_ok (3 * length l) T /\ repeats (with_tape P T) l s) ->
  let n := N.of_nat (3 * length l) in
  (N.of_nat (length B) * 2 ^ 97 <= n * (n - 1) * 2 ^ (256 * n))%N.
Proof.
  intros HP Hf H0 HB Hr n.
  replace (n * (n - 1))%N with (N.of_nat (3 * length l * (3 * length l - 1))) by (unfold n; nia).
  apply alike_bound; [exact HB|]. intros T HT. destruct (Hr T HT) as [H1 H2]. split; [exact H1|].
  exact (repeats_alike P l s T HP Hf H0 H1 H2).
Qed.

Lemma million P l s B : prims_ok P -> fresh P s -> s_rand s = 0 -> List.NoDup B ->
  (forall T, In T B -> tape_ok (3 * length l) T /\ repeats (with_tape P T) l s) -> (N.of_nat (length l) <= 1000000)%N ->
  (N.of_nat (length B) * 10 ^ 16 <= 2 ^ (256 * N.of_nat (3 * length l)))%N.
Proof.
  intros HP Hf H0 HB Hr Hl. pose proof (few_repeats P l s B HP Hf H0 HB Hr) as H. cbv zeta in H. revert H.
  generalize (2 ^ (256 * N.of_nat (3 * length l)))%N as w. intros w.
  assert (N.of_nat (3 * length l) * (N.of_nat (3 * length l) - 1) <= 9000000000000)%N as Hn by nia.
  revert Hn. generalize (N.of_nat (3 * length l) * (N.of_nat (3 * length l) - 1))%N as m. intros m Hm H.
  change (2 ^ 97)%N with 158456325028528675187087900672%N in H. change (10 ^ 16)%N with 10000000000000000%N. nia.
Qed.
Lemma all_tapes n : exists L, List.NoDup L /\ (forall T, In T L <-> tape_ok n T) /\ N.of_nat (length L) = (2 ^ (256 * N.of_nat n))%N.
Proof. exists (tapes n). split; [apply tapes_NoDup|]. split; [apply in_tapes|apply length_tapes]. Qed.
