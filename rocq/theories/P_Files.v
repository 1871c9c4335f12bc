(** Proofs about files and directories. *)
From stdpp Require Import gmap.
From Verif Require Import M_Base M_Prims M_Types M_Codec M_Base64 M_Crypto M_Recovery M_Storage M_Passwords S_Vault M_History S_Api P_Base P_Storage P_Api P_StepProps P_File M_Files S_Files.

(** * A call depends on how its own save ends only *)

Section writes.
Context (P : prims) (w : nat -> write_outcome).
Let P' := with_writes P w.

Definition agrees {A} (m : M A) (s : st) : Prop :=
  w (s_flushes s) = p_write P (s_flushes s) \/ s_flushes (snd (m s)) = s_flushes s.
Definition same {A} (m m' : M A) (s : st) : Prop := agrees m s -> m s = m' s.
Definition still {A} (m : M A) : Prop := forall s, s_flushes (snd (m s)) = s_flushes s.

Lemma same_bind {A B} (m m' : M A) (f f' : A -> M B) s :
  (forall s, m s = m' s) -> still m -> (forall a s, same (f a) (f' a) s) -> same (bindM m f) (bindM m' f') s.
Proof.
  intros H1 H2 H3 Hw. unfold agrees, bindM in *. rewrite <- H1. specialize (H2 s). destruct (m s) as [[a|e|] s']; [|reflexivity..].
  apply H3. cbn [snd] in H2. unfold agrees. rewrite H2. exact Hw.
Qed.
Lemma flush_counts s : s_flushes (snd (flush P s)) = S (s_flushes s).
Proof. unfold flush. destruct (p_write P (s_flushes s)); reflexivity. Qed.
Lemma same_flush s : same (flush P) (flush P') s.
Proof.
  intros [Hw|Hw]; [|rewrite flush_counts in Hw; lia]. unfold flush. cbn [P' with_writes p_write]. rewrite Hw. reflexivity.
Qed.
Lemma same_same {A} (m : M A) s : same m m s.
Proof. intros _. reflexivity. Qed.

Lemma still_reads {A} (f : st -> res A) : still (reads f).
Proof. intros s. reflexivity. Qed.
Lemma still_lift {A} (x : res A) : still (lift x).
Proof. intros s. reflexivity. Qed.
Lemma still_bind {A B} (m : M A) (f : A -> M B) : still m -> (forall a, still (f a)) -> still (bindM m f).
Proof. intros H1 H2 s. unfold bindM. specialize (H1 s). destruct (m s) as [[a|e|] s']; [|exact H1..]. rewrite H2. exact H1. Qed.
Lemma still_encrypted key text k : still (set_encrypted P key text k).
Proof. intros s. destruct (set_encrypted_cases P key text k s) as [(c & Hc & ->)| ->]; reflexivity. Qed.
Lemma still_remove key : still (io_remove key).
Proof. intros s. unfold io_remove. destruct (s_data s !! key); reflexivity. Qed.
Lemma still_ensure site h k : still (ensure_site_data P site h k).
Proof. intros s. destruct (ensure_cases P site h k s) as [-> |[-> | ->]]; [reflexivity..|apply still_encrypted]. Qed.
Lemma still_loop l h : still (remove_sites_loop P l h).
Proof.
  induction l as [|x l IH]; [intros s; reflexivity|]. cbn [remove_sites_loop].
  apply still_bind; [apply still_remove|intros _; exact IH].
Qed.
Lemma still_draw k : still (draw P k).
Proof. intros s. reflexivity. Qed.
Lemma still_clear salt x k : still (storage_clear P salt x k).
Proof.
  unfold storage_clear. repeat (apply still_bind; [|intros ?]); try (intros ?; reflexivity).
  all: try apply still_encrypted.
Qed.

Ltac still_tac := repeat first
  [ apply still_reads | apply still_lift | apply still_encrypted | apply still_remove | apply still_ensure
  | apply still_draw | apply still_clear
  | apply still_bind; [|intros ?] ].
Ltac same_tac := repeat first
  [ apply same_flush | apply same_same
  | apply same_bind; [intros ?; reflexivity|still_tac|intros ? ?] ].

(** Recovery codes do not depend on it. *)
Lemma checksum_same blocks pos acc input : checksum_loop P blocks pos acc input = checksum_loop P' blocks pos acc input.
Proof.
  revert pos acc. induction input as [|b input IH]; intros pos acc; [reflexivity|]. cbn [checksum_loop].
  destruct (pos mod BLOCK_SIZE =? BLOCK_SIZE - 1); [|apply IH].
  change (final_virtual_byte P' (pos / BLOCK_SIZE)) with (final_virtual_byte P (pos / BLOCK_SIZE)).
  destruct (if pos / BLOCK_SIZE =? blocks - 1 then _ else _) as [v|e|]; [|reflexivity..]. cbn [bind]. apply IH.
Qed.
Lemma validate_same i lines seen : validate_loop P i lines seen = validate_loop P' i lines seen.
Proof.
  revert i seen. induction lines as [|c lines IH]; intros i seen; [reflexivity|]. cbn [validate_loop]. destruct seen; [reflexivity|].
  destruct (idx c BLOCK_SIZE) as [k|e|]; [|reflexivity..]. cbn [bind].
  change (final_virtual_byte P' i) with (final_virtual_byte P i). destruct (final_virtual_byte P i) as [v|e|]; [|reflexivity..]. cbn [bind].
  destruct (Byte.eqb k _); [apply IH|]. destruct (negb _); [reflexivity|apply IH].
Qed.
Lemma find_end_same d n : find_end P d n = find_end P' d n.
Proof. induction n as [|n IH]; [reflexivity|]. cbn [find_end]. destruct (nth_error d n) as [b|]; [|reflexivity]. destruct (Byte.eqb b x00); [exact IH|reflexivity]. Qed.
Lemma generate_same rnd pw salt k : generate P rnd pw salt k = generate P' rnd pw salt k.
Proof.
  unfold generate. destruct (negb _); [reflexivity|].
  change (encrypt_data P' rnd (pw ++ repeat x00 (fill_bytes (length pw))) k) with (encrypt_data P rnd (pw ++ repeat x00 (fill_bytes (length pw))) k).
  destruct (encrypt_data P rnd _ k) as [e|e|]; [|reflexivity..]. cbn [bind].
  destruct (ok_or (split_once _ e) _) as [[n c]|x|]; [|reflexivity..]. cbn [bind].
  destruct (ok_or (b64_decode n) _) as [n'|x|]; [|reflexivity..]. cbn [bind]. destruct (negb _); [reflexivity|].
  destruct (ok_or (b64_decode c) _) as [c'|x|]; [|reflexivity..]. cbn [bind]. destruct (negb _); [reflexivity|].
  rewrite checksum_same. reflexivity.
Qed.
Lemma decode_same code pp : decode P code pp = decode P' code pp.
Proof.
  unfold decode. assert (validate P code = validate P' code) as <-.
  { unfold validate. destruct (base32_decode _) as [d|e|]; [|reflexivity..]. cbn [bind]. rewrite validate_same. reflexivity. }
  destruct (validate P code) as [d|e|]; [|reflexivity..]. cbn [bind].
  destruct (match strip_checksums 0 d with [] => false | _ => _ end); [reflexivity|]. destruct (_ <? _); [reflexivity|].
  set (salt := firstn SALT_SIZE _). change (get_encryption_key P' pp salt) with (get_encryption_key P pp salt).
  destruct (get_encryption_key P pp salt) as [k|e|]; [|reflexivity..]. cbn [bind].
  set (x := _ ++ _). change (decrypt_data P' x k) with (decrypt_data P x k).
  destruct (decrypt_data P x k) as [y|e|]; [|reflexivity..]. cbn [bind]. rewrite find_end_same. reflexivity.
Qed.

Lemma as_out_same {A} (f : A -> out) (m m' : M A) s : same m m' s ->
  w (s_flushes s) = p_write P (s_flushes s) \/ s_flushes (snd (as_out f (m s))) = s_flushes s ->
  as_out f (m s) = as_out f (m' s).
Proof. intros H Hw. rewrite as_out_snd in Hw. rewrite (H Hw). reflexivity. Qed.

Lemma same_reset pp s : same (reset P pp) (reset P' pp) s.
Proof.
  unfold reset. same_tac. intros Hw'. assert (flush P s3 = flush P' s3) as Ef.
  { apply same_flush. left. destruct Hw' as [Hw'|Hw']; [exact Hw'|]. exfalso. unfold bindM in Hw'.
    pose proof (flush_counts s3) as Hc. destruct (flush P s3) as [[[]|e|] s4]; cbn [set_secrets snd s_flushes] in *; lia. }
  unfold bindM. rewrite Ef. reflexivity.
Qed.
Lemma same_set_alias d a s : same (set_alias P d a) (set_alias P' d a) s.
Proof.
  unfold set_alias. same_tac. destruct a3; [same_tac|].
  apply same_bind; [intros ?; reflexivity| |intros; apply same_flush].
  unfold storage_set_alias. destruct (bytes_eqb _ _); [intros ?; reflexivity|still_tac].
Qed.
Lemma same_remove_alias d s : same (remove_alias P d) (remove_alias P' d) s.
Proof. unfold remove_alias. same_tac. unfold storage_remove_alias. still_tac. destruct (site_alias _); still_tac. Qed.
Lemma same_remove_sites l s : same (remove_sites P l) (remove_sites P' l) s.
Proof.
  unfold remove_sites. destruct l as [|l l0]; [same_tac|].
  apply same_bind; [intros ?; reflexivity|apply still_reads|intros h s1].
  apply same_bind; [|apply still_loop|intros; apply same_flush].
  clear. generalize (l :: l0). intros k s1. revert s1. induction k as [|x k IH]; intros s1; [reflexivity|].
  cbn [remove_sites_loop]. unfold bindM. change (storage_remove_site P' x h s1) with (storage_remove_site P x h s1).
  destruct (storage_remove_site P x h s1) as [[[]|e|] s2]; [apply IH|reflexivity..].
Qed.
Lemma same_set_generated d n r len cs s : same (set_generated P d n r len cs) (set_generated P' d n r len cs) s.
Proof. unfold set_generated. same_tac. Qed.
Lemma same_set_stored d n r pw s : same (set_stored P d n r pw) (set_stored P' d n r pw) s.
Proof. unfold set_stored. same_tac. Qed.
Lemma same_set_notes d n r x s : same (set_notes P d n r x) (set_notes P' d n r x) s.
Proof. unfold set_notes. same_tac. Qed.
Lemma same_remove d n r s : same (remove P d n r) (remove P' d n r) s.
Proof. unfold remove. same_tac. Qed.
Lemma same_recovery x s : same (get_recovery_code P x) (get_recovery_code P' x) s.
Proof. unfold get_recovery_code. same_tac. intros _. rewrite generate_same. reflexivity. Qed.
Lemma same_decode x s : same (decode_recovery_code P x) (decode_recovery_code P' x) s.
Proof. unfold decode_recovery_code. apply same_bind; [intros ?; reflexivity|still_tac|intros ? ? _]. rewrite decode_same. reflexivity. Qed.

Lemma exec_same o s : w (s_flushes s) = p_write P (s_flushes s) \/ s_flushes (snd (exec P o s)) = s_flushes s -> exec P o s = exec P' o s.
Proof.
  intros Hw. destruct o; try reflexivity; cbn [exec]; (apply as_out_same; [|exact Hw]).
  - apply same_reset.
  - apply same_set_alias.
  - apply same_remove_alias.
  - apply same_remove_sites.
  - apply same_set_generated.
  - apply same_set_stored.
  - apply same_set_notes.
  - apply same_remove.
  - apply same_recovery.
  - apply same_decode.
Qed.
End writes.

(** A call saves at most once. *)
Lemma exec_once P o s : prims_ok P -> s_flushes (snd (exec P o s)) = s_flushes s \/ s_flushes (snd (exec P o s)) = S (s_flushes s).
Proof.
  intros HP. destruct (modifies o) eqn:Em.
  - assert (forall s1, s_flushes (snd (flush P s1)) = S (s_flushes s1)) as Hf.
    { intros s1. unfold flush. destruct (p_write P (s_flushes s1)); reflexivity. }
    destruct (is_reset o) eqn:Er.
    + destruct (not_reset o Er) as [pp ->].
      destruct (reset_cases P pp s HP) as (s1 & _ & _ & Hfl & _ & _ & _ & _ & H). right.
      destruct H as [(_ & _ & ->)|(_ & ->)]; [cbn [set_secrets snd s_flushes]|rewrite done_out_snd]; rewrite Hf, Hfl; reflexivity.
    + destruct (exec_shaped P o s Em Er) as [[((E1 & E2 & E3) & _) _]|(s1 & ((E1 & E2 & E3) & _) & H)]; [left; exact E3|].
      right. rewrite H, done_out_snd, Hf, E3. reflexivity.
  - left. destruct (Nat.eq_dec (s_flushes (snd (exec P o s))) (s_flushes s)) as [E|E]; [exact E|exfalso].
    apply E. destruct (reading o) eqn:Er.
    + destruct (exec_reading P o s Er) as ((_ & _ & _ & _ & E') & _). exact E'.
    + destruct o; try discriminate Em; try discriminate Er.
      * cbn [exec]. rewrite as_out_snd. unfold unlock, bindM, reads, lift.
        destruct (get_salt (s_data s)) as [salt|e|]; [|reflexivity..].
        destruct (get_encryption_key P pp salt) as [key|e|]; [|reflexivity..].
        destruct (get_hmac_secret P (s_data s) key) as [x|e|]; reflexivity.
      * reflexivity.
      * reflexivity.
      * destruct l; discriminate.
Qed.

Lemma exec_calm P o s : prims_ok P -> s_flushes (snd (exec P o s)) = s_flushes s -> s_disk (snd (exec P o s)) = s_disk s.
Proof.
  intros HP. destruct (modifies o) eqn:Em.
  - assert (forall s1, s_flushes (snd (flush P s1)) = S (s_flushes s1)) as Hf.
    { intros s1. unfold flush. destruct (p_write P (s_flushes s1)); reflexivity. }
    destruct (is_reset o) eqn:Er.
    + destruct (not_reset o Er) as [pp ->].
      destruct (reset_cases P pp s HP) as (s1 & _ & _ & Hfl & _ & _ & _ & _ & H).
      destruct H as [(_ & _ & ->)|(_ & ->)]; [cbn [set_secrets snd s_flushes]|rewrite done_out_snd]; rewrite Hf, Hfl; intros E; lia.
    + destruct (exec_shaped P o s Em Er) as [[((E1 & E2 & E3) & _) _]|(s1 & ((E1 & E2 & E3) & _) & H)]; [intros _; exact E2|].
      rewrite H, done_out_snd, Hf, E3. intros E; lia.
  - intros _. destruct (reading o) eqn:Er.
    + destruct (exec_reading P o s Er) as ((_ & _ & E' & _) & _). exact E'.
    + destruct o; try discriminate Em; try discriminate Er.
      * cbn [exec]. rewrite as_out_snd. unfold unlock, bindM, reads, lift.
        destruct (get_salt (s_data s)) as [salt|e|]; [|reflexivity..].
        destruct (get_encryption_key P pp salt) as [key|e|]; [|reflexivity..].
        destruct (get_hmac_secret P (s_data s) key) as [x|e|]; reflexivity.
      * reflexivity.
      * reflexivity.
      * destruct l; discriminate.
Qed.
Lemma exec_reads P o s : prims_ok P -> modifies o = false -> s_flushes (snd (exec P o s)) = s_flushes s.
Proof.
  intros HP Em. destruct (reading o) eqn:Er.
  - destruct (exec_reading P o s Er) as ((_ & _ & _ & _ & E') & _). exact E'.
  - destruct o; try discriminate Em; try discriminate Er.
    + cbn [exec]. rewrite as_out_snd. unfold unlock, bindM, reads, lift.
      destruct (get_salt (s_data s)) as [salt|e|]; [|reflexivity..].
      destruct (get_encryption_key P pp salt) as [key|e|]; [|reflexivity..].
      destruct (get_hmac_secret P (s_data s) key) as [x|e|]; reflexivity.
    + reflexivity.
    + reflexivity.
    + destruct l; discriminate.
Qed.

Lemma with_writes_ok P w : prims_ok P -> prims_ok (with_writes P w).
Proof. intros [? ? ? ? ? ? ?]. constructor; assumption. Qed.

(** * Paths *)

Lemma above_cons q c up : above q (c :: up) <-> q `suffix_of` up.
Proof.
  split.
  - intros ([|d cs] & Hn & E); [contradiction|]. cbn in E. injection E as _ ->. exists cs. reflexivity.
  - intros [cs ->]. exists (c :: cs). split; [discriminate|reflexivity].
Qed.
Lemma above_nil q : ~ above q [].
Proof. intros ([|d cs] & Hn & E); [contradiction|discriminate]. Qed.
Lemma suffix_cons (q : fpath) c up : q `suffix_of` (c :: up) <-> q = c :: up \/ q `suffix_of` up.
Proof.
  split.
  - intros ([|d cs] & E); [left; symmetry; exact E|]. cbn in E. injection E as _ ->. right. exists cs. reflexivity.
  - intros [-> |[cs ->]]; [exists []; reflexivity|]. exists (c :: cs). reflexivity.
Qed.
Lemma suffix_not_cons c (up q : fpath) : q `suffix_of` up -> q <> c :: up.
Proof. intros [cs ->] E. apply (f_equal length) in E. cbn in E. rewrite app_length in E. lia. Qed.
Lemma not_above_self q : ~ above q q.
Proof. intros (cs & Hn & E). apply (f_equal length) in E. rewrite app_length in E. destruct cs; [contradiction|cbn in E; lia]. Qed.

Lemma tree_up fs c up x : tree fs -> fs !! (c :: up) = Some x -> fs !! up = Some Dir.
Proof. intros [_ H] E. apply (H _ _ _ E). apply above_cons. exists []. reflexivity. Qed.
Lemma tree_insert fs c up x : tree fs -> fs !! up = Some Dir ->
  (forall q, fs !! q <> None -> above (c :: up) q -> False) -> tree (<[c :: up := x]> fs).
Proof.
  intros [H1 H2] Hu Hn. split; [rewrite lookup_insert_ne by discriminate; exact H1|].
  intros q p y E Ha. apply lookup_insert_Some in E. destruct E as [[<- <-]|[Hne E]].
  - apply above_cons in Ha. rewrite lookup_insert_ne by (intros e; symmetry in e; revert e; apply suffix_not_cons, Ha).
    destruct Ha as [[|d cs] Ea]; [cbn in Ea; subst up; exact Hu|]. apply (H2 _ _ _ Hu). exists (d :: cs). split; [discriminate|exact Ea].
  - rewrite lookup_insert_ne; [apply (H2 _ _ _ E Ha)|]. intros <-. apply (Hn p); [congruence|exact Ha].
Qed.
(** Nothing is in what is not a directory. *)
Lemma tree_leaf fs p : tree fs -> fs !! p <> Some Dir -> forall q, fs !! q <> None -> above p q -> False.
Proof. intros [_ H] Hp q Hq Ha. destruct (fs !! q) eqn:E; [|contradiction]. exact (Hp (H _ _ _ E Ha)). Qed.

(** * Creating directories *)

Definition new_dirs (p : fpath) (fs fs' : files) : Prop :=
  forall q, fs' !! q = fs !! q \/ (q `suffix_of` p /\ fs !! q = None /\ fs' !! q = Some Dir).

Lemma new_dirs_refl p fs : new_dirs p fs fs.
Proof. intros q. left. reflexivity. Qed.
Lemma new_dirs_insert p fs : fs !! p = None -> new_dirs p fs (<[p := Dir]> fs).
Proof.
  intros H q. destruct (decide (q = p)) as [-> |Hn]; [right; split; [exists []; reflexivity|split; [exact H|apply lookup_insert]]|].
  left. apply lookup_insert_ne. congruence.
Qed.
Lemma new_dirs_trans p fs1 fs2 fs3 : new_dirs p fs1 fs2 -> new_dirs p fs2 fs3 -> new_dirs p fs1 fs3.
Proof.
  intros H1 H2 q. destruct (H2 q) as [E|(Hs & E & E')]; [rewrite E; apply H1|]. right. split; [exact Hs|]. split; [|exact E'].
  destruct (H1 q) as [E1|(_ & E1 & _)]; [congruence|exact E1].
Qed.
Lemma new_dirs_cons c p fs fs' : new_dirs p fs fs' -> new_dirs (c :: p) fs fs'.
Proof. intros H q. destruct (H q) as [E|(Hs & E)]; [left; exact E|right]. split; [apply suffix_cons; right; exact Hs|exact E]. Qed.

Lemma mkdir_new O n p fs : new_dirs p fs (snd (mkdir O n p fs)).
Proof.
  unfold mkdir. destruct (fs !! p) eqn:E; [apply new_dirs_refl|]. destruct p as [|c up]; [apply new_dirs_refl|].
  destruct (fs !! up) as [[|t]|]; try apply new_dirs_refl. destruct (o_mkdir O n _); [apply new_dirs_refl|]. apply new_dirs_insert, E.
Qed.
Lemma create_new O n p fs : new_dirs p fs (snd (create_dir_all O n p fs)).
Proof.
  revert fs. induction p as [|c up IH]; intros fs; cbn [create_dir_all].
  - pose proof (mkdir_new O n [] fs) as H. destruct (mkdir O n [] fs) as [[| |] fs1]; exact H.
  - pose proof (mkdir_new O n (c :: up) fs) as H. destruct (mkdir O n (c :: up) fs) as [[| |] fs1]; try exact H. cbn [snd] in H.
    specialize (IH fs1). destruct (create_dir_all O n up fs1) as [ok fs2]. cbn [snd] in IH. apply new_dirs_cons with (c := c) in IH.
    destruct ok; [|exact (new_dirs_trans _ _ _ _ H IH)].
    pose proof (mkdir_new O n (c :: up) fs2) as H2. destruct (mkdir O n (c :: up) fs2) as [r fs3]. cbn [snd] in *.
    exact (new_dirs_trans _ _ _ _ H (new_dirs_trans _ _ _ _ IH H2)).
Qed.

Lemma mkdir_tree O n p fs : tree fs -> tree (snd (mkdir O n p fs)).
Proof.
  intros H. unfold mkdir. destruct (fs !! p) eqn:E; [exact H|]. destruct p as [|c up]; [exact H|].
  destruct (fs !! up) as [[|t]|] eqn:Eu; try exact H. destruct (o_mkdir O n _); [exact H|].
  cbn [snd]. apply tree_insert; [exact H|exact Eu|]. apply tree_leaf; [exact H|congruence].
Qed.
Lemma create_tree O n p fs : tree fs -> tree (snd (create_dir_all O n p fs)).
Proof.
  revert fs. induction p as [|c up IH]; intros fs Ht; cbn [create_dir_all].
  - pose proof (mkdir_tree O n [] fs Ht) as H. destruct (mkdir O n [] fs) as [[| |] fs1]; exact H.
  - pose proof (mkdir_tree O n (c :: up) fs Ht) as H. destruct (mkdir O n (c :: up) fs) as [[| |] fs1]; try exact H. cbn [snd] in H.
    specialize (IH fs1 H). destruct (create_dir_all O n up fs1) as [ok fs2]. cbn [snd] in IH. destruct ok; [|exact IH].
    pose proof (mkdir_tree O n (c :: up) fs2 IH) as H2. destruct (mkdir O n (c :: up) fs2) as [r fs3]. exact H2.
Qed.

Definition stuck (O : os) (n : nat) (p : fpath) (fs : files) : Prop :=
  exists q, q `suffix_of` p /\ ((exists t, fs !! q = Some (File t)) \/ (fs !! q = None /\ o_mkdir O n q = true)).
Lemma stuck_cons O n c p fs : no_directory O n (c :: p) fs <-> stuck O n p fs.
Proof.
  split; intros (q & Hq & H); exists q; (split; [|exact H]); [apply above_cons in Hq|apply above_cons]; exact Hq.
Qed.

Lemma unreachable_cases fs p : tree fs ->
  (unreachable fs p = Missing /\ forall q t, q `suffix_of` p -> fs !! q <> Some (File t)) \/
  (unreachable fs p = Refused /\ exists q t, q `suffix_of` p /\ fs !! q = Some (File t)).
Proof.
  intros [H1 H2]. induction p as [|c up IH]; cbn [unreachable].
  - rewrite H1. left. split; [reflexivity|]. intros q t [cs E] Hq. symmetry in E. apply app_eq_nil in E. destruct E as [_ ->]. congruence.
  - destruct (fs !! (c :: up)) as [[|t]|] eqn:E.
    + left. split; [reflexivity|]. intros q t Hs Hq. apply suffix_cons in Hs. destruct Hs as [-> |Hs]; [congruence|].
      assert (fs !! q = Some Dir) by (apply (H2 _ _ _ E), above_cons, Hs). congruence.
    + right. split; [reflexivity|]. exists (c :: up), t. split; [exists []; reflexivity|exact E].
    + destruct IH as [[-> H]|[-> (q & t & Hs & Hq)]].
      * left. split; [reflexivity|]. intros q t Hs. apply suffix_cons in Hs. destruct Hs as [-> |Hs]; [congruence|apply H, Hs].
      * right. split; [reflexivity|]. exists q, t. split; [apply suffix_cons; right; exact Hs|exact Hq].
Qed.

(** It fails if and only if a file is in the way or the system refuses. *)
Lemma create_ok O n p fs : tree fs ->
  (fst (create_dir_all O n p fs) = true /\ snd (create_dir_all O n p fs) !! p = Some Dir /\ ~ stuck O n p fs) \/
  (fst (create_dir_all O n p fs) = false /\ stuck O n p fs).
Proof.
  revert fs. induction p as [|c up IH]; intros fs Ht; cbn [create_dir_all].
  - unfold mkdir. pose proof (proj1 Ht) as H1. rewrite H1. unfold is_dir. rewrite H1. left. split; [reflexivity|]. split; [exact H1|].
    intros (q & [cs E] & H). symmetry in E. apply app_eq_nil in E. destruct E as [_ ->]. destruct H as [[t H]|[H _]]; congruence.
  - destruct (fs !! (c :: up)) as [x|] eqn:E.
    + assert (mkdir O n (c :: up) fs = (Refused, fs)) as -> by (unfold mkdir; rewrite E; reflexivity).
      unfold is_dir. rewrite E. destruct x as [|t]; [left|right]; (split; [reflexivity|]).
      * split; [exact E|]. intros (q & Hs & H). apply suffix_cons in Hs. destruct Hs as [-> |Hs]; [destruct H as [[t H]|[H _]]; congruence|].
        assert (fs !! q = Some Dir) by (apply (proj2 Ht _ _ _ E), above_cons, Hs). destruct H as [[t H]|[H _]]; congruence.
      * exists (c :: up). split; [exists []; reflexivity|]. left. eauto.
    + assert (stuck O n up fs -> stuck O n (c :: up) fs) as Hup.
      { intros (q & Hs & H). exists q. split; [apply suffix_cons; right; exact Hs|exact H]. }
      assert (o_mkdir O n (c :: up) = true -> stuck O n (c :: up) fs) as Hme.
      { intros H. exists (c :: up). split; [exists []; reflexivity|]. right. auto. }
      assert (o_mkdir O n (c :: up) = false -> ~ stuck O n up fs -> ~ stuck O n (c :: up) fs) as Hno.
      { intros Ho Hu (q & Hs & H). apply suffix_cons in Hs. destruct Hs as [-> |Hs]; [destruct H as [[t H]|[_ H]]; congruence|].
        apply Hu. exists q. auto. }
      assert (forall fs0, fs0 = fs -> fst (is_dir fs0 (c :: up), fs0) = false) as Hd.
      { intros ? ->. cbn [fst]. unfold is_dir. rewrite E. reflexivity. }
      destruct (fs !! up) as [[|t]|] eqn:Eu.
      * assert (mkdir O n (c :: up) fs = if o_mkdir O n (c :: up) then (Refused, fs) else (Made, <[c :: up := Dir]> fs)) as ->
          by (unfold mkdir; rewrite E, Eu; reflexivity).
        destruct (o_mkdir O n (c :: up)) eqn:Eo; [right; split; [apply Hd; reflexivity|apply Hme; reflexivity]|].
        left. split; [reflexivity|]. split; [apply lookup_insert|]. apply Hno; [reflexivity|].
        intros (q & Hs & H). destruct up as [|d up'].
        { destruct Hs as [cs Es]. symmetry in Es. apply app_eq_nil in Es. destruct Es as [_ ->]. destruct H as [[t H]|[H _]]; congruence. }
        apply suffix_cons in Hs. destruct Hs as [-> |Hs]; [destruct H as [[t H]|[H _]]; congruence|].
        assert (fs !! q = Some Dir) by (apply (proj2 Ht _ _ _ Eu), above_cons, Hs). destruct H as [[t H]|[H _]]; congruence.
      * assert (mkdir O n (c :: up) fs = (unreachable fs up, fs)) as -> by (unfold mkdir; rewrite E, Eu; reflexivity).
        assert (unreachable fs up = Refused) as -> by (destruct up; cbn [unreachable]; rewrite Eu; reflexivity).
        right. split; [apply Hd; reflexivity|]. apply Hup. exists up. split; [exists []; reflexivity|]. left. eauto.
      * assert (mkdir O n (c :: up) fs = (unreachable fs up, fs)) as -> by (unfold mkdir; rewrite E, Eu; reflexivity).
        destruct (unreachable_cases fs up Ht) as [[-> _]|[-> (q & t & Hs & Hq)]].
        2: { right. split; [apply Hd; reflexivity|]. apply Hup. exists q. split; [exact Hs|]. left. eauto. }
        pose proof (create_new O n up fs) as Hnew.
        destruct (IH fs Ht) as [(E1 & E2 & E3)|(E1 & E2)]; destruct (create_dir_all O n up fs) as [ok fs2]; cbn [fst snd] in *; subst ok.
        -- unfold mkdir. assert (fs2 !! (c :: up) = None) as ->.
           { destruct (Hnew (c :: up)) as [-> |(Hs & _)]; [exact E|]. destruct (suffix_not_cons _ _ _ Hs eq_refl). }
           rewrite E2. destruct (o_mkdir O n (c :: up)) eqn:Eo.
           ++ right. split; [|apply Hme; reflexivity]. cbn [fst]. unfold is_dir.
              destruct (Hnew (c :: up)) as [-> |(Hs & _)]; [rewrite E; reflexivity|]. destruct (suffix_not_cons _ _ _ Hs eq_refl).
           ++ left. split; [reflexivity|]. split; [apply lookup_insert|]. apply Hno; [reflexivity|exact E3].
        -- right. split; [reflexivity|]. apply Hup, E2.
Qed.

(** * Saving *)

Lemma is_dir_true fs p : is_dir fs p = true <-> fs !! p = Some Dir.
Proof. unfold is_dir. destruct (fs !! p) as [[|t]|]; split; congruence. Qed.

Lemma write_cases O n p text fs :
  match fst (write_file O n p text fs) with
  | WriteOk => fs !! p <> Some Dir /\ snd (write_file O n p text fs) = <[p := File text]> fs
  | WriteFailsAfter k => fs !! p <> Some Dir /\ snd (write_file O n p text fs) = <[p := File (firstn k text)]> fs
  | OpenFails => snd (write_file O n p text fs) = fs
  | CreateDirFails => False
  end.
Proof.
  unfold write_file. destruct p as [|c up]; [reflexivity|]. destruct (is_dir fs (c :: up)) eqn:E.
  - rewrite orb_true_r. reflexivity.
  - assert (fs !! (c :: up) <> Some Dir) as Hn by (rewrite <- is_dir_true; congruence).
    destruct (negb (is_dir fs up) || false || o_open O n); [reflexivity|]. destruct (o_write O n); cbn [fst snd]; auto.
Qed.

(** What is in the file afterwards *)
Lemma save_read O n p text fs :
  read (snd (save O n p text fs)) p = match fst (save O n p text fs) with
    | WriteOk => Some text | WriteFailsAfter k => Some (firstn k text) | _ => read fs p end.
Proof.
  assert (forall fs1, read fs1 p = read fs p -> read (snd (write_file O n p text fs1)) p = match fst (write_file O n p text fs1) with
    | WriteOk => Some text | WriteFailsAfter k => Some (firstn k text) | _ => read fs p end) as HW.
  { intros fs1 E. pose proof (write_cases O n p text fs1) as H.
    destruct (fst (write_file O n p text fs1)); [destruct H as [_ ->]| |rewrite H; exact E|destruct H as [_ ->]]; [|destruct H|];
      unfold read; rewrite lookup_insert; reflexivity. }
  unfold save. destruct p as [|c up]; [apply HW; reflexivity|].
  pose proof (create_new O n up fs (c :: up)) as Hn. destruct (create_dir_all O n up fs) as [ok fs1]. cbn [snd] in Hn.
  assert (read fs1 (c :: up) = read fs (c :: up)) as E.
  { destruct Hn as [E|(Hs & _)]; [unfold read; rewrite E; reflexivity|]. destruct (suffix_not_cons _ _ _ Hs eq_refl). }
  destruct ok; [apply HW, E|exact E].
Qed.

Lemma only_refl p fs : only_changes p fs fs.
Proof. intros q. left. reflexivity. Qed.
Lemma only_trans p fs1 fs2 fs3 : only_changes p fs1 fs2 -> only_changes p fs2 fs3 -> only_changes p fs1 fs3.
Proof.
  intros H1 H2 q. destruct (H2 q) as [E|[(Ha & E & E')|(-> & E & t & E')]].
  - rewrite E. apply H1.
  - right. left. split; [exact Ha|]. split; [|exact E']. destruct (H1 q) as [E1|[(_ & E1 & _)|(-> & _)]]; [congruence|exact E1|].
    destruct (not_above_self _ Ha).
  - right. right. split; [reflexivity|]. split; [|eauto]. destruct (H1 p) as [E1|[(Ha & _)|(_ & E1 & _)]]; [congruence| |exact E1].
    destruct (not_above_self _ Ha).
Qed.

Lemma save_only O n p text fs : only_changes p fs (snd (save O n p text fs)).
Proof.
  assert (forall fs1, only_changes p fs1 (snd (write_file O n p text fs1))) as HW.
  { intros fs1. assert (forall t, fs1 !! p <> Some Dir -> only_changes p fs1 (<[p := File t]> fs1)) as HI.
    { intros t Hn q. destruct (decide (q = p)) as [-> |Hne]; [|left; apply lookup_insert_ne; congruence].
      right. right. split; [reflexivity|]. split; [exact Hn|]. exists t. apply lookup_insert. }
    pose proof (write_cases O n p text fs1) as H.
    destruct (fst (write_file O n p text fs1)); [destruct H as [Hn ->]; auto|destruct H|rewrite H; apply only_refl|destruct H as [Hn ->]; auto]. }
  unfold save. destruct p as [|c up]; [apply HW|].
  pose proof (create_new O n up fs) as Hn. destruct (create_dir_all O n up fs) as [ok fs1]. cbn [snd] in Hn.
  assert (only_changes (c :: up) fs fs1) as H1.
  { intros q. destruct (Hn q) as [E|(Hs & E)]; [left; exact E|]. right. left. split; [apply above_cons, Hs|exact E]. }
  destruct ok; [|exact H1]. exact (only_trans _ _ _ _ H1 (HW fs1)).
Qed.

Lemma save_tree O n p text fs : tree fs -> tree (snd (save O n p text fs)).
Proof.
  assert (forall fs1, tree fs1 -> tree (snd (write_file O n p text fs1))) as HW.
  { intros fs1 Ht. unfold write_file. destruct p as [|c up]; [exact Ht|].
    destruct (is_dir fs1 up) eqn:Eu; [|exact Ht]. destruct (is_dir fs1 (c :: up)) eqn:Ep; [exact Ht|]. cbn [negb orb].
    assert (fs1 !! (c :: up) <> Some Dir) as Hn by (rewrite <- is_dir_true; congruence). apply is_dir_true in Eu.
    destruct (o_open O n); [exact Ht|]. destruct (o_write O n); cbn [snd];
      (apply tree_insert; [exact Ht|exact Eu|apply tree_leaf; [exact Ht|exact Hn]]). }
  intros Ht. unfold save. destruct p as [|c up]; [apply HW, Ht|].
  pose proof (create_tree O n up fs Ht) as Hc. destruct (create_dir_all O n up fs) as [ok fs1]. destruct ok; [apply HW, Hc|exact Hc].
Qed.

(** How a save ends *)
Lemma save_outcome O n p text fs : tree fs -> p <> [] ->
  match fst (save O n p text fs) with
  | CreateDirFails => no_directory O n p fs
  | OpenFails => ~ no_directory O n p fs /\ (fs !! p = Some Dir \/ o_open O n = true)
  | WriteOk => ~ no_directory O n p fs /\ fs !! p <> Some Dir /\ o_open O n = false /\ o_write O n = None
  | WriteFailsAfter k => ~ no_directory O n p fs /\ fs !! p <> Some Dir /\ o_open O n = false /\ o_write O n = Some k
  end.
Proof.
  intros Ht Hp. destruct p as [|c up]; [contradiction|]. unfold save.
  pose proof (create_new O n up fs (c :: up)) as Hn. destruct (create_ok O n up fs Ht) as [(E1 & E2 & E3)|(E1 & E2)];
    destruct (create_dir_all O n up fs) as [ok fs1]; cbn [fst snd] in *; subst ok; [rewrite <- stuck_cons in E3|apply stuck_cons, E2].
  assert (fs1 !! (c :: up) = fs !! (c :: up)) as E.
  { destruct Hn as [E|(Hs & _)]; [exact E|]. destruct (suffix_not_cons _ _ _ Hs eq_refl). }
  unfold write_file. apply is_dir_true in E2. rewrite E2. cbn [negb orb].
  destruct (is_dir fs1 (c :: up)) eqn:Ed; cbn [orb].
  - cbn [fst]. split; [exact E3|]. left. rewrite <- E. apply is_dir_true, Ed.
  - assert (fs !! (c :: up) <> Some Dir) as Hnd by (rewrite <- E, <- is_dir_true; congruence).
    destruct (o_open O n); [cbn [fst]; auto|]. destruct (o_write O n); cbn [fst]; auto.
Qed.

(** * How saves end does not depend on the contents of files *)

Definition alike (x y : option node) : Prop :=
  match x, y with None, None | Some Dir, Some Dir | Some (File _), Some (File _) => True | _, _ => False end.
Definition alikes (fs fs' : files) : Prop := forall q, alike (fs !! q) (fs' !! q).

Lemma alikes_refl fs : alikes fs fs.
Proof. intros q. destruct (fs !! q) as [[|t]|]; exact I. Qed.
Lemma alikes_insert fs fs' p x y : alikes fs fs' -> alike (Some x) (Some y) -> alikes (<[p := x]> fs) (<[p := y]> fs').
Proof.
  intros H Hx q. destruct (decide (q = p)) as [-> |Hn]; [rewrite !lookup_insert; exact Hx|].
  rewrite !lookup_insert_ne by congruence. apply H.
Qed.
Lemma unreachable_alike fs fs' p : alikes fs fs' -> unreachable fs p = unreachable fs' p.
Proof.
  intros H. induction p as [|c up IH]; cbn [unreachable].
  - specialize (H []). destruct (fs !! []) as [[|t]|], (fs' !! []) as [[|t']|]; try destruct H; reflexivity.
  - specialize (H (c :: up)). destruct (fs !! (c :: up)) as [[|t]|], (fs' !! (c :: up)) as [[|t']|]; try destruct H; try reflexivity. exact IH.
Qed.
Lemma is_dir_alike fs fs' p : alikes fs fs' -> is_dir fs p = is_dir fs' p.
Proof. intros H. specialize (H p). unfold is_dir. destruct (fs !! p) as [[|t]|], (fs' !! p) as [[|t']|]; try destruct H; reflexivity. Qed.
Lemma mkdir_alike O n p fs fs' : alikes fs fs' ->
  fst (mkdir O n p fs) = fst (mkdir O n p fs') /\ alikes (snd (mkdir O n p fs)) (snd (mkdir O n p fs')).
Proof.
  intros H. pose proof (H p) as Hp. unfold mkdir.
  destruct (fs !! p) as [[|t]|], (fs' !! p) as [[|t']|]; try destruct Hp; try (split; [reflexivity|exact H]).
  destruct p as [|c up]; [split; [reflexivity|exact H]|]. pose proof (H up) as Hu.
  destruct (fs !! up) as [[|t]|], (fs' !! up) as [[|t']|]; try destruct Hu;
    try (split; [apply unreachable_alike, H|exact H]).
  destruct (o_mkdir O n _); split; try reflexivity; [exact H|]. apply alikes_insert; [exact H|exact I].
Qed.
Lemma create_alike O n p fs fs' : alikes fs fs' ->
  fst (create_dir_all O n p fs) = fst (create_dir_all O n p fs') /\ alikes (snd (create_dir_all O n p fs)) (snd (create_dir_all O n p fs')).
Proof.
  revert fs fs'. induction p as [|c up IH]; intros fs fs' H; cbn [create_dir_all].
  - destruct (mkdir_alike O n [] fs fs' H) as [E1 E2]. destruct (mkdir O n [] fs) as [r fs1], (mkdir O n [] fs') as [r' fs1'].
    cbn [fst snd] in *. subst r'. destruct r; cbn [fst snd]; (split; [|exact E2]); try reflexivity. apply is_dir_alike, E2.
  - destruct (mkdir_alike O n (c :: up) fs fs' H) as [E1 E2]. destruct (mkdir O n (c :: up) fs) as [r fs1], (mkdir O n (c :: up) fs') as [r' fs1'].
    cbn [fst snd] in *. subst r'. destruct r; cbn [fst snd]; [split; [reflexivity|exact E2]| |split; [apply is_dir_alike, E2|exact E2]].
    destruct (IH fs1 fs1' E2) as [E3 E4]. destruct (create_dir_all O n up fs1) as [ok fs2], (create_dir_all O n up fs1') as [ok' fs2'].
    cbn [fst snd] in *. subst ok'. destruct ok; [|split; [reflexivity|exact E4]].
    destruct (mkdir_alike O n (c :: up) fs2 fs2' E4) as [E5 E6].
    destruct (mkdir O n (c :: up) fs2) as [r fs3], (mkdir O n (c :: up) fs2') as [r' fs3']. cbn [fst snd] in *. subst r'.
    destruct r; split; try exact E6; try reflexivity; apply is_dir_alike, E6.
Qed.
Lemma save_alike O n p x y fs fs' : alikes fs fs' ->
  fst (save O n p x fs) = fst (save O n p y fs') /\ alikes (snd (save O n p x fs)) (snd (save O n p y fs')).
Proof.
  assert (forall fs fs', alikes fs fs' ->
    fst (write_file O n p x fs) = fst (write_file O n p y fs') /\ alikes (snd (write_file O n p x fs)) (snd (write_file O n p y fs'))) as HW.
  { clear. intros fs fs' H. unfold write_file. destruct p as [|c up]; [split; [reflexivity|exact H]|].
    rewrite <- (is_dir_alike fs fs' up H), <- (is_dir_alike fs fs' (c :: up) H).
    destruct (_ || _); [split; [reflexivity|exact H]|]. destruct (o_write O n); (split; [reflexivity|]); apply alikes_insert; try exact H; exact I. }
  intros H. unfold save. destruct p as [|c up]; [apply HW, H|].
  destruct (create_alike O n up fs fs' H) as [E1 E2]. destruct (create_dir_all O n up fs) as [ok fs1], (create_dir_all O n up fs') as [ok' fs1'].
  cbn [fst snd] in *. subst ok'. destruct ok; [apply HW, E2|split; [reflexivity|exact E2]].
Qed.
Lemma after_alike O p k n fs fs' : alikes fs fs' -> alikes (after_saves O p k n fs) (after_saves O p k n fs').
Proof.
  revert n fs fs'. induction k as [|k IH]; intros n fs fs' H; [exact H|]. cbn [after_saves]. apply IH. apply save_alike, H.
Qed.
Lemma after_last O p k n fs : after_saves O p (S k) n fs = snd (save O (n + k) p [] (after_saves O p k n fs)).
Proof.
  revert n fs. induction k as [|k IH]; intros n fs; [rewrite Nat.add_0_r; reflexivity|].
  change (after_saves O p (S (S k)) n fs) with (after_saves O p (S k) (S n) (snd (save O n p [] fs))).
  rewrite IH. cbn [after_saves]. rewrite Nat.add_succ_r. reflexivity.
Qed.

(** * Calls *)

Section calls.
Context (O : os) (P : prims) (p : fpath).
Hypothesis (HP : prims_ok P).

Lemma call_eq o s fs w : w (s_flushes s) = fst (save O (s_flushes s) p [] fs) ->
  fst (call O P p o s fs) = exec (with_writes P w) o s.
Proof.
  intros Hw. unfold call.
  pose proof (exec_same (with_writes P w) (fun n => fst (save O n p [] fs)) o s (or_introl (eq_sym Hw))) as E.
  change (with_writes (with_writes P w) (fun n => fst (save O n p [] fs))) with (with_writes P (fun n => fst (save O n p [] fs))) in E.
  rewrite <- E. destruct (exec (with_writes P w) o s). reflexivity.
Qed.
Lemma call_files o s fs : snd (call O P p o s fs) =
  let s' := snd (fst (call O P p o s fs)) in
  if s_flushes s' =? s_flushes s then fs else snd (save O (s_flushes s) p (flush_text P s') fs).
Proof. unfold call. destruct (exec _ o s) as [r s']. reflexivity. Qed.
Lemma call_once o s fs : let s' := snd (fst (call O P p o s fs)) in s_flushes s' = s_flushes s \/ s_flushes s' = S (s_flushes s).
Proof.
  unfold call. pose proof (exec_once (with_writes P (fun n => fst (save O n p [] fs))) o s (with_writes_ok _ _ HP)) as H.
  destruct (exec _ o s) as [r s']. exact H.
Qed.
Lemma call_quiet o s fs : modifies o = false -> snd (call O P p o s fs) = fs /\ s_flushes (snd (fst (call O P p o s fs))) = s_flushes s.
Proof.
  intros Hm. unfold call. pose proof (exec_reads (with_writes P (fun n => fst (save O n p [] fs))) o s (with_writes_ok _ _ HP) Hm) as H.
  destruct (exec _ o s) as [r s']. cbn [fst snd] in *. rewrite H, Nat.eqb_refl. auto.
Qed.
Lemma call_only o s fs : only_changes p fs (snd (call O P p o s fs)).
Proof. rewrite call_files. cbv zeta. destruct (_ =? _); [apply only_refl|apply save_only]. Qed.
Lemma call_tree o s fs : tree fs -> tree (snd (call O P p o s fs)).
Proof. intros H. rewrite call_files. cbv zeta. destruct (_ =? _); [exact H|apply save_tree, H]. Qed.

Lemma call_read o s fs : read fs p = s_disk s ->
  read (snd (call O P p o s fs)) p = s_disk (snd (fst (call O P p o s fs))).
Proof.
  intros Hr. unfold call. set (w := fun n => fst (save O n p [] fs)).
  pose proof (exec_flushed (with_writes P w) o s (with_writes_ok P w HP)) as HF.
  pose proof (exec_calm (with_writes P w) o s (with_writes_ok P w HP)) as HC.
  destruct (exec (with_writes P w) o s) as [r s']. cbn [fst snd] in *.
  destruct (Nat.eqb_spec (s_flushes s') (s_flushes s)) as [E|E]; [rewrite HC; [exact Hr|exact E]|].
  rewrite (HF E), save_read. cbn [with_writes p_write]. unfold w.
  rewrite (proj1 (save_alike O (s_flushes s) p (flush_text P s') [] fs fs (alikes_refl fs))), Hr.
  destruct (fst (save O (s_flushes s) p [] fs)); reflexivity.
Qed.

Lemma calls_on_cons o l s fs : calls_on O P p (o :: l) s fs =
  let c := call O P p o s fs in let r := calls_on O P p l (snd (fst c)) (snd c) in
  (fst (fst c) :: fst (fst r), snd (fst r), snd r).
Proof. cbn [calls_on]. destruct (call O P p o s fs) as [[r s1] fs1]. cbn [fst snd]. destruct (calls_on O P p l s1 fs1) as [[rs s2] fs2]. reflexivity. Qed.

Lemma calls_read l s fs : read fs p = s_disk s -> read (snd (calls_on O P p l s fs)) p = s_disk (snd (fst (calls_on O P p l s fs))).
Proof.
  revert s fs. induction l as [|o l IH]; intros s fs H; [exact H|]. rewrite calls_on_cons. cbv zeta. cbn [fst snd]. apply IH, call_read, H.
Qed.
Lemma calls_only l s fs : only_changes p fs (snd (calls_on O P p l s fs)).
Proof.
  revert s fs. induction l as [|o l IH]; intros s fs; [apply only_refl|]. rewrite calls_on_cons. cbv zeta. cbn [snd].
  exact (only_trans _ _ _ _ (call_only o s fs) (IH _ _)).
Qed.
Lemma calls_tree l s fs : tree fs -> tree (snd (calls_on O P p l s fs)).
Proof.
  revert s fs. induction l as [|o l IH]; intros s fs H; [exact H|]. rewrite calls_on_cons. cbv zeta. cbn [snd]. apply IH, call_tree, H.
Qed.
Lemma calls_quiet l s fs : Forall (fun o => modifies o = false) l -> snd (calls_on O P p l s fs) = fs.
Proof.
  revert s fs. induction l as [|o l IH]; intros s fs H; [reflexivity|]. inversion H as [|? ? H1 H2]; subst.
  rewrite calls_on_cons. cbv zeta. cbn [snd]. rewrite (proj1 (call_quiet o s fs H1)). apply IH, H2.
Qed.

(** The directories are those of the saves, whatever the texts. *)
Lemma calls_run n fs0 : forall l s fs, n <= s_flushes s -> alikes fs (after_saves O p (s_flushes s - n) n fs0) ->
  fst (calls_on O P p l s fs) = run (with_writes P (answers O p n fs0)) l s /\
  let s' := snd (fst (calls_on O P p l s fs)) in
  n <= s_flushes s' /\ alikes (snd (calls_on O P p l s fs)) (after_saves O p (s_flushes s' - n) n fs0).
Proof.
  induction l as [|o l IH]; intros s fs Hn Ha; [split; [reflexivity|split; [exact Hn|exact Ha]]|].
  rewrite calls_on_cons. cbv zeta. cbn [fst snd run].
  assert (fst (call O P p o s fs) = exec (with_writes P (answers O p n fs0)) o s) as E.
  { apply call_eq. unfold answers. symmetry. apply (save_alike O (s_flushes s) p [] [] _ _ Ha). }
  pose proof (call_once o s fs) as Ho. cbv zeta in Ho. pose proof (call_files o s fs) as Hf. cbv zeta in Hf. rewrite <- E.
  destruct (call O P p o s fs) as [[r s1] fs1]. cbn [fst snd] in *.
  assert (n <= s_flushes s1 /\ alikes fs1 (after_saves O p (s_flushes s1 - n) n fs0)) as [H1 H2].
  { destruct Ho as [Ho|Ho].
    - rewrite Ho, Nat.eqb_refl in Hf. subst fs1. rewrite Ho. auto.
    - destruct (Nat.eqb_spec (s_flushes s1) (s_flushes s)) as [E1|_]; [lia|]. split; [lia|]. subst fs1. rewrite Ho.
      replace (S (s_flushes s) - n) with (S (s_flushes s - n)) by lia. rewrite after_last.
      replace (n + (s_flushes s - n)) with (s_flushes s) by lia. apply save_alike, Ha. }
  destruct (IH s1 fs1 H1 H2) as (E1 & E2 & E3). split; [|split; [exact E2|exact E3]].
  rewrite <- E1. destruct (calls_on O P p l s1 fs1) as [[rs s2] fs2]. reflexivity.
Qed.

Lemma runs_on l s fs : fst (calls_on O P p l s fs) = run (with_writes P (answers O p (s_flushes s) fs)) l s.
Proof. apply (calls_run (s_flushes s) fs l s fs); [lia|]. rewrite Nat.sub_diag. apply alikes_refl. Qed.

(** Contents elsewhere *)
Lemma after_only k n fs : only_changes p fs (after_saves O p k n fs).
Proof. revert n fs. induction k as [|k IH]; intros n fs; [apply only_refl|]. cbn [after_saves]. exact (only_trans _ _ _ _ (save_only O n p [] fs) (IH _ _)). Qed.

Lemma left_on l s fs : read fs p = s_disk s ->
  snd (calls_on O P p l s fs) = files_left O p (s_flushes s) fs (snd (fst (calls_on O P p l s fs))).
Proof.
  intros Hr. destruct (calls_run (s_flushes s) fs l s fs (le_n _)) as (_ & _ & Ha); [rewrite Nat.sub_diag; apply alikes_refl|].
  pose proof (calls_read l s fs Hr) as Hd. pose proof (calls_only l s fs) as Hc. unfold files_left.
  set (fs' := snd (calls_on O P p l s fs)) in *. set (s' := snd (fst (calls_on O P p l s fs))) in *.
  pose proof (after_only (s_flushes s' - s_flushes s) (s_flushes s) fs) as Hk.
  set (k := after_saves O p (s_flushes s' - s_flushes s) (s_flushes s) fs) in *.
  assert (forall q, q <> p -> fs' !! q = k !! q) as Hq.
  { intros q Hn. specialize (Ha q). specialize (Hc q). specialize (Hk q).
    destruct Hc as [Hc|[(_ & Hc1 & Hc)|(Hc & _)]]; [| |contradiction]; (destruct Hk as [Hk|[(_ & Hk1 & Hk)|(Hk & _)]]; [| |contradiction]);
      rewrite ?Hc, ?Hk in *; try reflexivity; [rewrite Hk1 in Ha; destruct Ha|rewrite Hc1 in Ha; destruct Ha]. }
  unfold read in Hd. apply map_eq. intros q. destruct (decide (q = p)) as [-> |Hn].
  - specialize (Ha p). destruct (fs' !! p) as [[|t]|] eqn:E; rewrite <- Hd.
    + destruct (k !! p) as [[|t']|]; try destruct Ha; reflexivity.
    + rewrite lookup_insert. reflexivity.
    + destruct (k !! p) as [[|t']|]; try destruct Ha; reflexivity.
  - rewrite (Hq q Hn). destruct (s_disk s'); [rewrite lookup_insert_ne by congruence|]; reflexivity.
Qed.
End calls.

(** * Without trouble *)

Lemma only_keeps p fs fs' q t : only_changes p fs fs' -> q <> p -> fs !! q = Some (File t) -> fs' !! q = Some (File t).
Proof. intros H Hn E. destruct (H q) as [E'|[(_ & E' & _)|(E' & _)]]; [|congruence..]. rewrite E'. exact E. Qed.

Lemma after_tree O p k n fs : tree fs -> tree (after_saves O p k n fs).
Proof. revert n fs. induction k as [|k IH]; intros n fs H; [exact H|]. cbn [after_saves]. apply IH, save_tree, H. Qed.

Lemma clear_later O p k n fs : (forall q t, above q p -> fs !! q <> Some (File t)) -> fs !! p <> Some Dir ->
  (forall q t, above q p -> after_saves O p k n fs !! q <> Some (File t)) /\ after_saves O p k n fs !! p <> Some Dir.
Proof.
  intros Ha Hp. pose proof (after_only O p k n fs) as H. split.
  - intros q t Hq. destruct (H q) as [-> |[(_ & _ & E)|(-> & _)]]; [apply Ha, Hq|congruence|destruct (not_above_self _ Hq)].
  - destruct (H p) as [-> |[(Hq & _)|(_ & _ & t & E)]]; [exact Hp|destruct (not_above_self _ Hq)|congruence].
Qed.

Lemma answers_fine O p n fs m : no_trouble O -> tree fs -> p <> [] ->
  (forall q t, above q p -> fs !! q <> Some (File t)) -> fs !! p <> Some Dir -> answers O p n fs m = WriteOk.
Proof.
  intros HO Ht Hp Ha Hd. unfold answers. destruct (clear_later O p (m - n) n fs Ha Hd) as [Ha' Hd'].
  pose proof (save_outcome O m p [] _ (after_tree O p (m - n) n fs Ht) Hp) as H. destruct (HO m) as (H1 & H2 & H3).
  assert (~ no_directory O m p (after_saves O p (m - n) n fs)) as Hn.
  { intros (q & Hq & [[t E]|[_ E]]); [exact (Ha' q t Hq E)|congruence]. }
  destruct (fst (save O m p [] _)) as [| | |k]; [reflexivity|contradiction|destruct H as [_ [H|H]]; congruence|destruct H as (_ & _ & _ & H); congruence].
Qed.
Lemma answers_blocked O p n fs m q t : tree fs -> p <> [] -> above q p -> fs !! q = Some (File t) -> answers O p n fs m = CreateDirFails.
Proof.
  intros Ht Hp Hq E. unfold answers. pose proof (save_outcome O m p [] _ (after_tree O p (m - n) n fs Ht) Hp) as H.
  assert (no_directory O m p (after_saves O p (m - n) n fs)) as Hn.
  { exists q. split; [exact Hq|]. left. exists t. apply (only_keeps p fs); [apply after_only| |exact E]. intros ->. exact (not_above_self _ Hq). }
  destruct (fst (save O m p [] _)); [|reflexivity| |]; destruct (proj1 H Hn).
Qed.
Lemma answers_directory O p n fs m : tree fs -> p <> [] -> fs !! p = Some Dir -> answers O p n fs m = OpenFails.
Proof.
  intros Ht Hp E. unfold answers. set (fs' := after_saves O p (m - n) n fs).
  assert (fs' !! p = Some Dir) as E'.
  { destruct (after_only O p (m - n) n fs p) as [E'|[(Hq & _)|(_ & Hq & _)]]; [unfold fs'; rewrite E'; exact E|destruct (not_above_self _ Hq)|contradiction]. }
  assert (tree fs') as Ht' by apply after_tree, Ht. pose proof (save_outcome O m p [] fs' Ht' Hp) as H.
  assert (~ no_directory O m p fs') as Hn.
  { intros (q & Hq & G). pose proof (proj2 Ht' q p Dir E' Hq) as D. destruct G as [[t G]|[G _]]; congruence. }
  destruct (fst (save O m p [] fs')); [destruct H as (_ & H & _); contradiction|contradiction|reflexivity|destruct H as (_ & H & _); contradiction].
Qed.

(** * The history of the shell *)

Lemma history_elsewhere O n h text fs p : p <> h -> save_history O n h text fs !! p = fs !! p.
Proof.
  intros Hn. unfold save_history. pose proof (write_cases O n h text fs) as H.
  destruct (fst (write_file O n h text fs)); [destruct H as [_ ->]|destruct H|rewrite H; reflexivity|destruct H as [_ ->]]; apply lookup_insert_ne; congruence.
Qed.

(** * Processes *)

From Verif Require Import M_Cli S_History S_Cli P_CliLives.

Lemma looks_calls c o : looks c -> calls c o -> modifies o = false.
Proof.
  destruct o; try reflexivity; cbn [modifies calls]; intros Hl H.
  - destruct H as [[y ->] _]. destruct Hl.
  - destruct H as [r ->]. destruct Hl.
  - subst c. destruct Hl.
  - destruct H as (d & s & rc & v & ->). destruct (Hl eq_refl).
  - destruct H as (_ & _ & ? & ? & ? & ? & ? & -> & _). destruct Hl.
  - destruct H as (? & ? & ->). destruct Hl.
  - subst c. destruct Hl.
  - subst c. destruct Hl.
Qed.

Section processes.
Context (O : os) (P : prims) (E : externals) (path : bytes) (p : fpath).

Lemma processes_on l s fs : prims_ok P -> externals_valid E -> Forall process_valid l -> read fs p = s_disk s ->
  let s' := processes (with_writes P (answers O p (s_flushes s) fs)) E path l s in
  exists ops rs, calls_on O P p ops s fs = (rs, s', files_left O p (s_flushes s) fs s') /\ Forall op_valid ops /\
    Forall (fun o => o = Restart \/ o = Lock \/ exists a t, In (a, t) l /\ session_calls E (a_command a) o) ops.
Proof.
  intros HP HE Hl Hr. cbv zeta. set (P' := with_writes P (answers O p (s_flushes s) fs)).
  destruct (processes_calls P' E path HE l s Hl) as (ops & Es & Hv & _ & Hc & _).
  pose proof (runs_on O P p HP ops s fs) as H1. pose proof (left_on O P p HP ops s fs Hr) as H2. fold P' in H1.
  exists ops, (fst (run P' ops s)). split; [|auto]. rewrite Es. rewrite H1 in H2. rewrite <- H2, <- surjective_pairing, <- H1. apply surjective_pairing.
Qed.

Lemma processes_files l s fs : prims_ok P -> externals_valid E -> Forall process_valid l -> read fs p = s_disk s ->
  let s' := processes (with_writes P (answers O p (s_flushes s) fs)) E path l s in
  let fs' := files_left O p (s_flushes s) fs s' in
  read fs' p = s_disk s' /\ only_changes p fs fs' /\ (tree fs -> tree fs') /\
  (Forall (fun x => looks (a_command (fst x))) l -> fs' = fs).
Proof.
  intros HP HE Hl Hr. cbv zeta. destruct (processes_on l s fs HP HE Hl Hr) as (ops & rs & H & _ & Hc). cbv zeta in H.
  set (s' := processes _ E path l s) in *. set (fs' := files_left O p (s_flushes s) fs s') in *.
  pose proof (calls_read O P p HP ops s fs Hr) as H1. pose proof (calls_only O P p ops s fs) as H2.
  pose proof (calls_tree O P p ops s fs) as H3. pose proof (calls_quiet O P p HP ops s fs) as H4.
  rewrite H in H1, H2, H3, H4. cbn [fst snd] in *. split; [exact H1|]. split; [exact H2|]. split; [exact H3|].
  intros Hlk. apply H4. apply List.Forall_forall. intros o Ho. apply (proj1 (List.Forall_forall _ _) Hc) in Ho.
  destruct Ho as [-> |[-> |(a & t & Hi & Ho)]]; [reflexivity..|]. apply (proj1 (List.Forall_forall _ _) Hlk) in Hi. cbn [fst] in Hi.
  apply (looks_calls (a_command a)); [exact Hi|]. destruct (a_command a); try exact Ho. destruct Hi.
Qed.
End processes.

(** * The first save *)

Lemma exec_reset_works P pp s : prims_ok P -> p_write P (s_flushes s) = WriteOk ->
  fst (exec P (Reset pp) s) = ODone /\ load P (s_disk (snd (exec P (Reset pp) s))) = Ok (s_data (snd (exec P (Reset pp) s))).
Proof.
  intros HP Hw. destruct (reset_cases P pp s HP) as (s1 & _ & Hd & Hfl & _ & Ht & _ & _ & H).
  assert (fst (exec P (Reset pp) s) = ODone) as E.
  { destruct H as [(_ & H & _)|(H1 & H)]; [exact H|]. exfalso. apply H1. rewrite H. apply done_out_ok.
    unfold flush. rewrite Hfl, Hw. reflexivity. }
  split; [exact E|]. destruct (exec_disk P (Reset pp) s HP) as (_ & _ & Hs & _). rewrite (Hs E eq_refl).
  apply load_flush; [exact HP|]. destruct (flush_facts P s1) as (F1 & _).
  destruct H as [(_ & _ & ->)|(_ & ->)]; [cbn [set_secrets snd s_data]|rewrite done_out_snd]; rewrite F1; exact Ht.
Qed.

Lemma first_save O P p pp s fs : prims_ok P -> no_trouble O -> tree fs -> p <> [] ->
  (forall q t, above q p -> fs !! q <> Some (File t)) -> fs !! p <> Some Dir -> read fs p = s_disk s ->
  exists s' fs', call O P p (Reset pp) s fs = (ODone, s', fs') /\ load P (read fs' p) = Ok (s_data s') /\
    (forall q, above q p -> fs' !! q = Some Dir) /\ forall q, ~ above q p -> q <> p -> fs' !! q = fs !! q.
Proof.
  intros HP HO Ht Hp Ha Hd Hr. pose proof (call_eq O P p (Reset pp) s fs (fun n => fst (save O n p [] fs)) eq_refl) as E.
  set (P' := with_writes P (fun n => fst (save O n p [] fs))) in E.
  assert (p_write P' (s_flushes s) = WriteOk) as Hw.
  { cbn. pose proof (answers_fine O p (s_flushes s) fs (s_flushes s) HO Ht Hp Ha Hd) as H. unfold answers in H.
    rewrite Nat.sub_diag in H. exact H. }
  destruct (exec_reset_works P' pp s (with_writes_ok _ _ HP) Hw) as [H1 H2].
  pose proof (call_read O P p HP (Reset pp) s fs Hr) as H3. pose proof (call_only O P p (Reset pp) s fs) as H4.
  pose proof (call_tree O P p (Reset pp) s fs Ht) as H5. rewrite <- E in H1, H2.
  destruct (call O P p (Reset pp) s fs) as [[r s'] fs']. cbn [fst snd] in *. subst r. exists s', fs'. split; [reflexivity|].
  split; [rewrite H3; exact H2|]. split.
  - intros q Hq. rewrite <- H3 in H2. unfold read in H2. destruct (fs' !! p) as [x|] eqn:Ex; [|discriminate H2].
    exact (proj2 H5 _ _ _ Ex Hq).
  - intros q Hq Hn. destruct (H4 q) as [G|[(G & _)|(G & _)]]; [exact G|contradiction..].
Qed.

Lemma history_default O n root text fs t : no_trouble O -> tree fs ->
  fs !! default_storage_path root = Some (File t) -> fs !! default_history_path root <> Some Dir ->
  read (save_history O n (default_history_path root) text fs) (default_history_path root) = Some text.
Proof.
  intros HO Ht E Hd. unfold save_history, write_file, default_history_path in *. destruct (HO n) as (_ & H2 & H3).
  assert (is_dir fs root = true) as -> by (apply is_dir_true; exact (tree_up _ _ _ _ Ht E)).
  destruct (is_dir fs (bs "history.txt" :: root)) eqn:Ed; [apply is_dir_true in Ed; contradiction|].
  rewrite H2, H3. cbn [negb orb snd]. unfold read. rewrite lookup_insert. reflexivity.
Qed.
