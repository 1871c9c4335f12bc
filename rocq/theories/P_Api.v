(** Facts about single calls that need no assumption about the cryptographic primitives. *)
From stdpp Require Import gmap.
From Coq Require Import Permutation ZArith ZifyBool ZifyNat ZifyN.
From Verif Require Import M_Base M_Base64 M_Utf8 M_Prims M_Types M_Crypto M_Recovery M_Json M_Serde M_Storage
  M_Passwords M_History S_Json S_Serde S_Vault S_Api P_Base P_Base64 P_Crypto P_Validate P_Recovery P_Json P_Serde P_Utf8
  P_File P_Storage.

(** * A calculus for relations between the states before and after *)

Section keeps.
Context (R : st -> st -> Prop) (Hrefl : forall s, R s s) (Htrans : forall a b c, R a b -> R b c -> R a c).

Definition keeps {A} (m : M A) : Prop := forall s, R s (snd (m s)).

Lemma keeps_bind {A B} (m : M A) (f : A -> M B) : keeps m -> (forall a, keeps (f a)) -> keeps (bindM m f).
Proof.
  intros H1 H2 s. unfold bindM. specialize (H1 s). destruct (m s) as [[a|e|] s']; cbn [snd] in *; try exact H1.
  exact (Htrans _ _ _ H1 (H2 a s')).
Qed.
Lemma keeps_reads {A} (f : st -> res A) : keeps (reads f).
Proof. intros s. apply Hrefl. Qed.
Lemma keeps_lift {A} (r : res A) : keeps (lift r).
Proof. intros s. apply Hrefl. Qed.
Lemma keeps_ret {A} (r : A) : keeps (ret r).
Proof. intros s. apply Hrefl. Qed.
End keeps.

Lemma as_out_snd {A} (f : A -> out) r : snd (as_out f r) = snd r.
Proof. reflexivity. Qed.

(** * The number of random values drawn never decreases *)

Definition grows {A} (m : M A) : Prop := forall s, s_rand s <= s_rand (snd (m s)).

Lemma grows_bind {A B} (m : M A) (f : A -> M B) : grows m -> (forall a, grows (f a)) -> grows (bindM m f).
Proof.
  intros H1 H2 s. unfold bindM. specialize (H1 s). destruct (m s) as [[a|e|] s']; cbn [snd] in *; try exact H1.
  specialize (H2 a s'). lia.
Qed.
Lemma grows_reads {A} (f : st -> res A) : grows (reads f).
Proof. intros s. apply le_n. Qed.
Lemma grows_lift {A} (r : res A) : grows (lift r).
Proof. intros s. apply le_n. Qed.
Lemma grows_ret {A} (r : A) : grows (ret r).
Proof. intros s. apply le_n. Qed.
Lemma grows_draw P n : grows (draw P n).
Proof. intros s. cbn. lia. Qed.
Lemma grows_flush P : grows (flush P).
Proof. intros s. unfold flush. destruct (p_write P (s_flushes s)); apply le_n. Qed.
Lemma grows_put d : grows (put_data d).
Proof. intros s. apply le_n. Qed.
Lemma grows_set k v : grows (io_set k v).
Proof. intros s. apply le_n. Qed.
Lemma grows_remove k : grows (io_remove k).
Proof. intros s. unfold io_remove. destruct (s_data s !! k); apply le_n. Qed.
Lemma grows_secrets a b c : grows (set_secrets a b c).
Proof. intros s. apply le_n. Qed.
Lemma grows_encrypted P k t e : grows (set_encrypted P k t e).
Proof. intros s. unfold set_encrypted. destruct (encrypt_data P (s_rand s) t e); cbn; lia. Qed.
Lemma grows_ensure P a b c : grows (ensure_site_data P a b c).
Proof.
  intros s. unfold ensure_site_data.
  destruct (storage_get P site_of_json (s_data s) (get_site_key P a b) c); [apply le_n| |apply le_n].
  apply grows_encrypted.
Qed.
Lemma grows_loop P l h : grows (remove_sites_loop P l h).
Proof.
  induction l as [|x l IH]; [apply grows_ret|]. cbn [remove_sites_loop]. apply grows_bind; [apply grows_remove|].
  intros _. exact IH.
Qed.

Ltac grows_tac :=
  repeat first
    [ apply grows_bind; [|intros ?]
    | apply grows_reads | apply grows_lift | apply grows_ret | apply grows_draw | apply grows_flush
    | apply grows_put | apply grows_set | apply grows_remove | apply grows_secrets | apply grows_encrypted
    | apply grows_ensure | apply grows_loop ].

Lemma grows_storage_set_alias P a b c d : grows (storage_set_alias P a b c d).
Proof. unfold storage_set_alias, storage_set. destruct (bytes_eqb a b); grows_tac. Qed.
Lemma grows_recovery P p : grows (get_recovery_code P p).
Proof. unfold get_recovery_code, the_key. grows_tac. intros s. cbn. lia. Qed.

Lemma exec_grows P o s : s_rand s <= s_rand (snd (exec P o s)).
Proof.
  destruct o; cbn [exec]; try rewrite as_out_snd; try apply le_n.
  - revert s. change (grows (reset P pp)). unfold reset, storage_clear, set_hmac_secret, set_salt, io_clear. grows_tac.
  - revert s. change (grows (unlock P pp)). unfold unlock. grows_tac.
  - revert s. change (grows (get_alias P s0)). unfold get_alias, the_hmac, the_key. grows_tac.
  - revert s. change (grows (set_alias P s0 a)). unfold set_alias, the_hmac, the_key. grows_tac.
    destruct a3; grows_tac. apply grows_storage_set_alias.
  - revert s. change (grows (remove_alias P s0)). unfold remove_alias, the_hmac, the_key. grows_tac.
    destruct (site_alias _); grows_tac.
  - revert s. change (grows (remove_sites P l)). unfold remove_sites, the_hmac, the_key.
    destruct l; grows_tac.
  - revert s. change (grows (set_generated P s0 n r len cs)).
    unfold set_generated, the_hmac, the_key, set_password, storage_set. grows_tac.
  - revert s. change (grows (set_stored P s0 n r text)).
    unfold set_stored, the_hmac, the_key, set_password, storage_set. grows_tac.
  - revert s. change (grows (has P s0 n r)). unfold has, the_hmac, the_key. grows_tac.
  - revert s. change (grows (get P s0 n r)). unfold get, the_hmac, the_key, the_primary. grows_tac.
  - revert s. change (grows (get_notes P s0 n r)). unfold get_notes, the_hmac, the_key. grows_tac.
  - revert s. change (grows (set_notes P s0 n r notes)).
    unfold set_notes, the_hmac, the_key, set_password, storage_set. grows_tac.
  - revert s. change (grows (remove P s0 n r)). unfold remove, the_hmac, the_key, remove_password. grows_tac.
  - revert s. apply grows_recovery.
  - revert s. change (grows (decode_recovery_code P code)). unfold decode_recovery_code, the_primary. grows_tac.
Qed.

(** Two values are drawn and an encryption is done by every [reset]. *)
Lemma reset_draws P pp s : prims_ok P -> s_rand s + 2 < s_rand (snd (exec P (Reset pp) s)).
Proof.
  intros HP. cbn [exec]. rewrite as_out_snd. unfold reset. unfold draw at 1. unfold bindM at 1.
  unfold lift. unfold bindM at 1. rewrite get_encryption_key_eq. unfold draw. unfold bindM at 1.
  unfold storage_clear. unfold set_hmac_secret, set_encrypted, set_salt, io_clear, io_set, put_data.
  unfold bindM at 1. unfold bindM at 1. cbn [s_data s_key s_hmac s_primary s_disk s_tick s_flushes s_rand].
  unfold bindM at 1. cbn [s_data s_key s_hmac s_primary s_disk s_tick s_flushes s_rand].
  rewrite encrypt_sealed by apply (ok_scrypt_len P HP).
  match goal with |- _ < s_rand (snd (?m ?x)) => assert (grows m) as G by grows_tac; specialize (G x) end.
  cbn [s_data s_key s_hmac s_primary s_disk s_tick s_flushes s_rand] in G.
  lia.
Qed.

Lemma run_grows P l s : s_rand s <= s_rand (snd (run P l s)).
Proof.
  revert s; induction l as [|o l IH]; intros s; [apply le_n|]. cbn [run].
  pose proof (exec_grows P o s) as H. destruct (exec P o s) as [r s1]. specialize (IH s1).
  destruct (run P l s1) as [rs s2]. cbn [snd] in *. lia.
Qed.

(** Everything but the data and the counters is the same. *)
Definition stays (s s' : st) : Prop :=
  secrets s' = secrets s /\ s_disk s' = s_disk s /\ s_flushes s' = s_flushes s.
Lemma stays_refl s : stays s s.
Proof. repeat split. Qed.
Lemma stays_trans a b c : stays a b -> stays b c -> stays a c.
Proof. unfold stays. intuition congruence. Qed.

(** * Data consisting of texts *)

Definition text_step (s s' : st) : Prop := texts (s_data s) -> texts (s_data s').

Lemma texts_insert k v d : utf8 k = true -> utf8 v = true -> texts d -> texts (<[k := v]> d).
Proof.
  intros Hk Hv H k' v' E. apply lookup_insert_Some in E. destruct E as [[<- <-]|[_ E]]; [auto|apply (H _ _ E)].
Qed.
Lemma texts_delete k d : texts d -> texts (delete k d).
Proof. intros H k' v' E. apply lookup_delete_Some in E. apply (H _ _ (proj2 E)). Qed.
Lemma texts_empty : texts ∅.
Proof. intros k v H. rewrite lookup_empty in H. discriminate. Qed.

Lemma encrypt_utf8 P rnd m k c : encrypt_data P rnd m k = Ok c -> utf8 c = true.
Proof. intros H. apply encrypt_data_ok in H. destruct H as [_ ->]. apply (utf8_sealed P k rnd m). Qed.

(** The three ways data changes. *)
Lemma set_encrypted_cases P key text k s :
  (exists c, encrypt_data P (s_rand s) text k = Ok c /\
     set_encrypted P key text k s =
     (Ok tt, mk_st (<[key := c]> (s_data s)) (s_key s) (s_hmac s) (s_primary s) (s_disk s) (S (s_tick s))
                   (s_flushes s) (S (s_rand s)))) \/
  set_encrypted P key text k s = (Panic, s).
Proof.
  unfold set_encrypted. unfold encrypt_data. destruct (negb _); [right; reflexivity|].
  left. eexists. split; reflexivity.
Qed.

Lemma ensure_cases P site h k s :
  ensure_site_data P site h k s = (Ok tt, s) \/ ensure_site_data P site h k s = (Panic, s) \/
  ensure_site_data P site h k s = set_encrypted P (get_site_key P site h) (site_to_vec (mk_site site None)) k s.
Proof.
  unfold ensure_site_data. destruct (storage_get _ _ _ _ _); auto.
Qed.

(** * Shape of the modifying calls: changes in memory, then one flush *)

(** [flushes P R m s]: run in [s], [m] fails before writing anything, or it is a change in memory
    related by [R] followed by [flush]. *)
Definition flushes (P : prims) (R : st -> st -> Prop) (m : M unit) (s : st) : Prop :=
  (R s (snd (m s)) /\ match fst (m s) with Ok _ => False | _ => True end) \/
  (exists s1, R s s1 /\ m s = flush P s1).

Section shape.
Context (P : prims) (R : st -> st -> Prop) (Hrefl : forall s, R s s)
        (Htrans : forall a b c, R a b -> R b c -> R a c).

Lemma flushes_flush s : flushes P R (flush P) s.
Proof. right. exists s. auto. Qed.
Lemma flushes_bind {A} (m : M A) (f : A -> M unit) s :
  keeps R m -> (forall a s, flushes P R (f a) s) -> flushes P R (bindM m f) s.
Proof.
  intros H1 H2. unfold flushes, bindM. specialize (H1 s). destruct (m s) as [[a|e|] s']; cbn [fst snd] in *; auto.
  destruct (H2 a s') as [[H3 H4]|(s1 & H3 & H4)].
  - left. split; [exact (Htrans _ _ _ H1 H3)|exact H4].
  - right. exists s1. split; [exact (Htrans _ _ _ H1 H3)|exact H4].
Qed.
Lemma flushes_reads {A} (f : st -> res A) (g : A -> M unit) s :
  (forall a, f s = Ok a -> flushes P R (g a) s) -> flushes P R (bindM (reads f) g) s.
Proof.
  intros H. unfold flushes, bindM, reads in *. destruct (f s) as [a|e|] eqn:E; [exact (H a eq_refl)|left..];
    (split; [apply Hrefl|exact I]).
Qed.
Lemma flushes_fail e s : flushes P R (lift (Err e)) s.
Proof. left. split; [apply Hrefl|exact I]. Qed.
End shape.

(** * The log of encryptions *)

Inductive event : Type := ESlot (k v : bytes) | ECode (c : bytes).

Definition event_ok (P : prims) (i : nat) (e : event) : Prop :=
  match e with
  | ESlot k v => exists key m, length key = 32 /\ v = sealed P key i m
  | ECode c => exists pw salt key, length key = 32 /\ generate P i pw salt key = Ok c
  end.

Definition data_logged (log : list (nat * event)) (d : kvmap) : Prop :=
  forall k v, d !! k = Some v -> k <> SALT_KEY -> exists i, In (i, ESlot k v) log.

Record logged (P : prims) (log : list (nat * event)) (s : st) : Prop := {
  lg_nodup : List.NoDup (map fst log);
  lg_bound : forall i e, In (i, e) log -> i < s_rand s /\ event_ok P i e;
  lg_data : data_logged log (s_data s)
}.

Definition log_step (P : prims) (s s' : st) : Prop :=
  forall log, logged P log s -> exists ext, logged P (log ++ ext) s'.

Lemma log_refl P s : log_step P s s.
Proof. intros log H. exists []. rewrite app_nil_r. exact H. Qed.
Lemma log_trans P a b c : log_step P a b -> log_step P b c -> log_step P a c.
Proof.
  intros H1 H2 log H. destruct (H1 log H) as [e1 H']. destruct (H2 _ H') as [e2 H'']. exists (e1 ++ e2).
  rewrite app_assoc. exact H''.
Qed.

(** Same data, possibly more random values drawn. *)
Lemma log_same P s s' : s_data s' = s_data s -> s_rand s <= s_rand s' -> log_step P s s'.
Proof.
  intros Hd Hr log [H1 H2 H3]. exists []. rewrite app_nil_r. split; [exact H1| |rewrite Hd; exact H3].
  intros i e Hin. destruct (H2 i e Hin). split; [lia|assumption].
Qed.

Lemma data_logged_app log ext d : data_logged log d -> data_logged (log ++ ext) d.
Proof. intros H k v Hk Hs. destruct (H k v Hk Hs) as [i Hi]. exists i. apply in_or_app. auto. Qed.

Lemma log_add P s s' e :
  s_rand s' = S (s_rand s) -> event_ok P (s_rand s) e ->
  (forall log, data_logged log (s_data s) -> data_logged (log ++ [(s_rand s, e)]) (s_data s')) -> log_step P s s'.
Proof.
  intros Hr He Hd log [H1 H2 H3]. exists [(s_rand s, e)]. split.
  - rewrite map_app.
    apply (Permutation.Permutation_NoDup (l := s_rand s :: map fst log)).
    { cbn [map fst]. apply Permutation_cons_append. }
    constructor; [|exact H1]. intros Hin. apply in_map_iff in Hin. destruct Hin as ([i x] & E & Hin). cbn in E. subst i.
    destruct (H2 _ _ Hin). lia.
  - intros i x Hin. apply in_app_or in Hin. destruct Hin as [Hin|[[= <- <-]|[]]].
    + destruct (H2 _ _ Hin). split; [lia|assumption].
    + split; [lia|exact He].
  - apply Hd, H3.
Qed.

(** * What the modifying calls do to memory *)

(** Only slots in [K] change, and they are filled with encryptions under keys in [Q]. *)
Definition changes (P : prims) (K Q : bytes -> Prop) (s s' : st) : Prop :=
  stays s s' /\ text_step s s' /\ (forall k, ~ K k -> s_data s' !! k = s_data s !! k) /\ s_rand s <= s_rand s' /\
  log_step P s s' /\
  (forall key v, s_data s' !! key = Some v ->
     s_data s !! key = Some v \/ K key /\ exists k rnd m, Q k /\ v = sealed P k rnd m).

Section changes.
Context (P : prims) (K Q : bytes -> Prop).

Lemma changes_refl s : changes P K Q s s.
Proof. split; [apply stays_refl|]. split; [intros H; exact H|]. split; [reflexivity|]. split; [lia|]. split; [apply log_refl|auto]. Qed.
Lemma changes_trans a b c : changes P K Q a b -> changes P K Q b c -> changes P K Q a c.
Proof.
  intros (F1 & T1 & D1 & R1 & L1 & E1) (F2 & T2 & D2 & R2 & L2 & E2). split; [exact (stays_trans _ _ _ F1 F2)|].
  split; [intros H; apply T2, T1, H|]. split; [|split; [lia|split; [exact (log_trans _ _ _ _ L1 L2)|]]].
  - intros k Hk. rewrite D2, D1 by exact Hk. reflexivity.
  - intros key v H. destruct (E2 key v H) as [H'|H']; [apply E1, H'|right; exact H'].
Qed.

Lemma changes_encrypted key text k : K key -> Q k -> utf8 key = true -> key <> SALT_KEY -> keeps (changes P K Q) (set_encrypted P key text k).
Proof.
  intros HK HQ Hu Hs s. destruct (set_encrypted_cases P key text k s) as [(c & Hc & ->)| ->]; [|apply changes_refl].
  cbn [snd]. split; [repeat split|]. split; [|split; [|split; [cbn; lia|split]]]; cbn [s_data].
  - intros H. apply texts_insert; [exact Hu|exact (encrypt_utf8 _ _ _ _ _ Hc)|exact H].
  - intros k' Hk'. apply lookup_insert_ne. intros ->. exact (Hk' HK).
  - apply log_add with (e := ESlot key c); [reflexivity| |].
    + apply encrypt_data_ok in Hc. destruct Hc as [Hk ->]. exists k, text. auto.
    + cbn [s_data]. intros log Hl k' v' E Hns. apply lookup_insert_Some in E. destruct E as [[<- <-]|[_ E]].
      * exists (s_rand s). apply in_or_app. right. left. reflexivity.
      * apply (data_logged_app _ _ _ Hl k' v' E Hns).
  - intros k' v' E. apply lookup_insert_Some in E. destruct E as [[<- <-]|[_ E]]; [right|left; exact E].
    split; [exact HK|]. apply encrypt_data_ok in Hc. destruct Hc as [_ ->]. exists k, (s_rand s), text. auto.
Qed.

Lemma changes_remove key : K key -> keeps (changes P K Q) (io_remove key).
Proof.
  intros HK s. unfold io_remove. destruct (s_data s !! key); [|apply changes_refl].
  cbn [put_data snd]. split; [repeat split|]. split; [|split; [|split; [cbn; lia|split]]]; cbn [s_data].
  - intros H. apply texts_delete, H.
  - intros k' Hk'. apply lookup_delete_ne. intros ->. exact (Hk' HK).
  - intros log [H1 H2 H3]. exists []. rewrite app_nil_r. split; [exact H1|exact H2|]. cbn [s_data].
    intros k' v' E. apply lookup_delete_Some in E. apply H3, E.
  - intros k' v' E. apply lookup_delete_Some in E. left. apply E.
Qed.

Lemma changes_ensure site h k : K (get_site_key P site h) -> Q k -> keeps (changes P K Q) (ensure_site_data P site h k).
Proof.
  intros HK HQ s. destruct (ensure_cases P site h k s) as [-> |[-> | ->]]; [apply changes_refl|apply changes_refl|].
  apply changes_encrypted; [exact HK|exact HQ|apply utf8_site_key|apply site_key_not_reserved].
Qed.

Lemma changes_loop l h : (forall x, In x l -> K (get_site_key P x h)) -> keeps (changes P K Q) (remove_sites_loop P l h).
Proof.
  induction l as [|x l IH]; intros H; [intros s; apply changes_refl|]. cbn [remove_sites_loop].
  apply keeps_bind; [apply changes_trans|apply changes_remove, H; left; reflexivity|].
  intros _. apply IH. intros y Hy. apply H. right. exact Hy.
Qed.
End changes.

Definition done_out (r : res unit * st) : out * st := as_out (fun _ => ODone) r.

Definition shaped (P : prims) (o : op) (s : st) : Prop :=
  (changes P (touched P o s) (fun k => s_key s = Some k) s (snd (exec P o s)) /\ fst (exec P o s) <> ODone) \/
  (exists s1, changes P (touched P o s) (fun k => s_key s = Some k) s s1 /\ exec P o s = done_out (flush P s1)).

Lemma shaped_of P o s m :
  exec P o s = done_out (m s) -> flushes P (changes P (touched P o s) (fun k => s_key s = Some k)) m s -> shaped P o s.
Proof.
  intros E. unfold shaped. rewrite E. intros [[H1 H2]|(s1 & H1 & H2)].
  - left. split; [exact H1|]. unfold done_out, as_out. cbn [fst]. destruct (fst (m s)); [contradiction|discriminate..].
  - right. exists s1. rewrite H2. auto.
Qed.

Lemma ok_or_some {A} (o : option A) e a : ok_or o e = Ok a -> o = Some a.
Proof. destruct o; cbn; congruence. Qed.

Ltac reading_step H :=
  apply flushes_reads; [intros ?; apply changes_refl|]; intros ? H;
  try (apply ok_or_some in H).
Ltac memory_step :=
  apply flushes_bind; [intros ? ? ?; apply changes_trans| |intros ? ?].
Ltac last_step := apply flushes_flush; intros ?; apply changes_refl.

Lemma exec_shaped P o s : modifies o = true -> is_reset o = false -> shaped P o s.
Proof.
  destruct o; try discriminate; intros Hm _.
  - (* set_alias *)
    apply (shaped_of P _ _ (set_alias P s0 a)); [reflexivity|]. unfold set_alias, the_hmac, the_key.
    reading_step Eh. reading_step Ek. reading_step Er. reading_step Ea.
    destruct a3; [apply flushes_fail; intros ?; apply changes_refl|]. memory_step; [|last_step].
    unfold storage_set_alias. destruct (bytes_eqb _ _); [intros ?; apply changes_refl|].
    apply changes_encrypted; [|exact Ek|apply utf8_site_key|apply site_key_not_reserved]. exists a0. split; [exact Eh|]. rewrite normalize_host. reflexivity.
  - (* remove_alias *)
    apply (shaped_of P _ _ (remove_alias P s0)); [reflexivity|]. unfold remove_alias, the_hmac, the_key.
    reading_step Eh. reading_step Ek. memory_step; [|last_step].
    unfold storage_remove_alias. apply keeps_bind; [intros ? ? ?; apply changes_trans|intros ?; apply changes_refl|intros x].
    destruct (site_alias x); [|intros ?; apply changes_refl]. apply changes_remove.
    exists a. split; [exact Eh|]. rewrite normalize_host. reflexivity.
  - (* remove_sites *)
    apply (shaped_of P _ _ (remove_sites P l)); [reflexivity|]. unfold remove_sites, the_hmac.
    destruct l as [|x l]; [discriminate|]. reading_step Eh. memory_step; [|last_step].
    apply changes_loop. intros y Hy. exists a. split; [exact Eh|]. exists y. auto.
  - (* set_generated *)
    apply (shaped_of P _ _ (set_generated P s0 n r len cs)); [reflexivity|]. unfold set_generated, the_hmac, the_key.
    reading_step Eh. reading_step Ek. reading_step Er. memory_step; [|memory_step; [|last_step]].
    + apply changes_ensure; [|exact Ek]. exists a. split; [exact Eh|]. exists a0, a1. auto.
    + unfold set_password, storage_set. cbn [pass_id gp_id]. unfold generated_password_new. cbn [gp_id].
      apply changes_encrypted; [|exact Ek|apply utf8_password_key|apply password_key_not_reserved]. exists a. split; [exact Eh|]. exists a0, a1.
      rewrite password_id_new_eq. auto.
  - (* set_stored *)
    apply (shaped_of P _ _ (set_stored P s0 n r text)); [reflexivity|]. unfold set_stored, the_hmac, the_key.
    reading_step Eh. reading_step Ek. reading_step Er. memory_step; [|memory_step; [|last_step]].
    + apply changes_ensure; [|exact Ek]. exists a. split; [exact Eh|]. exists a0, a1. auto.
    + unfold set_password, storage_set. unfold stored_password_new. cbn [pass_id sp_id].
      apply changes_encrypted; [|exact Ek|apply utf8_password_key|apply password_key_not_reserved]. exists a. split; [exact Eh|]. exists a0, a1.
      rewrite password_id_new_eq. auto.
  - (* set_notes *)
    apply (shaped_of P _ _ (set_notes P s0 n r notes)); [reflexivity|]. unfold set_notes, the_hmac, the_key.
    reading_step Eh. reading_step Ek. reading_step Er. reading_step Ep. memory_step; [|last_step].
    unfold set_password, storage_set.
    apply changes_encrypted; [|exact Ek|apply utf8_password_key|apply password_key_not_reserved]. exists a. split; [exact Eh|]. exists a0, a1.
    split; [exact Ek|]. split; [exact Er|]. exists a2. rewrite <- password_id_new_eq. split; [exact Ep|].
    destruct a2; reflexivity.
  - (* remove *)
    apply (shaped_of P _ _ (remove P s0 n r)); [reflexivity|]. unfold remove, the_hmac, the_key.
    reading_step Eh. reading_step Ek. reading_step Er. memory_step; [|last_step].
    apply changes_remove. exists a. split; [exact Eh|]. exists a0, a1. rewrite password_id_new_eq. auto.
Qed.

Lemma reset_eq P pp s : prims_ok P ->
  let i := s_rand s in
  let key := key_for P pp i in
  let secret := p_random P (S i) 32 in
  let s1 := mk_st (<[HMAC_SECRET_KEY := sealed P key (S (S i)) (string_to_vec (b64_encode secret))]>
                    (<[SALT_KEY := b64_encode (p_random P i 16)]> ∅)) (s_key s) (s_hmac s) (s_primary s) (s_disk s)
                   (S (S (S (s_tick s)))) (s_flushes s) (S (S (S i))) in
  reset P pp s = bindM (flush P) (fun _ => set_secrets (Some key) (Some secret) (Some pp)) s1.
Proof.
  intros HP. cbv zeta.
  assert (length (key_for P pp (s_rand s)) = 32) as Hk by apply (ok_scrypt_len P HP).
  unfold reset. unfold draw at 1. unfold bindM at 1. unfold lift. unfold bindM at 1.
  rewrite get_encryption_key_eq. change (p_scrypt P pp (latin1 (p_random P (s_rand s) 16)) 32) with (key_for P pp (s_rand s)).
  unfold draw. unfold bindM at 1. cbn [s_rand].
  unfold storage_clear, io_clear, put_data, set_salt, io_set, set_hmac_secret.
  unfold bindM at 1. unfold bindM at 1. cbn [s_data s_key s_hmac s_primary s_disk s_tick s_flushes s_rand].
  unfold bindM at 1. unfold put_data at 1. unfold set_encrypted. cbn [s_data s_key s_hmac s_primary s_disk s_tick s_flushes s_rand].
  rewrite encrypt_sealed by exact Hk. unfold io_set, put_data. reflexivity.
Qed.

(** * What a flush does *)

Lemma flush_text_data P s s' : s_data s' = s_data s -> s_tick s' = s_tick s -> flush_text P s' = flush_text P s.
Proof. intros H1 H2. unfold flush_text, io_keys. rewrite H1, H2. reflexivity. Qed.

Lemma flush_facts P s :
  s_data (snd (flush P s)) = s_data s /\ secrets (snd (flush P s)) = secrets s /\
  s_tick (snd (flush P s)) = s_tick s /\ s_rand (snd (flush P s)) = s_rand s /\
  (s_disk (snd (flush P s)) = s_disk s \/
   exists p q, flush_text P s = p ++ q /\ s_disk (snd (flush P s)) = Some p) /\
  (fst (flush P s) = Ok tt -> s_disk (snd (flush P s)) = Some (flush_text P s)) /\
  (fst (flush P s) = Ok tt <-> p_write P (s_flushes s) = WriteOk) /\
  (p_write P (s_flushes s) = CreateDirFails \/ p_write P (s_flushes s) = OpenFails ->
   s_disk (snd (flush P s)) = s_disk s) /\
  fst (flush P s) <> Panic.
Proof.
  unfold flush. destruct (p_write P (s_flushes s)) as [| | |n]; cbn [fst snd s_data secrets s_tick s_rand s_disk s_key s_hmac s_primary].
  all: repeat match goal with |- _ /\ _ => split end; try reflexivity.
  all: try (left; reflexivity).
  all: try (split; intros ?; first [discriminate | reflexivity]).
  all: try (intros ?; first [discriminate | reflexivity]).
  all: try (intros [?|?]; discriminate).
  all: right.
  - exists (flush_text P s), []. rewrite app_nil_r. auto.
  - exists (firstn n (flush_text P s)), (skipn n (flush_text P s)). rewrite firstn_skipn. auto.
Qed.

(** * Loaded data is text *)

Lemma members_texts fo d l t : members fo d l t ->
  forall e k j, In (e, k, j) l -> utf8 k = true /\ forall x, j = JStr x -> utf8 x = true.
Proof.
  induction 1 as [d e k j w1 tk w2 w3 t w4 _ Hk _ _ Hv _|d e k j l w1 tk w2 w3 t w4 t' _ Hk _ _ Hv _ _ IH];
    intros e0 k0 j0 Hin.
  all: assert (utf8 k = true /\ forall x, j = JStr x -> utf8 x = true) as Hhd
    by (split; [destruct Hk as (? & _ & _ & H & _); exact H|];
        intros x ->; inversion Hv; subst; match goal with H : string_text _ _ _ |- _ => destruct H as (? & _ & _ & H & _); exact H end).
  - destruct Hin as [[= <- <- <-]|[]]. exact Hhd.
  - destruct Hin as [[= <- <- <-]|Hin]; [exact Hhd|]. exact (IH _ _ _ Hin).
Qed.

Lemma last_value_in k l v : last_value k l = Some v -> In (k, v) l.
Proof.
  induction l as [|[k' v'] l IH]; [discriminate|]. cbn [last_value].
  destruct (last_value k l) as [w|] eqn:E.
  - intros [= ->]. right. apply IH. reflexivity.
  - destruct (bytes_eqb k k') eqn:Ek; [|discriminate]. apply bytes_eqb_eq in Ek. subst k'.
    intros [= ->]. left. reflexivity.
Qed.

Lemma string_map_texts fo d j l t : value fo d j t -> string_map j l ->
  forall k v, In (k, v) l -> utf8 k = true /\ utf8 v = true.
Proof.
  intros Hv (ms & -> & Hm) k v Hin.
  assert (In (k, JStr v) (plain ms)) as Hp.
  { rewrite Hm. apply in_map_iff. exists (k, v). auto. }
  unfold plain in Hp. apply in_map_iff in Hp. destruct Hp as ([[e k'] j] & [= -> ->] & Hp).
  inversion Hv as [| | | | | | | |d0 w Hw|d0 l0 t0 Hmem]; subst; [destruct Hp|].
  destruct (members_texts _ _ _ _ Hmem _ _ _ Hp) as [H1 H2]. split; [exact H1|apply H2; reflexivity].
Qed.

Lemma members_values fo d l t : members fo d l t -> forall e k j, In (e, k, j) l -> exists t', value fo d j t'.
Proof.
  induction 1 as [d e k j w1 tk w2 w3 t w4 _ Hk _ _ Hv _|d e k j l w1 tk w2 w3 t w4 t' _ Hk _ _ Hv _ _ IH];
    intros e0 k0 j0 Hin.
  - destruct Hin as [[= <- <- <-]|[]]. eexists; exact Hv.
  - destruct Hin as [[= <- <- <-]|Hin]; [eexists; exact Hv|]. exact (IH _ _ _ Hin).
Qed.

Lemma elements_values fo d l t : elements fo d l t -> forall j, In j l -> exists t', value fo d j t'.
Proof.
  induction 1 as [d j w1 t w2 _ Hv _|d j l w1 t w2 t' _ Hv _ _ IH]; intros j0 Hin.
  - destruct Hin as [<-|[]]. eexists; exact Hv.
  - destruct Hin as [<-|Hin]; [eexists; exact Hv|]. exact (IH _ Hin).
Qed.

Lemma load_texts P disk d : load P disk = Ok d -> texts d.
Proof.
  intros H. apply load_iff in H. destruct H as (text & j & l & _ & _ & (w1 & t & w2 & _ & _ & Hv & _) & Hj & Hd).
  revert Hv. generalize 127. intros depth Hv.
  assert (exists d' j' t', value (p_float_ok P) d' j' t' /\ string_map j' l) as (d' & j' & t' & Hv' & Hm).
  { destruct Hj as [(ms & dj & -> & Hm & Hp)|(dj & -> & Hm)].
    - assert (In (bs "data", dj) (plain ms)) as Hin.
      { apply Permutation_in with (1 := Permutation_sym Hp). right. right. left. reflexivity. }
      unfold plain in Hin. apply in_map_iff in Hin. destruct Hin as ([[e k'] j] & [= -> ->] & Hin).
      inversion Hv; subst; [destruct Hin|].
      match goal with Hmem : members _ ?d0 _ _ |- _ =>
        destruct (members_values _ _ _ _ Hmem _ _ _ Hin) as [t' Ht']; exists d0, dj, t'; auto end.
    - inversion Hv; subst.
      match goal with Hel : elements _ ?d0 _ _ |- _ =>
        destruct (elements_values _ _ _ _ Hel dj) as [t' Ht']; [right; right; left; reflexivity|]; exists d0, dj, t'; auto end. }
  intros k v Hk. rewrite Hd in Hk. apply last_value_in in Hk. exact (string_map_texts _ _ _ _ _ Hv' Hm _ _ Hk).
Qed.

(** * The calls that only read *)

Ltac same_tac := repeat split; reflexivity.

Definition quiet {A} (m : M A) : Prop := forall s, snd (m s) = s.
Lemma quiet_bind {A B} (m : M A) (f : A -> M B) : quiet m -> (forall a, quiet (f a)) -> quiet (bindM m f).
Proof.
  intros H1 H2 s. unfold bindM. specialize (H1 s). destruct (m s) as [[a|e|] s']; cbn [snd] in *; try exact H1.
  subst s'. apply H2.
Qed.

Ltac quiet_tac := repeat first [apply quiet_bind; [intros ?; reflexivity|intros ?] | intros ?; reflexivity].

Lemma exec_reading P o s : reading o = true ->
  same_but_random s (snd (exec P o s)) /\
  (match o with RecoveryCode _ _ _ _ => False | _ => True end -> snd (exec P o s) = s).
Proof.
  intros Hr.
  assert (match o with RecoveryCode _ _ _ _ => True | _ => False end \/ snd (exec P o s) = s) as [H|H].
  { destruct o; try discriminate Hr; auto; right; cbn [exec]; try rewrite as_out_snd; try reflexivity; revert s.
    - change (quiet (get_alias P s0)). unfold get_alias, the_hmac, the_key. quiet_tac.
    - destruct l; [|discriminate]. reflexivity.
    - change (quiet (has P s0 n r)). unfold has, the_hmac, the_key. quiet_tac.
    - change (quiet (get P s0 n r)). unfold get, the_hmac, the_key, the_primary. quiet_tac.
    - change (quiet (get_notes P s0 n r)). unfold get_notes, the_hmac, the_key. quiet_tac.
    - change (quiet (decode_recovery_code P code)). unfold decode_recovery_code, the_primary. quiet_tac. }
  - destruct o; try contradiction. split; [|intros []]. cbn [exec]. rewrite as_out_snd.
    unfold get_recovery_code, bindM, reads, the_key.
    destruct (get_salt (s_data s)); [|same_tac..]. unfold reads. destruct (s_key s) eqn:E; cbn [ok_or snd]; [|same_tac..].
    unfold same_but_random, secrets. cbn. rewrite E. same_tac.
  - split; [rewrite H; same_tac|]. intros _. exact H.
Qed.

(** * All calls *)

Lemma done_out_ok r : fst (done_out r) = ODone <-> fst r = Ok tt.
Proof. unfold done_out, as_out. cbn [fst]. destruct (fst r) as [[]|e|]; split; congruence. Qed.

Lemma done_out_snd r : snd (done_out r) = snd r.
Proof. reflexivity. Qed.

Lemma reset_cases P pp s : prims_ok P -> exists s1,
  secrets s1 = secrets s /\ s_disk s1 = s_disk s /\ s_flushes s1 = s_flushes s /\ s_rand s <= s_rand s1 /\
  texts (s_data s1) /\ log_step P s s1 /\
  (forall k, is_Some (s_data s1 !! k) <-> k = SALT_KEY \/ k = HMAC_SECRET_KEY) /\
  ((fst (flush P s1) = Ok tt /\ fst (exec P (Reset pp) s) = ODone /\
    snd (exec P (Reset pp) s) =
      snd (set_secrets (Some (key_for P pp (s_rand s))) (Some (p_random P (S (s_rand s)) 32)) (Some pp) (snd (flush P s1)))) \/
   (fst (exec P (Reset pp) s) <> ODone /\ exec P (Reset pp) s = done_out (flush P s1))).
Proof.
  intros HP. cbn [exec]. rewrite (reset_eq P pp s HP).
  match goal with |- context [bindM (flush P) ?f ?x] => set (g := f); set (s1 := x) end. exists s1.
  split; [reflexivity|]. split; [reflexivity|]. split; [reflexivity|]. split; [cbn; lia|]. split; [|split; [|split]].
  - unfold s1. cbn [s_data]. apply texts_insert; [reflexivity|apply utf8_sealed|].
    apply texts_insert; [reflexivity|apply utf8_b64|apply texts_empty].
  - set (s0 := mk_st (s_data s) (s_key s) (s_hmac s) (s_primary s) (s_disk s) (s_tick s) (s_flushes s) (S (S (s_rand s)))).
    apply (log_trans P s s0 s1); [apply log_same; [reflexivity|cbn; lia]|].
    eapply log_add with (e := ESlot HMAC_SECRET_KEY _); [reflexivity| |].
    { eexists. eexists. split; [apply (ok_scrypt_len P HP)|reflexivity]. }
    intros log _ k v E Hns. unfold s1 in E. cbn [s_data] in E. apply lookup_insert_Some in E.
    destruct E as [[<- <-]|[_ E]].
    + exists (s_rand s0). apply in_or_app. right. left. reflexivity.
    + apply lookup_insert_Some in E. destruct E as [[<- _]|[_ E]]; [contradiction|]. rewrite lookup_empty in E. discriminate.
  - intros k. unfold s1. cbn [s_data]. rewrite lookup_insert_is_Some, lookup_insert_is_Some, lookup_empty. split.
    + intros [->|[_ [->|[_ [? H]]]]]; [auto|auto|discriminate].
    + intros [->| ->]; [right; split; [discriminate|auto]|auto].
  - unfold bindM. destruct (flush P s1) as [[[]|e|] s2]; cbn [fst snd]; [left|right|right].
    + repeat split.
    + split; [discriminate|reflexivity].
    + split; [discriminate|reflexivity].
Qed.

(** What a call leaves in the file. *)
Definition disk_after (P : prims) (s s' : st) : Prop :=
  s_disk s' = s_disk s \/ exists p q, flush_text P s' = p ++ q /\ s_disk s' = Some p.

Lemma flush_disk P s : disk_after P s (snd (flush P s)).
Proof.
  destruct (flush_facts P s) as (H1 & _ & H3 & _ & H5 & _). unfold disk_after.
  rewrite (flush_text_data P s (snd (flush P s)) H1 H3). exact H5.
Qed.

Lemma not_reset o : is_reset o = true -> exists pp, o = Reset pp.
Proof. intros H. destruct o; try discriminate. eexists; reflexivity. Qed.

Lemma exec_disk P o s : prims_ok P ->
  (s_disk (snd (exec P o s)) = s_disk s \/
   modifies o = true /\ exists p q, flush_text P (snd (exec P o s)) = p ++ q /\ s_disk (snd (exec P o s)) = Some p) /\
  (texts (s_data s) -> texts (s_data (snd (exec P o s)))) /\
  (fst (exec P o s) = ODone -> modifies o = true ->
   s_disk (snd (exec P o s)) = Some (flush_text P (snd (exec P o s)))) /\
  (p_write P (s_flushes s) = CreateDirFails \/ p_write P (s_flushes s) = OpenFails ->
   s_disk (snd (exec P o s)) = s_disk s) /\
  (fst (exec P o s) = ODone -> modifies o = true -> p_write P (s_flushes s) = WriteOk).
Proof.
  intros HP. destruct (modifies o) eqn:Em.
  - destruct (is_reset o) eqn:Er.
    + destruct (not_reset o Er) as [pp ->].
      destruct (reset_cases P pp s HP) as (s1 & _ & Hd & Hfl & _ & Ht & _ & _ & H).
      destruct (flush_facts P s1) as (F1 & _ & F3 & _ & F5 & F6 & F7 & F8 & _). rewrite Hd, Hfl in *.
      destruct H as [(H1 & H2 & ->)|(H1 & H2)].
      * cbn [set_secrets snd s_disk s_data].
        match goal with |- context [flush_text P ?x] =>
          assert (flush_text P x = flush_text P s1) as -> by (apply flush_text_data; cbn [s_data s_tick]; [exact F1|exact F3]) end.
        split; [destruct F5 as [F5|F5]; [left; exact F5|right; auto]|]. split; [intros _; rewrite F1; exact Ht|].
        split; [intros _ _; apply F6, H1|]. split; [exact F8|]. intros _ _. apply F7, H1.
      * rewrite H2. rewrite !done_out_snd.
        rewrite (flush_text_data P s1 _ F1 F3). rewrite H2 in H1.
        split; [destruct F5 as [F5|F5]; [left; exact F5|right; auto]|]. split; [intros _; rewrite F1; exact Ht|].
        split; [intros H3; destruct (H1 H3)|]. split; [exact F8|]. intros H3. destruct (H1 H3).
    + destruct (exec_shaped P o s Em Er) as [[((E1 & E2 & E3) & Ht & _) H]|(s1 & ((E1 & E2 & E3) & Ht & _) & H)].
      * split; [left; exact E2|]. split; [exact Ht|]. split; [intros H3; destruct (H H3)|]. split; [intros _; exact E2|].
        intros H3. destruct (H H3).
      * destruct (flush_facts P s1) as (F1 & _ & F3 & _ & F5 & F6 & F7 & F8 & _). rewrite E2, E3 in *.
        rewrite H. rewrite !done_out_snd. rewrite (flush_text_data P s1 _ F1 F3), done_out_ok.
        split; [destruct F5 as [F5|F5]; [left; exact F5|right; auto]|]. split; [intros Ht'; rewrite F1; exact (Ht Ht')|].
        split; [intros H3 _; apply F6, H3|]. split; [exact F8|]. intros H3 _. apply F7, H3.
  - assert (s_disk (snd (exec P o s)) = s_disk s /\ (texts (s_data s) -> texts (s_data (snd (exec P o s))))) as [Hd Ht].
    { destruct (reading o) eqn:Er.
      - destruct (exec_reading P o s Er) as ((E1 & _ & E2 & _) & _). rewrite E1. auto.
      - destruct o; try discriminate Em; try discriminate Er.
        + cbn [exec]. rewrite as_out_snd. unfold unlock, bindM, reads, lift.
          destruct (get_salt (s_data s)) as [salt|e|]; [|auto..].
          destruct (get_encryption_key P pp salt) as [key|e|]; [|auto..].
          destruct (get_hmac_secret P (s_data s) key) as [x|e|]; auto.
        + auto.
        + cbn [exec snd passwords_new s_disk s_data]. split; [reflexivity|]. intros _.
          destruct (load P (s_disk s)) as [d|e|] eqn:E; [exact (load_texts _ _ _ E)|apply texts_empty..].
        + destruct l; discriminate. }
    split; [left; exact Hd|]. split; [exact Ht|]. split; [intros _ H; discriminate|]. split; [auto|intros _ H; discriminate].
Qed.

Lemma run_texts P l s : prims_ok P -> texts (s_data s) -> texts (s_data (snd (run P l s))).
Proof.
  intros HP. revert s; induction l as [|o l IH]; intros s H; [exact H|]. cbn [run].
  pose proof (proj1 (proj2 (exec_disk P o s HP)) H) as H1. destruct (exec P o s) as [r s1]. specialize (IH s1 H1).
  destruct (run P l s1) as [rs s2]. exact IH.
Qed.

Lemma started_texts P s : started P s -> texts (s_data s).
Proof. intros [_ [-> |H]]; [apply texts_empty|exact (load_texts _ _ _ H)]. Qed.

(** * Secrets: all there or none *)

Definition whole (s : st) : Prop :=
  locked s \/ exists k h p, secrets s = (Some k, Some h, Some p).

Lemma secrets_whole s s' : secrets s' = secrets s -> whole s -> whole s'.
Proof.
  unfold whole, locked, secrets. intros H [W|W].
  - left. injection H as -> -> ->. exact W.
  - right. rewrite H. exact W.
Qed.

Lemma exec_secrets P o s : prims_ok P -> whole s ->
  whole (snd (exec P o s)) /\
  (modifies o = true -> is_reset o = false -> secrets (snd (exec P o s)) = secrets s).
Proof.
  intros HP W. destruct (modifies o) eqn:Em.
  - destruct (is_reset o) eqn:Er.
    + destruct (not_reset o Er) as [pp ->]. split; [|discriminate].
      destruct (reset_cases P pp s HP) as (s1 & Hs & _ & _ & _ & _ & _ & _ & H).
      destruct (flush_facts P s1) as (_ & F2 & _).
      destruct H as [(_ & _ & ->)|(_ & H2)]; [right; repeat eexists|].
      rewrite H2. rewrite done_out_snd. eapply secrets_whole; [|exact W]. congruence.
    + assert (secrets (snd (exec P o s)) = secrets s) as Hs.
      { destruct (exec_shaped P o s Em Er) as [[((E1 & _ & _) & _) H]|(s1 & ((E1 & _ & _) & _) & H)]; [exact E1|].
        rewrite H. rewrite done_out_snd. destruct (flush_facts P s1) as (_ & F2 & _). congruence. }
      split; [|auto]. eapply secrets_whole; [exact Hs|exact W].
  - split; [|discriminate]. destruct (reading o) eqn:Er.
    + destruct (exec_reading P o s Er) as ((_ & E & _) & _). eapply secrets_whole; [exact E|exact W].
    + destruct o; try discriminate Em; try discriminate Er.
      * cbn [exec]. rewrite as_out_snd. unfold unlock, bindM, reads, lift.
        destruct (get_salt (s_data s)) as [salt|e|]; [|exact W..].
        destruct (get_encryption_key P pp salt) as [key|e|]; [|exact W..].
        destruct (get_hmac_secret P (s_data s) key) as [x|e|]; [|exact W..]. right. repeat eexists.
      * left. repeat split.
      * left. repeat split.
      * destruct l; discriminate.
Qed.

Lemma run_whole P l s : prims_ok P -> whole s -> whole (snd (run P l s)).
Proof.
  intros HP. revert s; induction l as [|o l IH]; intros s H; [exact H|]. cbn [run].
  pose proof (proj1 (exec_secrets P o s HP H)) as H1. destruct (exec P o s) as [r s1]. specialize (IH s1 H1).
  destruct (run P l s1) as [rs s2]. exact IH.
Qed.

(** * Memory does not depend on how writing ends *)

Section writes.
Context (P : prims) (w : nat -> write_outcome).
Let P' := with_writes P w.

Definition alike (m m' : M unit) (s : st) : Prop :=
  m s = m' s \/ exists s1, m s = flush P s1 /\ m' s = flush P' s1.

Lemma alike_bind {A} (m m' : M A) (f f' : A -> M unit) s :
  (forall s, m s = m' s) -> (forall a s, alike (f a) (f' a) s) -> alike (bindM m f) (bindM m' f') s.
Proof.
  intros H1 H2. unfold alike, bindM. rewrite <- H1. destruct (m s) as [[a|e|] s']; [apply H2|left; reflexivity..].
Qed.
Lemma alike_flush s : alike (flush P) (flush P') s.
Proof. right. exists s. auto. Qed.
Lemma alike_same m s : alike m m s.
Proof. left. reflexivity. Qed.
Lemma alike_data m m' s : alike m m' s ->
  s_data (snd (m s)) = s_data (snd (m' s)) /\ secrets (snd (m s)) = secrets (snd (m' s)) /\
  s_rand (snd (m s)) = s_rand (snd (m' s)).
Proof.
  intros [->|(s1 & -> & ->)]; [auto|].
  destruct (flush_facts P s1) as (-> & -> & _ & -> & _). destruct (flush_facts P' s1) as (-> & -> & _ & -> & _). auto.
Qed.

Ltac alike_tac := repeat first
  [ apply alike_bind; [intros ?; reflexivity|intros ? ?]
  | apply alike_flush | apply alike_same ].

Lemma exec_alike o s : modifies o = true -> is_reset o = false ->
  s_data (snd (exec P o s)) = s_data (snd (exec P' o s)) /\
  secrets (snd (exec P o s)) = secrets (snd (exec P' o s)) /\
  s_rand (snd (exec P o s)) = s_rand (snd (exec P' o s)).
Proof.
  destruct o; try discriminate; intros Hm _; cbn [exec]; rewrite !as_out_snd; apply alike_data.
  - unfold set_alias. alike_tac. destruct a3; alike_tac.
  - unfold remove_alias. alike_tac.
  - unfold remove_sites. destruct l; alike_tac.
    apply alike_bind; [|intros; apply alike_flush].
    intros s1. change (remove_sites_loop P (l :: l0) a s1 = remove_sites_loop P' (l :: l0) a s1). clear.
    generalize (l :: l0). intros k. revert s1. induction k as [|x k IH]; intros s1; [reflexivity|].
    cbn [remove_sites_loop]. unfold bindM. change (storage_remove_site P' x a s1) with (storage_remove_site P x a s1).
    destruct (storage_remove_site P x a s1) as [[[]|e|] s2]; [apply IH|reflexivity..].
  - unfold set_generated. alike_tac.
  - unfold set_stored. alike_tac.
  - unfold set_notes. alike_tac.
  - unfold remove. alike_tac.
Qed.
End writes.

(** * Locked instances *)

Lemma locked_exec P o s : locked s -> needs_secrets o = true -> exec P o s = (OErr PasswordsLocked, s).
Proof.
  intros (Hk & Hh & Hp) Hn.
  destruct o; try discriminate Hn; cbn [exec];
    unfold get_alias, set_alias, remove_alias, remove_sites, set_generated, set_stored, has, get, get_notes, set_notes,
      remove, decode_recovery_code;
    try (unfold the_hmac, the_primary, bindM, reads; rewrite ?Hh, ?Hp; reflexivity).
  destruct l; [discriminate|]. unfold the_hmac, bindM, reads. rewrite Hh. reflexivity.
Qed.

Lemma locked_list P o s : locked s ->
  match o with ListPasswords _ _ | ListSites _ => True | _ => False end -> exec P o s = (OPanic, s).
Proof.
  intros (Hk & _) Ho. destruct o; try contradiction; cbn [exec]; unfold list_, list_sites, reads, unlocked;
    rewrite Hk; reflexivity.
Qed.

Lemma locked_recovery P x n r t s : locked s ->
  exists e, exec P (RecoveryCode x n r t) s = (OErr e, s) /\
    (is_Some (s_data s !! SALT_KEY) -> e = PasswordsLocked \/ e = InvalidBase64).
Proof.
  intros (Hk & _). cbn [exec]. unfold get_recovery_code, the_key, bindM, reads, get_salt.
  destruct (s_data s !! SALT_KEY) as [c|]; cbn [ok_or bind].
  2:{ exists StorageNotInitialized. split; [reflexivity|]. intros [? H]. discriminate H. }
  destruct (b64_decode c) as [salt|]; cbn [ok_or].
  - rewrite Hk. exists PasswordsLocked. split; [reflexivity|auto].
  - exists InvalidBase64. split; [reflexivity|auto].
Qed.

(** * Unlocking *)

Lemma unlock_cases P pp s :
  (fst (exec P (Unlock pp) s) = ODone /\
   exists key h, secrets (snd (exec P (Unlock pp) s)) = (Some key, Some h, Some pp) /\
     s_data (snd (exec P (Unlock pp) s)) = s_data s /\ s_disk (snd (exec P (Unlock pp) s)) = s_disk s) \/
  (fst (exec P (Unlock pp) s) <> ODone /\ snd (exec P (Unlock pp) s) = s).
Proof.
  cbn [exec]. unfold unlock, bindM, reads, lift.
  destruct (get_salt (s_data s)) as [salt|e|]; [|right; split; [discriminate|reflexivity]..].
  destruct (get_encryption_key P pp salt) as [key|e|]; [|right; split; [discriminate|reflexivity]..].
  destruct (get_hmac_secret P (s_data s) key) as [x|e|]; [|right; split; [discriminate|reflexivity]..].
  left. split; [reflexivity|]. exists key, x. repeat split.
Qed.

(** * Sites and revisions *)

Lemma resolve_host P d x y h k : host x = host y -> resolve_site P d x h k = resolve_site P d y h k.
Proof. intros H. unfold resolve_site. rewrite !normalize_host, H. reflexivity. Qed.

Ltac step_same := apply f_equal.

Lemma bind_reads_ext {A B} (f f' : st -> res A) (g g' : A -> M B) s :
  f s = f' s -> (forall a, f s = Ok a -> g a s = g' a s) -> bindM (reads f) g s = bindM (reads f') g' s.
Proof. intros H1 H2. unfold bindM, reads. rewrite <- H1. destruct (f s) as [a|e|] eqn:E; [apply H2|..]; reflexivity. Qed.

Lemma exec_at_site P o x y s :
  (forall h k, s_hmac s = Some h -> s_key s = Some k ->
     resolve_site P (s_data s) x h k = resolve_site P (s_data s) y h k) ->
  exec P (at_site x o) s = exec P (at_site y o) s.
Proof.
  intros H. destruct o; cbn [at_site exec]; try reflexivity; f_equal;
    unfold set_generated, set_stored, has, get, get_notes, set_notes, remove, the_hmac, the_key, the_primary.
  1-7: repeat (apply bind_reads_ext; [first [reflexivity|apply H; eapply ok_or_some; eassumption]|intros ? ?]); try reflexivity.
  unfold list_, reads, unlocked. destruct (s_key s) as [k|] eqn:Ek; [|reflexivity]. cbn [negb].
  destruct (s_hmac s) as [h|] eqn:Eh; [|reflexivity]. cbn [unwrap bind]. rewrite (H h k eq_refl eq_refl). reflexivity.
Qed.

Lemma exec_respell P o f s : (forall x, host (f x) = host x) -> exec P (respell f o) s = exec P o s.
Proof.
  intros H.
  assert (forall x d h k, resolve_site P d (f x) h k = resolve_site P d x h k) as Hr by (intros; apply resolve_host, H).
  assert (forall x, normalize_site (f x) = normalize_site x) as Hn by (intros; rewrite !normalize_host; apply H).
  destruct o; cbn [respell]; try reflexivity.
  - cbn [exec]. unfold get_alias. rewrite Hn. reflexivity.
  - cbn [exec]. f_equal. unfold set_alias, the_hmac, the_key. rewrite Hn.
    repeat (apply bind_reads_ext; [first [reflexivity|apply Hr]|intros ? ?]). reflexivity.
  - cbn [exec]. unfold remove_alias. rewrite Hn. reflexivity.
  - exact (exec_at_site P (SetGenerated s0 n r len cs) (f s0) s0 s (fun h k _ _ => Hr s0 _ h k)).
  - exact (exec_at_site P (SetStored s0 n r text) (f s0) s0 s (fun h k _ _ => Hr s0 _ h k)).
  - exact (exec_at_site P (Has s0 n r) (f s0) s0 s (fun h k _ _ => Hr s0 _ h k)).
  - exact (exec_at_site P (Get s0 n r) (f s0) s0 s (fun h k _ _ => Hr s0 _ h k)).
  - exact (exec_at_site P (GetNotes s0 n r) (f s0) s0 s (fun h k _ _ => Hr s0 _ h k)).
  - exact (exec_at_site P (SetNotes s0 n r notes) (f s0) s0 s (fun h k _ _ => Hr s0 _ h k)).
  - exact (exec_at_site P (Remove s0 n r) (f s0) s0 s (fun h k _ _ => Hr s0 _ h k)).
  - exact (exec_at_site P (ListPasswords s0 pattern) (f s0) s0 s (fun h k _ _ => Hr s0 _ h k)).
Qed.

(** An alias and the site it points to. *)
Lemma exec_alias P o x a s :
  fst (exec P (GetAlias x) s) = OText a -> host a = a ->
  fst (exec P (GetAlias a) s) = OErr NoSuchAlias ->
  exec P (at_site x o) s = exec P (at_site a o) s.
Proof.
  intros Hx Ha Hn. apply exec_at_site. intros h k Eh Ek. revert Hx Hn. cbn [exec].
  unfold get_alias, the_hmac, the_key, bindM, reads, as_out. rewrite Eh, Ek. cbn [ok_or fst snd].
  unfold resolve_site. rewrite !normalize_host, Ha.
  destruct (storage_get_alias P (s_data s) (host x) h k) as [b|e|]; try discriminate. intros [= ->].
  destruct (storage_get_alias P (s_data s) a h k) as [b|e|]; try discriminate. reflexivity.
Qed.

Lemma rev_of_1 : rev_of (bs "1") = rev_of [].
Proof. reflexivity. Qed.

Lemma rev_of_eq r r' : rev_of r = rev_of r' <->
  r = r' \/ (r = [] /\ r' = bs "1") \/ (r = bs "1" /\ r' = []).
Proof.
  rewrite <- !revision_rev. destruct (bytes_eqb r (bs "1")) eqn:E, (bytes_eqb r' (bs "1")) eqn:F; cbn [negb];
    try apply bytes_eqb_eq in E; try apply bytes_eqb_eq in F; subst;
    try apply bytes_eqb_neq in E; try apply bytes_eqb_neq in F.
  - tauto.
  - split; [intros <-; auto|]. intros [<-|[[H _]|[_ ->]]]; [contradiction|discriminate|reflexivity].
  - split; [intros ->; auto|]. intros [->|[[-> _]|[_ H]]]; [contradiction|reflexivity|discriminate].
  - split; [auto|]. intros [H|[[_ H]|[H _]]]; [exact H|contradiction..].
Qed.

Lemma exec_revision P o r r' s : rev_of r = rev_of r' -> exec P (at_revision r o) s = exec P (at_revision r' o) s.
Proof.
  intros H.
  assert (forall a b, password_id_new a b r = password_id_new a b r') as Hi
    by (intros; rewrite !password_id_new_eq, H; reflexivity).
  destruct o; cbn [at_revision exec]; try reflexivity; f_equal;
    unfold set_generated, set_stored, has, get, get_notes, set_notes, remove, get_recovery_code,
      generated_password_new, stored_password_new, the_hmac, the_key, the_primary;
    repeat (apply bind_reads_ext; [rewrite ?Hi; reflexivity|intros ? ?]); rewrite ?Hi; reflexivity.
Qed.

(** * [has] and [get] *)

Lemma storage_get_key_missing {A} (P : prims) (conv : json -> option A) (d : kvmap) (k key : bytes) :
  storage_get P conv d k key = Err KeyMissing <-> d !! k = None.
Proof.
  unfold storage_get, io_get. destruct (d !! k) as [c|]; cbn [ok_or bind]; [|tauto]. split; [|discriminate].
  intros H. exfalso. revert H. unfold decrypt_data.
  destruct (negb _); [discriminate|].
  destruct (split_once _ _) as [[a b]|]; [|discriminate]. cbn [ok_or bind].
  destruct (b64_decode a) as [n|]; [|discriminate]. cbn [ok_or bind].
  destruct (negb _); [discriminate|]. destruct (b64_decode b) as [e|]; [|discriminate]. cbn [ok_or bind].
  destruct (p_open P key n e) as [m|]; [|discriminate]. cbn [ok_or bind].
  destruct (from_slice_cases (p_float_ok P) conv m) as [[x ->]| ->]; discriminate.
Qed.


(** * Nonces *)

Definition all_logged (P : prims) (log : list (nat * event)) (s : st) : Prop :=
  logged P log s /\ texts (s_data s) /\ forall d, load P (s_disk s) = Ok d -> data_logged log d.

Lemma generate_key P rnd pw salt key c : generate P rnd pw salt key = Ok c -> length key = 32.
Proof.
  unfold generate. destruct (negb (length salt =? SALT_SIZE)); [discriminate|]. unfold encrypt_data.
  destruct (Nat.eqb_spec (length key) 32) as [H|H]; [auto|discriminate].
Qed.

Lemma all_logged_step P log ext s s' : prims_ok P ->
  (s_disk s' = s_disk s \/ exists p q, flush_text P s' = p ++ q /\ s_disk s' = Some p) ->
  texts (s_data s') -> all_logged P log s -> logged P (log ++ ext) s' -> all_logged P (log ++ ext) s'.
Proof.
  intros HP Hd Ht (_ & _ & Hl) Hl'. split; [exact Hl'|]. split; [exact Ht|]. intros d Hd'.
  destruct Hd as [Hd|(p & q & Hpq & Hd)]; rewrite Hd in Hd'.
  - apply data_logged_app, Hl, Hd'.
  - destruct q as [|c q].
    + rewrite app_nil_r in Hpq. subst p. rewrite (load_flush P s' HP Ht) in Hd'. injection Hd' as <-. apply (lg_data _ _ _ Hl').
    + destruct (load_prefix P s' p (c :: q) Ht Hpq) as [H|H]; [discriminate|congruence|congruence].
Qed.

Lemma exec_logged P log o s : prims_ok P -> all_logged P log s ->
  exists ext, all_logged P (log ++ ext) (snd (exec P o s)) /\
    (forall c, fst (exec P o s) = OCode c -> exists i, In (i, ECode c) ext /\ s_rand s <= i).
Proof.
  intros HP Hl. pose proof Hl as (HL & HT & HD).
  destruct (exec_disk P o s HP) as (D1 & D2 & _). specialize (D2 HT).
  assert (s_disk (snd (exec P o s)) = s_disk s \/
          exists p q, flush_text P (snd (exec P o s)) = p ++ q /\ s_disk (snd (exec P o s)) = Some p) as D3
    by (destruct D1 as [D1|[_ D1]]; auto).
  assert (forall ext, logged P (log ++ ext) (snd (exec P o s)) -> all_logged P (log ++ ext) (snd (exec P o s))) as Hall
    by (intros ext; eapply all_logged_step; eassumption).
  destruct (modifies o) eqn:Em.
  - assert (forall c, fst (exec P o s) <> OCode c) as Hno.
    { intros c H. revert H. destruct o; try discriminate Em; cbn [exec]; unfold as_out; cbn [fst];
        match goal with |- context [match fst ?r with _ => _ end] => destruct (fst r) as [[]|?|] end; discriminate. }
    assert (exists s1, log_step P s s1 /\ s_data (snd (exec P o s)) = s_data s1 /\ s_rand s1 <= s_rand (snd (exec P o s)))
      as (s1 & L1 & E1 & E2).
    { destruct (is_reset o) eqn:Er.
      - destruct (not_reset o Er) as [pp ->].
        destruct (reset_cases P pp s HP) as (s1 & _ & _ & _ & _ & _ & L & _ & H).
        destruct (flush_facts P s1) as (F1 & _ & _ & F4 & _). exists s1. split; [exact L|].
        destruct H as [(_ & _ & ->)|(_ & ->)]; [cbn [set_secrets snd s_data s_rand]|rewrite done_out_snd];
          rewrite F1, F4; auto.
      - destruct (exec_shaped P o s Em Er) as [[(_ & _ & _ & _ & L & _) _]|(s1 & (_ & _ & _ & _ & L & _) & ->)].
        + eexists. split; [exact L|]. auto.
        + destruct (flush_facts P s1) as (F1 & _ & _ & F4 & _). exists s1. split; [exact L|].
          rewrite done_out_snd, F1, F4. auto. }
    destruct (log_trans P _ _ _ L1 (log_same P _ _ E1 E2) log HL) as [ext H].
    exists ext. split; [apply Hall, H|]. intros c Hc. destruct (Hno c Hc).
  - destruct (match o with RecoveryCode _ _ _ _ => true | _ => false end) eqn:Eo.
    + destruct o; try discriminate Eo. clear Eo Em.
      destruct (exec P (RecoveryCode s0 n r text) s) as [res s'] eqn:Ex. cbn [fst snd] in *.
      cbn [exec] in Ex. unfold get_recovery_code, the_key, bindM, reads in Ex.
      destruct (get_salt (s_data s)) as [salt|e|].
      2,3: injection Ex as <- <-; exists []; split; [apply Hall; rewrite app_nil_r; exact HL|intros c H; discriminate].
      destruct (s_key s) as [key|] eqn:Ek; cbn [ok_or] in Ex.
      2: injection Ex as <- <-; exists []; split; [apply Hall; rewrite app_nil_r; exact HL|intros c H; discriminate].
      unfold as_out in Ex. cbn [fst snd] in Ex. injection Ex as <- <-.
      change (sp_password (stored_password_new s0 n r text)) with text in *.
      destruct (generate P (s_rand s) text salt key) as [c|e|] eqn:Eg.
      * assert (log_step P s (mk_st (s_data s) (s_key s) (s_hmac s) (s_primary s) (s_disk s) (s_tick s) (s_flushes s) (S (s_rand s)))) as L.
        { apply log_add with (e := ECode c); [reflexivity| |].
          - exists text, salt, key. split; [exact (generate_key _ _ _ _ _ _ Eg)|exact Eg].
          - intros log0 H. apply data_logged_app, H. }
        exists [(s_rand s, ECode c)]. split.
        -- apply Hall. destruct HL as [H1 H2 H3]. rewrite <- Ek.
           split.
           ++ rewrite map_app. apply (Permutation.Permutation_NoDup (l := s_rand s :: map fst log)).
              { cbn [map fst]. apply Permutation_cons_append. }
              constructor; [|exact H1]. intros Hin. apply in_map_iff in Hin. destruct Hin as ([i x] & E & Hin).
              cbn in E. subst i. destruct (H2 _ _ Hin). lia.
           ++ intros i x Hin. cbn [s_rand]. apply in_app_or in Hin. destruct Hin as [Hin|[[= <- <-]|[]]].
              ** destruct (H2 _ _ Hin). split; [lia|assumption].
              ** split; [lia|]. exists text, salt, key. split; [exact (generate_key _ _ _ _ _ _ Eg)|exact Eg].
           ++ cbn [s_data]. apply data_logged_app, H3.
        -- intros c' [= <-]. exists (s_rand s). split; [left; reflexivity|lia].
      * exists []. split; [|intros c H; discriminate]. apply Hall. rewrite app_nil_r.
        destruct HL as [H1 H2 H3]. split; [exact H1| |exact H3]. intros i x Hin. destruct (H2 _ _ Hin). cbn [s_rand]. split; [lia|assumption].
      * exists []. split; [|intros c H; discriminate]. apply Hall. rewrite app_nil_r.
        destruct HL as [H1 H2 H3]. split; [exact H1| |exact H3]. intros i x Hin. destruct (H2 _ _ Hin). cbn [s_rand]. split; [lia|assumption].
    + assert (forall c, fst (exec P o s) <> OCode c) as Hno.
      { intros c H. revert H. destruct o; try discriminate Em; try discriminate Eo; cbn [exec]; unfold as_out; cbn [fst];
        try discriminate;
        match goal with |- context [match fst ?r with _ => _ end] => destruct (fst r) as [?|?|] end; discriminate. }
      exists []. split; [|intros c Hc; destruct (Hno c Hc)]. apply Hall. rewrite app_nil_r.
      destruct (reading o) eqn:Er.
      * destruct (exec_reading P o s Er) as [_ H]. rewrite H; [exact HL|]. destruct o; try exact I. discriminate Eo.
      * destruct o; try discriminate Em; try discriminate Er.
        -- destruct (unlock_cases P pp s) as [(_ & key & h & _ & H & _)|(_ & ->)]; [|exact HL].
           destruct HL as [H1 H2 H3]. split; [exact H1| |rewrite H; exact H3].
           intros i x Hin. destruct (H2 _ _ Hin). split; [|assumption].
           cbn [exec]. rewrite as_out_snd. unfold unlock, bindM, reads, lift.
           destruct (get_salt (s_data s)) as [salt|e|]; [|auto..].
           destruct (get_encryption_key P pp salt) as [k|e|]; [|auto..].
           destruct (get_hmac_secret P (s_data s) k) as [y|e|]; auto.
        -- destruct HL as [H1 H2 H3]. split; [exact H1|exact H2|exact H3].
        -- destruct HL as [H1 H2 H3]. split; [exact H1|exact H2|]. cbn [exec snd passwords_new s_data].
           destruct (load P (s_disk s)) as [d|e|]; [apply HD; reflexivity| |];
             intros k v E; rewrite lookup_empty in E; discriminate.
        -- destruct l; discriminate.
Qed.

Lemma trace_logged P l : forall log s, prims_ok P -> all_logged P log s ->
  exists ext, all_logged P (log ++ ext) (snd (run P l s)) /\
  (forall i o s1, nth_error (trace P l s) i = Some (o, s1) -> data_logged (log ++ ext) (s_data s1)) /\
  (exists f, (forall i c s1, nth_error (trace P l s) i = Some (OCode c, s1) ->
      In (f i, ECode c) (log ++ ext) /\ s_rand s <= f i) /\
    forall i j c s1 c' s2, nth_error (trace P l s) i = Some (OCode c, s1) ->
      nth_error (trace P l s) j = Some (OCode c', s2) -> f i = f j -> i = j).
Proof.
  induction l as [|o l IH]; intros log s HP H.
  - exists []. rewrite app_nil_r. split; [exact H|]. split; [intros [|i]; discriminate|].
    exists (fun i => i). split; intros [|i]; discriminate.
  - destruct (exec_logged P log o s HP H) as (e1 & H1 & Hc). cbn [run trace].
    destruct (exec P o s) as [r s1] eqn:Ex. cbn [fst snd] in *.
    destruct (IH (log ++ e1) s1 HP H1) as (e2 & H2 & Hd & f & Hf1 & Hf2).
    destruct (run P l s1) as [rs s2]. cbn [snd] in *. exists (e1 ++ e2). rewrite app_assoc.
    split; [exact H2|]. split.
    { intros [|i] o' s' Hn; cbn [nth_error] in Hn.
      - injection Hn as <- <-. apply data_logged_app, (lg_data _ _ _ (proj1 H1)).
      - exact (Hd i o' s' Hn). }
    assert (exists a, forall c, r = OCode c -> In (a, ECode c) (log ++ e1) /\ s_rand s <= a < s_rand s1) as (a & Ha).
    { destruct r; try (exists 0; intros c Hr; discriminate). destruct (Hc code eq_refl) as (a & Hin & Hle).
      exists a. intros c [= <-]. split; [apply in_or_app; right; exact Hin|]. split; [exact Hle|].
      apply (lg_bound _ _ _ (proj1 H1) a (ECode code)). apply in_or_app. right. exact Hin. }
    assert (s_rand s <= s_rand s1) as Hmono.
    { pose proof (exec_grows P o s) as G. rewrite Ex in G. exact G. }
    exists (fun i => match i with O => a | S i' => f i' end). split.
    + intros [|i] c s' Hn; cbn [nth_error] in Hn.
      * injection Hn as -> ->. destruct (Ha c eq_refl) as [Hin Hb]. split; [apply in_or_app; left; exact Hin|lia].
      * destruct (Hf1 i c s' Hn) as [Hin Hb]. split; [exact Hin|lia].
    + intros [|i] [|j] c s' c' s'' Hi Hj Hij; cbn [nth_error] in Hi, Hj.
      * reflexivity.
      * exfalso. injection Hi as -> ->. destruct (Ha c eq_refl) as [_ Hb]. destruct (Hf1 j c' s'' Hj) as [_ Hb']. lia.
      * exfalso. injection Hj as -> ->. destruct (Ha c' eq_refl) as [_ Hb]. destruct (Hf1 i c s' Hi) as [_ Hb']. lia.
      * f_equal. exact (Hf2 i j c s' c' s'' Hi Hj Hij).
Qed.

Lemma sealed_nonce P key i m n : entry_nonce (sealed P key i m) n -> n = p_random P i 12.
Proof.
  intros [c H]. unfold sealed in H.
  pose proof (split_once_app "_"%byte (b64_encode (p_random P i 12)) (b64_encode (p_seal P key (p_random P i 12) m))
                (b64_encode_no _ _ (or_introl eq_refl))) as H1.
  pose proof (split_once_app "_"%byte (b64_encode n) (b64_encode c) (b64_encode_no _ _ (or_introl eq_refl))) as H2.
  rewrite H, H2 in H1. injection H1 as H1 _. apply b64_encode_inj, H1.
Qed.

Lemma generated_nonce P i pw salt key c n : prims_ok P -> length key = 32 -> generate P i pw salt key = Ok c ->
  code_nonce c n -> n = p_random P i 12.
Proof.
  intros HP Hk Hg (lines & ver & sl & ct & Hc & Hd & Hsl & Hn).
  destruct (generate_ok _ _ _ _ _ _ HP Hk Hg) as (Hs & _ & lines' & _ & Hc' & _ & Hd').
  rewrite (code_lines_fun _ _ _ Hc Hc') in Hd. rewrite Hd' in Hd. unfold payload in Hd. injection Hd as _ Hd.
  apply app_inj_1 in Hd; [|lia]. destruct Hd as [_ Hd]. apply app_inj_1 in Hd.
  - symmetry. apply Hd.
  - unfold nonce. rewrite (ok_random_len P HP). lia.
Qed.

Lemma nodup_fst {A B} (l : list (A * B)) a b b' : List.NoDup (map fst l) -> In (a, b) l -> In (a, b') l -> b = b'.
Proof.
  induction l as [|[x y] l IH]; intros Hn H1 H2; [destruct H1|]. cbn [map fst] in Hn. inversion Hn as [|? ? Hx Hn']; subst.
  assert (forall z, In (x, z) l -> False) as Hz by (intros z Hz; apply Hx, in_map_iff; exists (x, z); auto).
  cbn [In] in H1, H2. destruct H1 as [H1|H1], H2 as [H2|H2].
  - congruence.
  - injection H1 as -> ->. destruct (Hz _ H2).
  - injection H2 as -> ->. destruct (Hz _ H1).
  - exact (IH Hn' H1 H2).
Qed.

Lemma nonces_unique P l s : prims_ok P -> fresh P s ->
  (forall i j, i < s_rand (snd (run P l s)) -> j < s_rand (snd (run P l s)) ->
     p_random P i 12 = p_random P j 12 -> i = j) ->
  forall i j o1 s1 o2 s2,
  nth_error (trace P l s) i = Some (o1, s1) -> nth_error (trace P l s) j = Some (o2, s2) ->
  (forall k1 v1 k2 v2 n, s_data s1 !! k1 = Some v1 -> s_data s2 !! k2 = Some v2 -> k1 <> bs "salt" -> k2 <> bs "salt" ->
     entry_nonce v1 n -> entry_nonce v2 n -> k1 = k2 /\ v1 = v2) /\
  (forall c k2 v2 n, o1 = OCode c -> s_data s2 !! k2 = Some v2 -> k2 <> bs "salt" ->
     code_nonce c n -> entry_nonce v2 n -> False) /\
  (forall c1 c2 n, o1 = OCode c1 -> o2 = OCode c2 -> code_nonce c1 n -> code_nonce c2 n -> i = j).
Proof.
  intros HP (Hd & _ & _ & _ & Hld) Hinj i j o1 s1 o2 s2 Hi Hj.
  assert (all_logged P [] s) as H0.
  { split; [split|split].
    - constructor.
    - intros ? ? [].
    - rewrite Hd. intros k v E. rewrite lookup_empty in E. discriminate.
    - rewrite Hd. apply texts_empty.
    - intros d E. rewrite E in Hld. discriminate. }
  destruct (trace_logged P l [] s HP H0) as (log & ([L1 L2 _] & _) & Hdl & f & Hf1 & Hf2). cbn [app] in *.
  split; [|split].
  - intros k1 v1 k2 v2 n E1 E2 N1 N2 V1 V2.
    destruct (Hdl _ _ _ Hi k1 v1 E1 N1) as [a Ha]. destruct (Hdl _ _ _ Hj k2 v2 E2 N2) as [b Hb].
    destruct (L2 _ _ Ha) as [Ba (ka & ma & _ & Va)]. destruct (L2 _ _ Hb) as [Bb (kb & mb & _ & Vb)].
    rewrite Va in V1. rewrite Vb in V2. apply sealed_nonce in V1. apply sealed_nonce in V2.
    assert (a = b) as -> by (apply Hinj; congruence). pose proof (nodup_fst _ _ _ _ L1 Ha Hb) as [= -> ->]. auto.
  - intros c k2 v2 n -> E2 N2 V1 V2.
    destruct (Hf1 _ _ _ Hi) as [Ha _]. destruct (Hdl _ _ _ Hj k2 v2 E2 N2) as [b Hb].
    destruct (L2 _ _ Ha) as [Ba (pa & sa & ka & Ka & Va)]. destruct (L2 _ _ Hb) as [Bb (kb & mb & _ & Vb)].
    rewrite Vb in V2. apply sealed_nonce in V2. apply (generated_nonce _ _ _ _ _ _ _ HP Ka Va) in V1.
    assert (f i = b) as Hab by (apply Hinj; congruence). rewrite Hab in Ha. discriminate (nodup_fst _ _ _ _ L1 Ha Hb).
  - intros c1 c2 n -> -> V1 V2. destruct (Hf1 _ _ _ Hi) as [Ha _]. destruct (Hf1 _ _ _ Hj) as [Hb _].
    destruct (L2 _ _ Ha) as [Ba (pa & sa & ka & Ka & Va)]. destruct (L2 _ _ Hb) as [Bb (pb & sb & kb & Kb & Vb)].
    apply (generated_nonce _ _ _ _ _ _ _ HP Ka Va) in V1. apply (generated_nonce _ _ _ _ _ _ _ HP Kb Vb) in V2.
    apply (Hf2 _ _ _ _ _ _ Hi Hj). apply Hinj; congruence.
Qed.

(** * [has] and [get] *)

Lemma derive_not_missing P pp salt len cs : derive_password P pp salt len cs <> Err KeyMissing.
Proof.
  unfold derive_password, derive_bits. destruct (_ || _); [discriminate|]. cbn [bind]. unfold to_password.
  generalize (p_scrypt P pp salt (N.to_nat len)) at 2. generalize (length (p_scrypt P pp salt (N.to_nat len))).
  intros n l. generalize cs_empty, 0. induction l as [|b l IH]; intros seen i; [discriminate|]. cbn [to_password_loop].
  destruct (_ =? 0); [discriminate|]. destruct (pick_char _ _ _) as [[c t]|]; [|apply IH].
  destruct (to_password_loop cs (cs_insert seen t) n (S i) l) eqn:E; cbn [bind]; [discriminate| |discriminate].
  rewrite <- E. apply IH.
Qed.

Lemma has_get P x n r s b : whole s -> fst (exec P (Has x n r) s) = OBool b ->
  (b = false <-> fst (exec P (Get x n r) s) = OErr KeyMissing).
Proof.
  cbn [exec]. unfold has, get, the_hmac, the_key, the_primary, bindM, reads, as_out, lift.
  intros [(Hk & Hh & Hp)|(k & h & p & Hs)].
  { rewrite Hh. discriminate. }
  unfold secrets in Hs. injection Hs as Hk Hh Hp. rewrite Hk, Hh, Hp. cbn [ok_or fst snd].
  destruct (resolve_site P (s_data s) x h k) as [y|e|]; cbn [fst snd]; try discriminate.
  intros [= <-]. unfold has_password, io_contains, get_password.
  pose proof (storage_get_key_missing P password_of_json (s_data s) (get_password_key P (password_id_new y n r) h) k) as Hm.
  destruct (s_data s !! get_password_key P (password_id_new y n r) h) as [c|] eqn:E.
  - split; [discriminate|]. intros H. exfalso.
    destruct (storage_get _ _ _ _ _) as [pw|e|]; cbn [fst] in H.
    + destruct (password_value P p pw) as [v|e|] eqn:Ev; try discriminate. injection H as ->.
      destruct pw as [g|t]; cbn [password_value] in Ev; [|discriminate]. exact (derive_not_missing _ _ _ _ _ Ev).
    + injection H as ->. apply proj1 in Hm. discriminate (Hm eq_refl).
    + discriminate.
  - split; [|reflexivity]. intros _. rewrite (proj2 Hm eq_refl). reflexivity.
Qed.
