(** Calls and processes that fail. *)
From stdpp Require Import gmap.
From Coq Require Import ZArith ZifyBool ZifyNat ZifyN.
From Verif Require Import M_Base M_Base64 M_Utf8 M_Prims M_Types M_Crypto M_Recovery M_Json M_Serde M_Storage
  M_Passwords S_Vault M_History S_Api M_Cli S_Cli S_Failure P_Base P_Storage P_Crypto P_Api.

(** * Calls *)

Definition quiet_fail {A} (m : M A) : Prop := forall s e s', m s = (Err e, s') -> write_error e = false -> same_but_random s s'.
(** Fails with errors of writing only. *)
Definition late {A} (m : M A) : Prop := forall s e s', m s = (Err e, s') -> write_error e = true.
(** Changes nothing. *)
Definition still {A} (m : M A) : Prop := forall s, same_but_random s (snd (m s)).

Lemma same_refl s : same_but_random s s.
Proof. repeat split. Qed.
Lemma same_trans a b c : same_but_random a b -> same_but_random b c -> same_but_random a c.
Proof. unfold same_but_random. intuition congruence. Qed.

Lemma quiet_still {A B} (m : M A) (f : A -> M B) : still m -> (forall a, quiet_fail (f a)) -> quiet_fail (bindM m f).
Proof.
  intros H1 H2 s e s' E He. unfold bindM in E. specialize (H1 s). destruct (m s) as [[a|e'|] s1]; cbn [snd] in H1.
  - exact (same_trans _ _ _ H1 (H2 a _ _ _ E He)).
  - injection E as <- <-. exact H1.
  - discriminate E.
Qed.
Lemma quiet_late {A B} (m : M A) (f : A -> M B) : quiet_fail m -> (forall a, late (f a)) -> quiet_fail (bindM m f).
Proof.
  intros H1 H2 s e s' E He. unfold bindM in E. destruct (m s) as [[a|e'|] s1] eqn:Em.
  - rewrite (H2 a _ _ _ E) in He. discriminate He.
  - injection E as <- <-. exact (H1 _ _ _ Em He).
  - discriminate E.
Qed.
Lemma late_bind {A B} (m : M A) (f : A -> M B) : late m -> (forall a, late (f a)) -> late (bindM m f).
Proof.
  intros H1 H2 s e s' E. unfold bindM in E. destruct (m s) as [[a|e'|] s1] eqn:Em.
  - exact (H2 a _ _ _ E).
  - injection E as <- <-. exact (H1 _ _ _ Em).
  - discriminate E.
Qed.
Lemma late_quiet {A} (m : M A) : late m -> quiet_fail m.
Proof. intros H s e s' E He. rewrite (H _ _ _ E) in He. discriminate He. Qed.
Lemma still_quiet {A} (m : M A) : still m -> quiet_fail m.
Proof. intros H s e s' E He. specialize (H s). rewrite E in H. exact H. Qed.
Lemma still_reads {A} (f : st -> res A) : still (reads f).
Proof. intros s. apply same_refl. Qed.
Lemma still_lift {A} (r : res A) : still (lift r).
Proof. intros s. apply same_refl. Qed.
Lemma still_ret {A} (a : A) : still (ret a).
Proof. intros s. apply same_refl. Qed.
Lemma still_draw P n : still (draw P n).
Proof. intros s. repeat split. Qed.
Lemma still_bind {A B} (m : M A) (f : A -> M B) : still m -> (forall a, still (f a)) -> still (bindM m f).
Proof.
  intros H1 H2 s. unfold bindM. specialize (H1 s). destruct (m s) as [[a|e'|] s1]; cbn [snd] in *; try exact H1.
  exact (same_trans _ _ _ H1 (H2 a s1)).
Qed.
Lemma late_flush P : late (flush P).
Proof. intros s e s' E. unfold flush in E. destruct (p_write P (s_flushes s)); try discriminate E; injection E as <- <-; reflexivity. Qed.
Lemma late_secrets a b c : late (set_secrets a b c).
Proof. intros s e s' E. discriminate E. Qed.
Lemma late_put d : late (put_data d).
Proof. intros s e s' E. discriminate E. Qed.
Lemma late_set k v : late (io_set k v).
Proof. intros s e s' E. discriminate E. Qed.
Lemma late_encrypted P k t e : late (set_encrypted P k t e).
Proof. intros s x s' E. destruct (set_encrypted_cases P k t e s) as [(c & _ & H)|H]; rewrite H in E; discriminate E. Qed.
Lemma late_ensure P a b c : late (ensure_site_data P a b c).
Proof.
  intros s x s' E. destruct (ensure_cases P a b c s) as [H|[H|H]]; rewrite H in E; try discriminate E. exact (late_encrypted _ _ _ _ _ _ _ E).
Qed.
Lemma quiet_remove k : quiet_fail (io_remove k).
Proof.
  intros s e s' E _. unfold io_remove in E. destruct (s_data s !! k); [discriminate E|]. injection E as <- <-. apply same_refl.
Qed.

Ltac still_tac := repeat first [apply still_bind; [|intros ?] | apply still_reads | apply still_lift | apply still_ret].
Ltac late_tac := repeat first [apply late_bind; [|intros ?] | apply late_flush | apply late_secrets | apply late_put | apply late_set | apply late_encrypted | apply late_ensure].
Ltac quiet_tac :=
  repeat first [apply quiet_still; [first [apply still_reads|apply still_lift|apply still_ret|apply still_draw]|intros ?]].

Lemma failed_nothing P o s e : prims_ok P -> fst (exec P o s) = OErr e -> write_error e = false -> is_remove_sites o = false ->
  same_but_random s (snd (exec P o s)).
Proof.
  intros HP E He Ho.
  assert (forall {A} (f : A -> out) (m : M A), quiet_fail m -> (forall a, f a <> OErr e) ->
    fst (as_out f (m s)) = OErr e -> same_but_random s (snd (as_out f (m s)))) as K.
  { intros A f m Hm Hf H. unfold as_out in *. cbn [fst snd] in *. destruct (m s) as [r s'] eqn:Em. cbn [fst snd] in *.
    destruct r as [a|e'|]; [destruct (Hf a H)| |discriminate H]. injection H as ->. exact (Hm _ _ _ Em He). }
  destruct o; cbn [exec] in *; try discriminate E; try discriminate Ho;
    (apply K; [|intros ?; discriminate|exact E]); clear E K.
  - unfold reset. apply quiet_still; [apply still_draw|intros salt].
    rewrite get_encryption_key_eq.
    apply late_quiet. apply late_bind; [intros s0 e0 s0' H; discriminate H|intros k].
    apply late_bind; [intros s0 e0 s0' H; discriminate H|intros h]. unfold storage_clear, set_hmac_secret, set_salt, io_clear. late_tac.
  - unfold unlock. quiet_tac. apply late_quiet, late_secrets.
  - unfold get_alias, the_hmac, the_key. apply still_quiet. still_tac.
  - unfold set_alias, the_hmac, the_key. quiet_tac. destruct a3; [apply still_quiet; still_tac|].
    apply quiet_late; [|intros _; late_tac]. unfold storage_set_alias. destruct (bytes_eqb _ _); [apply still_quiet; still_tac|].
    apply late_quiet, late_encrypted.
  - unfold remove_alias, the_hmac, the_key, storage_remove_alias. quiet_tac. apply quiet_late; [|intros _; late_tac]. quiet_tac.
    destruct (site_alias _); [apply quiet_remove|apply still_quiet; still_tac].
  - unfold set_generated, the_hmac, the_key, set_password, storage_set. quiet_tac. apply late_quiet. late_tac.
  - unfold set_stored, the_hmac, the_key, set_password, storage_set. quiet_tac. apply late_quiet. late_tac.
  - unfold has, the_hmac, the_key. apply still_quiet. still_tac.
  - unfold get, the_hmac, the_key, the_primary. apply still_quiet. still_tac.
  - unfold get_notes, the_hmac, the_key. apply still_quiet. still_tac.
  - unfold set_notes, the_hmac, the_key, set_password, storage_set. quiet_tac. apply late_quiet. late_tac.
  - unfold remove, the_hmac, the_key, remove_password. quiet_tac. apply quiet_late; [apply quiet_remove|intros _; late_tac].
  - unfold list_. apply still_quiet. still_tac.
  - unfold list_sites. apply still_quiet. still_tac.
  - unfold get_recovery_code, the_key. apply still_quiet. still_tac. intros ?. repeat split.
  - unfold decode_recovery_code, the_primary. apply still_quiet. still_tac.
Qed.

(** * [remove_sites] *)

Lemma without_nil P h d : without P h [] d d.
Proof. intros slot. split; [intros []|reflexivity]. Qed.

Lemma loop_error P h l s e s' : remove_sites_loop P l h s = (Err e, s') ->
  e = KeyMissing /\ stays s s' /\
  exists l1 x l2, l = l1 ++ x :: l2 /\ without P h l1 (s_data s) (s_data s') /\ s_data s' !! get_site_key P x h = None.
Proof.
  revert s. induction l as [|x l IH]; intros s E; [discriminate E|]. cbn [remove_sites_loop] in E. unfold bindM in E.
  unfold storage_remove_site, io_remove in E. destruct (s_data s !! get_site_key P x h) eqn:Ex.
  - cbn [put_data] in E. destruct (IH _ E) as (-> & H2 & l1 & y & l2 & -> & H4 & H5). split; [reflexivity|]. split; [exact H2|].
    exists (x :: l1), y, l2. split; [reflexivity|]. split; [|exact H5]. intros slot. specialize (H4 slot). cbn [s_data] in H4.
    destruct H4 as [H4 H4']. cbn [map]. split.
    + intros [<-|Hin]; [|exact (H4 Hin)].
      destruct (in_dec (list_eq_dec Byte.byte_eq_dec) (get_site_key P x h) (map (fun x => get_site_key P x h) l1)) as [Hi|Hi]; [exact (H4 Hi)|].
      rewrite (H4' Hi). apply lookup_delete.
    + intros Hn. rewrite H4' by (intros Hi; apply Hn; right; exact Hi). apply lookup_delete_ne. intros Heq. apply Hn. left. exact Heq.
  - injection E as <- <-. split; [reflexivity|]. split; [apply stays_refl|]. exists [], x, l. split; [reflexivity|].
    split; [apply without_nil|exact Ex].
Qed.

Lemma failed_remove_sites P l s e : fst (exec P (RemoveSites l) s) = OErr e -> write_error e = false ->
  let s' := snd (exec P (RemoveSites l) s) in
  secrets s' = secrets s /\ file_untouched s s' /\
  match s_hmac s with
  | None => e = PasswordsLocked /\ s' = s
  | Some h => e = KeyMissing /\ exists l1 x l2, l = l1 ++ x :: l2 /\ without P h l1 (s_data s) (s_data s') /\ s_data s' !! get_site_key P x h = None
  end.
Proof.
  cbn [exec]. unfold as_out. cbn [fst snd]. destruct (remove_sites P l s) as [r s'] eqn:E. cbn [fst snd]. intros Hr He. cbv zeta.
  destruct r as [a|e'|]; try discriminate Hr. injection Hr as ->. unfold remove_sites in E. destruct l as [|x l]; [discriminate E|].
  unfold the_hmac, bindM, reads in E. cbn [ok_or] in E. destruct (s_hmac s) as [h|]; cbn [ok_or] in E.
  - destruct (remove_sites_loop P (x :: l) h s) as [[a|e'|] s1] eqn:El.
    + rewrite (late_flush _ _ _ _ E) in He. discriminate He.
    + injection E as <- <-. destruct (loop_error _ _ _ _ _ _ El) as (-> & (H1 & H2 & H3) & H4). repeat split; auto.
    + discriminate E.
  - injection E as <- <-. repeat split.
Qed.

(** * Processes *)

(** Whatever the outcome, the file is untouched. *)
Definition leaves {A} (c : C A) : Prop := forall t, file_untouched (t_st t) (t_st (snd (c t))).
Definition once {A} (P : prims) (c : C A) : Prop := forall t, written_once P (t_st t) (fst (c t)) (t_st (snd (c t))).
(** Always successful, without looking at the file. *)
Definition sure {A} (c : C A) : Prop := forall t, exists a t', c t = (COk a, t') /\ t_st t' = t_st t.

Lemma untouched_refl s : file_untouched s s.
Proof. split; reflexivity. Qed.
Lemma untouched_trans a b c : file_untouched a b -> file_untouched b c -> file_untouched a c.
Proof. unfold file_untouched. intuition congruence. Qed.

Lemma leaves_bind {A B} (c : C A) (f : A -> C B) : leaves c -> (forall a, leaves (f a)) -> leaves (cbind c f).
Proof.
  intros H1 H2 t. unfold cbind. specialize (H1 t). destruct (c t) as [[a|m| |] t1]; cbn [snd] in *; try exact H1.
  exact (untouched_trans _ _ _ H1 (H2 a t1)).
Qed.
Lemma once_bind {A B} P (c : C A) (f : A -> C B) : leaves c -> (forall a, once P (f a)) -> once P (cbind c f).
Proof.
  intros H1 H2 t. unfold cbind. specialize (H1 t). destruct (c t) as [[a|m| |] t1]; cbn [fst snd] in *; try (left; exact H1).
  destruct H1 as [H1 H1']. destruct (H2 a t1) as [H|H].
  - left. exact (untouched_trans _ _ _ (conj H1 H1') H).
  - right. rewrite H1' in H. exact H.
Qed.
Lemma once_sure {A B} P (c : C A) (f : A -> C B) : once P c -> (forall a, sure (f a)) -> once P (cbind c f).
Proof.
  intros H1 H2 t. unfold cbind. specialize (H1 t). destruct (c t) as [[a|m| |] t1]; cbn [fst snd] in *; try exact H1.
  destruct (H2 a t1) as (b & t2 & -> & Ht). cbn [fst snd]. rewrite Ht. exact H1.
Qed.
Lemma leaves_once {A} P (c : C A) : leaves c -> once P c.
Proof. intros H t. left. apply H. Qed.
Lemma sure_leaves {A} (c : C A) : sure c -> leaves c.
Proof. intros H t. destruct (H t) as (a & t' & -> & Ht). cbn [snd]. rewrite Ht. apply untouched_refl. Qed.

Lemma sure_ret {A} (a : A) : sure (cret a).
Proof. intros t. exists a, t. auto. Qed.
Lemma sure_print b : sure (print b).
Proof. intros t. unfold print. destruct (last_line _) as [d r]. do 2 eexists. split; reflexivity. Qed.
Lemma sure_println b : sure (println b).
Proof. apply sure_print. Qed.
Lemma sure_flush : sure flush_stdout.
Proof. intros t. do 2 eexists. split; reflexivity. Qed.
Lemma sure_direct b : sure (write_direct b).
Proof. intros t. do 2 eexists. split; reflexivity. Qed.
Lemma sure_eprintln m : sure (eprintln m).
Proof. intros t. do 2 eexists. split; reflexivity. Qed.
Lemma leaves_fail {A} m : leaves (@cfail A m).
Proof. intros t. apply untouched_refl. Qed.
Lemma leaves_confirm : leaves confirm.
Proof. intros t. unfold confirm. destruct (t_confirms t); apply untouched_refl. Qed.
Lemma leaves_ask : leaves ask.
Proof. intros t. unfold ask. destruct (t_asks t); apply untouched_refl. Qed.
Lemma leaves_tty : leaves tty_password.
Proof. intros t. unfold tty_password. destruct (t_tty t) as [|[x|] l]; apply untouched_refl. Qed.
Lemma leaves_secret p : leaves (prompt_secret_text p).
Proof.
  unfold prompt_secret_text. apply leaves_bind; [apply sure_leaves, sure_direct|intros _ t].
  destruct (read_line (t_stdin t)) as [l r]. apply untouched_refl.
Qed.
Lemma leaves_password p sp : leaves (prompt_password p sp).
Proof.
  unfold prompt_password. apply leaves_bind; [destruct sp; [apply leaves_secret|apply leaves_tty]|intros s]. apply sure_leaves, sure_ret.
Qed.

(** Calls of the library that do not write. *)
Definition unwritten_call {A} (m : M A) : Prop := forall s, file_untouched s (snd (m s)).
Lemma leaves_api {A} (m : M A) : unwritten_call m -> leaves (api m).
Proof. intros H t. unfold api. specialize (H (t_st t)). destruct (m (t_st t)) as [r s]. exact H. Qed.
Lemma leaves_api_or {A} (m : M A) d : unwritten_call m -> leaves (api_or m d).
Proof. intros H t. unfold api_or. specialize (H (t_st t)). destruct (m (t_st t)) as [r s]. exact H. Qed.
Lemma leaves_api_res {A} (m : M A) : unwritten_call m -> leaves (api_res m).
Proof. intros H t. unfold api_res. specialize (H (t_st t)). destruct (m (t_st t)) as [r s]. exact H. Qed.
Lemma still_unwritten {A} (m : M A) : still m -> unwritten_call m.
Proof. intros H s. destruct (H s) as (_ & _ & H1 & _ & H2). split; assumption. Qed.

(** Calls that change something in memory and write the file then. *)
Definition writing_call (P : prims) (m : M unit) : Prop := forall s, flushes P file_untouched m s.
Lemma once_api P m : writing_call P m -> once P (api m).
Proof.
  intros H t. unfold api. destruct (H (t_st t)) as [[H1 H2]|(s1 & [H1 H1'] & H2)].
  - left. destruct (m (t_st t)) as [r s]. exact H1.
  - right. rewrite H2. unfold flush. rewrite <- H1'. destruct (p_write P (s_flushes s1)); cbn [fst snd t_st with_st s_flushes];
      (split; [congruence|]); first [reflexivity|split; [discriminate|eexists; split; reflexivity]].
Qed.

Lemma stays_untouched s s' : stays s s' -> file_untouched s s'.
Proof. intros (_ & H). exact H. Qed.

Lemma as_out_done (m : M unit) s x s1 P :
  as_out (fun _ => ODone) (m s) = done_out (flush P s1) -> x = fst (m s) -> m s = flush P s1.
Proof.
  unfold as_out, done_out, as_out. destruct (m s) as [r s']. destruct (flush P s1) as [r' s'']. cbn [fst snd]. intros E _.
  injection E as E1 E2. subst s''. f_equal. destruct r as [[]|e|], r' as [[]|e'|]; congruence.
Qed.

Lemma writing_of P o m : (forall s, exec P o s = as_out (fun _ => ODone) (m s)) -> modifies o = true -> is_reset o = false ->
  writing_call P m.
Proof.
  intros He Hm Hr s. destruct (exec_shaped P o s Hm Hr) as [[H1 H2]|(s1 & H1 & H2)]; rewrite He in *.
  - left. unfold as_out in *. cbn [fst snd] in *. split; [apply stays_untouched, H1|]. destruct (fst (m s)); [contradiction|exact I..].
  - right. exists s1. split; [apply stays_untouched, H1|]. exact (as_out_done _ _ _ _ _ H2 eq_refl).
Qed.

Lemma once_reset P pp : prims_ok P -> once P (api (reset P pp)).
Proof.
  intros HP t. unfold api. pose proof (reset_eq P pp (t_st t) HP) as E. cbv zeta in E. rewrite E. clear E. right.
  unfold bindM, flush. cbn [s_flushes]. destruct (p_write P (s_flushes (t_st t))); cbn [fst snd t_st with_st s_flushes set_secrets];
    (split; [reflexivity|]); first [reflexivity|split; [discriminate|eexists; split; reflexivity]].
Qed.

Lemma once_sites P l : once P (api (remove_sites P l)).
Proof.
  destruct l as [|x l]; [apply leaves_once, leaves_api; intros s; apply untouched_refl|].
  apply once_api, (writing_of P (RemoveSites (x :: l))); reflexivity.
Qed.

Lemma unwritten_unlock P pp : unwritten_call (unlock P pp).
Proof.
  intros s. unfold unlock, bindM, reads, lift. destruct (get_salt (s_data s)) as [salt|e|]; try apply untouched_refl.
  destruct (get_encryption_key P pp salt) as [k|e|]; try apply untouched_refl.
  destruct (get_hmac_secret P (s_data s) k) as [h|e|]; split; reflexivity.
Qed.

Lemma leaves_unlock_loop P sp fuel : leaves (unlock_loop fuel P sp).
Proof.
  induction fuel as [|f IH]; intros t; cbn [unlock_loop]; destruct (unlocked (t_st t)); try apply untouched_refl.
  match goal with |- file_untouched _ (t_st (snd (?c t))) => assert (leaves c) as H; [|exact (H t)] end.
  apply leaves_bind; [apply leaves_password|intros pp]. apply leaves_bind; [|intros _; exact IH].
  destruct (_ <? _); [apply sure_leaves, sure_eprintln|]. apply leaves_bind; [apply leaves_api_res, unwritten_unlock|].
  intros [a|e|]; apply sure_leaves; first [apply sure_ret|apply sure_eprintln].
Qed.
Lemma leaves_ensure P sp : leaves (ensure_unlocked P sp).
Proof. intros t. unfold ensure_unlocked. destruct (negb _); [apply untouched_refl|apply leaves_unlock_loop]. Qed.

Lemma leaves_recovery_loop P asks acc : leaves (recovery_loop P asks acc).
Proof.
  revert acc. induction asks as [|x asks IH]; intros acc; cbn [recovery_loop]; (apply leaves_bind; [apply leaves_ask|intros a]).
  { intros t. apply untouched_refl. }
  destruct a as [[| |line]|]; try apply IH. destruct line; [apply leaves_fail|].
  apply leaves_bind; [apply leaves_api_res, still_unwritten; unfold decode_recovery_code, the_primary; still_tac|].
  assert (forall x, leaves (fun t : term => (match first_lines x 0 with Ok y => COk y | _ => @CPanic bytes end, t))) as Hf
    by (intros y t; apply untouched_refl).
  intros [v|e|]; [apply sure_leaves, sure_ret| |intros t; apply untouched_refl].
  destruct e; try apply leaves_fail.
  - apply leaves_bind; [intros t; apply untouched_refl|intros acc']. apply leaves_bind; [apply leaves_confirm|intros c].
    destruct c; try apply leaves_fail. apply leaves_api, still_unwritten. unfold decode_recovery_code, the_primary. still_tac.
  - apply leaves_bind; [intros t; apply untouched_refl|intros acc']. apply leaves_bind; [apply sure_leaves, sure_eprintln|intros _]. apply IH.
  - apply leaves_bind; [apply sure_leaves, sure_eprintln|intros _]. apply IH.
Qed.

Lemma leaves_overwrite P y x n r : leaves (OVERWRITE P y x n r).
Proof.
  unfold OVERWRITE. destruct y; [apply sure_leaves, sure_ret|].
  apply leaves_bind; [apply leaves_api_or, still_unwritten; unfold has, the_hmac, the_key; still_tac|intros e].
  destruct e; [|apply sure_leaves, sure_ret]. apply leaves_bind; [apply leaves_confirm|intros a]. apply sure_leaves, sure_ret.
Qed.

Lemma leaves_each {A} (f : A -> C unit) l : (forall x, leaves (f x)) -> leaves (each f l).
Proof. intros H. induction l as [|x l IH]; [apply sure_leaves, sure_ret|]. cbn [each]. apply leaves_bind; [apply H|intros _; exact IH]. Qed.

Ltac out_tac :=
  repeat first
    [ apply leaves_bind; [|intros ?]
    | apply leaves_fail
    | apply sure_leaves; first [apply sure_ret|apply sure_println|apply sure_print|apply sure_flush|apply sure_direct|apply sure_eprintln] ].

Lemma leaves_list_password P sh rc vb site p : leaves (list_password P sh rc vb site p).
Proof.
  unfold list_password. apply leaves_bind; [out_tac|intros _]. apply leaves_bind; [|intros _; apply leaves_bind; [|intros _]].
  - destruct sh; out_tac. apply leaves_api, still_unwritten. unfold get, the_hmac, the_key, the_primary. still_tac.
  - destruct rc, p; out_tac.
    + apply leaves_api, still_unwritten. unfold get_recovery_code, the_key. still_tac. intros s. repeat split.
    + apply leaves_each. intros x. out_tac.
  - destruct vb; out_tac; [destruct (pass_notes p); out_tac|destruct p; out_tac].
Qed.
Lemma leaves_list_loop P name sh rc vb all sites : leaves (list_loop P name sh rc vb all sites).
Proof.
  induction sites as [|s sites IH]; cbn [list_loop]; [out_tac|].
  apply leaves_bind; [apply leaves_api, still_unwritten; unfold list_; still_tac|intros l]. destruct l as [|p l].
  - apply leaves_bind; [exact IH|intros [f e]]. out_tac.
  - apply leaves_bind; [unfold heading; apply leaves_bind; [out_tac|intros _]; destruct vb, (aliased all (site_name s)); out_tac|intros _].
    apply leaves_bind; [apply leaves_each; intros x; apply leaves_list_password|intros _].
    apply leaves_bind; [exact IH|intros [f e]]. out_tac.
Qed.

Lemma once_simple P E path sp c : prims_ok P -> once P (process_simple P E path sp c).
Proof.
  intros HP. destruct c; cbn [process_simple].
  - unfold set_primary_cmd. apply once_bind; [apply leaves_password|intros pp]. destruct (_ <? _); [apply leaves_once; out_tac|].
    apply once_bind; [apply leaves_password|intros pp2]. destruct (negb _); [apply leaves_once; out_tac|].
    apply once_sure; [apply once_reset, HP|intros _; apply sure_println].
  - unfold add_cmd. apply once_bind; [apply leaves_ensure|intros _]. destruct (cs_is_empty _); [apply leaves_once; out_tac|].
    apply once_bind; [apply leaves_overwrite|intros go]. destruct go; [|apply leaves_once; out_tac].
    apply once_sure; [|intros _; apply sure_println]. apply once_api.
    apply (writing_of P (SetGenerated domain name revision len (add_charset no_lower no_upper no_digit no_symbol))); reflexivity.
  - unfold add_stored_cmd. apply once_bind; [apply leaves_ensure|intros _].
    apply once_bind; [apply leaves_overwrite|intros go]. destruct go; [|apply leaves_once; out_tac].
    apply once_bind; [destruct recovery; [intros t; apply leaves_recovery_loop|apply leaves_password]|intros pw].
    apply once_sure; [|intros _; apply sure_println]. apply once_api.
    apply (writing_of P (SetStored domain name revision pw)); reflexivity.
  - unfold remove_cmd. apply once_bind; [apply leaves_ensure|intros _].
    apply once_sure; [|intros _; apply sure_println]. apply once_api. apply (writing_of P (Remove domain name revision)); reflexivity.
  - unfold show_cmd. apply leaves_once. apply leaves_bind; [apply leaves_ensure|intros _].
    apply leaves_bind; [apply leaves_api, still_unwritten; unfold get, the_hmac, the_key, the_primary; still_tac|intros pw].
    apply leaves_bind; [out_tac|intros _]. destruct qrcode; [destruct (e_qr E pw); out_tac|out_tac].
  - unfold notes_cmd. apply once_bind; [apply leaves_ensure|intros _].
    apply once_bind; [apply leaves_api, still_unwritten; unfold get_notes, the_hmac, the_key; still_tac|intros nt].
    apply once_bind; [destruct nt; out_tac|intros _]. destruct set; [|apply leaves_once; out_tac].
    apply once_bind; [apply leaves_secret|intros nt2]. apply once_sure; [|intros _; apply sure_println]. apply once_api.
    apply (writing_of P (SetNotes domain name revision nt2)); reflexivity.
  - unfold list_cmd. apply once_bind; [apply leaves_ensure|intros _].
    apply once_bind; [apply leaves_api, still_unwritten; unfold list_sites; still_tac|intros sites].
    apply once_bind; [apply leaves_list_loop|intros [f e]]. apply once_sure; [apply once_sites|intros _].
    destruct f; [apply sure_ret|apply sure_println].
  - unfold alias_cmd. apply once_bind; [apply leaves_ensure|intros _]. destruct alias_target as [a|].
    + apply once_sure; [|intros _; apply sure_println]. apply once_api. apply (writing_of P (SetAlias domain a)); reflexivity.
    + destruct remove.
      * apply once_sure; [|intros _; apply sure_println]. apply once_api. apply (writing_of P (RemoveAlias domain)); reflexivity.
      * apply leaves_once. apply leaves_bind; [apply leaves_api, still_unwritten; unfold get_alias, the_hmac, the_key; still_tac|intros a]. out_tac.
  - apply leaves_once. out_tac.
Qed.

Lemma once_main P E path a : prims_ok P -> a_command a <> Shell -> once P (main_inner P E path a).
Proof.
  intros HP Hs. unfold main_inner. apply once_bind; [intros t; split; reflexivity|intros r].
  assert (forall c, c <> Shell -> once P (process_command P E path (a_stdin_passwords a) c)) as Hc.
  { intros c Hc. destruct c; try contradiction; apply once_simple; exact HP. }
  destruct (a_command a) eqn:Ea; try contradiction.
  1: { apply once_bind; [|intros go; destruct go; [apply Hc; discriminate|apply leaves_once; out_tac]].
       destruct r; out_tac. destruct assume_yes; out_tac. apply leaves_confirm. }
  all: destruct r; [apply Hc; discriminate|apply leaves_once; out_tac|apply leaves_once; intros t; apply untouched_refl].
Qed.

Lemma main_once P E path a t : prims_ok P -> a_command a <> Shell ->
  let '(x, t') := main P E path a t in
  file_untouched (t_st t) (t_st t') \/
  (s_flushes (t_st t') = S (s_flushes (t_st t)) /\
   match x with
   | Success => p_write P (s_flushes (t_st t)) = WriteOk
   | Failure => p_write P (s_flushes (t_st t)) <> WriteOk /\ exists l e, t_err t' = l ++ [Lib e] /\ write_error e = true
   | _ => False
   end).
Proof.
  intros HP Hs. pose proof (once_main P E path a HP Hs t) as H. unfold main. destruct (main_inner P E path a t) as [[u|m| |] t'].
  all: cbn [fst snd] in H.
  - exact H.
  - destruct H as [H|(H1 & H2 & e & -> & H3)]; [left; exact H|]. right. split; [exact H1|]. split; [exact H2|].
    exists (t_err t'), e. split; [reflexivity|exact H3].
  - exact H.
  - exact H.
Qed.
