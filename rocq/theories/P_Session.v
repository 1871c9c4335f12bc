(** A session of the shell compared with separate processes. *)
From stdpp Require Import gmap.
From Coq Require Import ZArith ZifyBool ZifyNat ZifyN.
From Verif Require Import M_Base M_Base64 M_Utf8 M_Prims M_Types M_Crypto M_Recovery M_Json M_Serde M_Storage
  M_Passwords S_Vault M_History S_Api M_Cli S_Cli S_Failure S_Session P_Base P_File P_Storage P_Crypto P_Api P_Failure P_CliBase P_CliCalls P_CliUnlock
  P_CliCommands P_CliMain.

(** * What was printed does not matter *)

(** The same state with [k] more changes of the map. *)
Definition tick_on (k : nat) (s : st) : st :=
  mk_st (s_data s) (s_key s) (s_hmac s) (s_primary s) (s_disk s) (s_tick s + k) (s_flushes s) (s_rand s).
(** The same terminal after something else was printed, with other lines to come in the shell. *)
Definition later (k : nat) (o : bytes) (e : list message) (l : list readline) (t : term) : term :=
  mk_term (tick_on k (t_st t)) (t_stdin t) (t_tty t) (t_confirms t) (t_asks t) l (o ++ t_shown t) (t_buf t) (e ++ t_err t).

Definition untimed {A} (m : M A) : Prop := forall k s, m (tick_on k s) = (fst (m s), tick_on k (snd (m s))).
Definition framed {A} (c : C A) : Prop := forall k o e l t, c (later k o e l t) = (fst (c t), later k o e l (snd (c t))).

Lemma untimed_bind {A B} (m : M A) (f : A -> M B) : untimed m -> (forall a, untimed (f a)) -> untimed (bindM m f).
Proof.
  intros H1 H2 k s. unfold bindM. rewrite H1. destruct (m s) as [[a|e|] s1]; cbn [fst snd]; try reflexivity. apply H2.
Qed.
Lemma untimed_reads {A} (f : st -> res A) : (forall k s, f (tick_on k s) = f s) -> untimed (reads f).
Proof. intros H k s. unfold reads. rewrite H. reflexivity. Qed.
Lemma untimed_lift {A} (r : res A) : untimed (lift r).
Proof. intros k s. reflexivity. Qed.
Lemma untimed_ret {A} (a : A) : untimed (ret a).
Proof. intros k s. reflexivity. Qed.
Lemma untimed_draw P n : untimed (draw P n).
Proof. intros k s. reflexivity. Qed.
Lemma untimed_put d : untimed (put_data d).
Proof. intros k s. reflexivity. Qed.
Lemma untimed_set x v : untimed (io_set x v).
Proof. intros k s. reflexivity. Qed.
Lemma untimed_remove x : untimed (io_remove x).
Proof. intros k s. unfold io_remove. cbn [s_data tick_on]. destruct (s_data s !! x); reflexivity. Qed.
Lemma untimed_secrets a b c : untimed (set_secrets a b c).
Proof. intros k s. reflexivity. Qed.
Lemma untimed_encrypted P x t e : untimed (set_encrypted P x t e).
Proof. intros k s. unfold set_encrypted. cbn [s_rand tick_on]. destruct (encrypt_data P (s_rand s) t e); reflexivity. Qed.
Lemma untimed_ensure P a b c : untimed (ensure_site_data P a b c).
Proof.
  intros k s. unfold ensure_site_data. cbn [s_data tick_on]. destruct (storage_get _ _ _ _ _); try reflexivity. apply untimed_encrypted.
Qed.

Section steady.
Context (P : prims) (E : externals) (path : bytes) (Hs : steady P).

Lemma keys_untimed k s : io_keys P (tick_on k s) = io_keys P s.
Proof. unfold io_keys. cbn [s_tick s_data tick_on]. apply Hs. Qed.
Lemma untimed_flush : untimed (flush P).
Proof.
  intros k s. unfold flush, flush_text. rewrite keys_untimed. cbn [s_flushes s_data s_disk tick_on]. destruct (p_write P (s_flushes s)); reflexivity.
Qed.

Ltac untimed_tac := repeat first
  [ apply untimed_bind; [|intros ?]
  | apply untimed_reads; intros ? ?; reflexivity
  | apply untimed_lift | apply untimed_ret | apply untimed_draw | apply untimed_put | apply untimed_set | apply untimed_remove
  | apply untimed_secrets | apply untimed_encrypted | apply untimed_ensure | apply untimed_flush ].

Lemma untimed_reset p : untimed (reset P p).
Proof. unfold reset, storage_clear, io_clear, set_salt, set_hmac_secret. untimed_tac. Qed.
Lemma untimed_unlock p : untimed (unlock P p).
Proof. unfold unlock. untimed_tac. Qed.
Lemma untimed_lock : untimed lock.
Proof. unfold lock. untimed_tac. Qed.
Lemma untimed_get_alias x : untimed (get_alias P x).
Proof. unfold get_alias, the_hmac, the_key. untimed_tac. Qed.
Lemma untimed_set_alias x a : untimed (set_alias P x a).
Proof.
  unfold set_alias, the_hmac, the_key. untimed_tac.
  - apply untimed_reads. intros k s. unfold any_password. rewrite keys_untimed. reflexivity.
  - destruct a3; untimed_tac. unfold storage_set_alias, storage_set. destruct (bytes_eqb _ _); untimed_tac.
Qed.
Lemma untimed_remove_alias x : untimed (remove_alias P x).
Proof. unfold remove_alias, the_hmac, the_key, storage_remove_alias. untimed_tac. destruct (site_alias _); untimed_tac. Qed.
Lemma untimed_loop l h : untimed (remove_sites_loop P l h).
Proof.
  induction l as [|y l IH]; cbn [remove_sites_loop]; [apply untimed_ret|]. unfold storage_remove_site.
  apply untimed_bind; [apply untimed_remove|intros _; exact IH].
Qed.
Lemma untimed_sites l : untimed (remove_sites P l).
Proof.
  unfold remove_sites, the_hmac. destruct l as [|x l]; [apply untimed_ret|]. apply untimed_bind; [untimed_tac|intros h].
  apply untimed_bind; [apply untimed_loop|intros _; untimed_tac].
Qed.
Lemma untimed_set_generated x n r len cs : untimed (set_generated P x n r len cs).
Proof. unfold set_generated, the_hmac, the_key, set_password, storage_set. untimed_tac. Qed.
Lemma untimed_set_stored x n r p : untimed (set_stored P x n r p).
Proof. unfold set_stored, the_hmac, the_key, set_password, storage_set. untimed_tac. Qed.
Lemma untimed_has x n r : untimed (has P x n r).
Proof. unfold has, the_hmac, the_key. untimed_tac. Qed.
Lemma untimed_get x n r : untimed (get P x n r).
Proof. unfold get, the_hmac, the_key, the_primary. untimed_tac. Qed.
Lemma untimed_code p : untimed (get_recovery_code P p).
Proof. unfold get_recovery_code, the_key. untimed_tac. intros k s. reflexivity. Qed.
Lemma untimed_decode c : untimed (decode_recovery_code P c).
Proof. unfold decode_recovery_code, the_primary. untimed_tac. Qed.
Lemma untimed_get_notes x n r : untimed (get_notes P x n r).
Proof. unfold get_notes, the_hmac, the_key. untimed_tac. Qed.
Lemma untimed_set_notes x n r t : untimed (set_notes P x n r t).
Proof. unfold set_notes, the_hmac, the_key, set_password, storage_set. untimed_tac. Qed.
Lemma untimed_remove_call x n r : untimed (remove P x n r).
Proof. unfold remove, the_hmac, the_key, remove_password. untimed_tac. Qed.
Lemma untimed_list x n : untimed (list_ P x n).
Proof. apply untimed_reads. intros k s. unfold list_passwords. rewrite keys_untimed. reflexivity. Qed.
Lemma untimed_list_sites x : untimed (list_sites P x).
Proof. apply untimed_reads. intros k s. unfold storage_list_sites. rewrite keys_untimed. reflexivity. Qed.

(** * Commands *)

Lemma framed_bind {A B} (c : C A) (f : A -> C B) : framed c -> (forall a, framed (f a)) -> framed (cbind c f).
Proof.
  intros H1 H2 k o e l t. unfold cbind. rewrite H1. destruct (c t) as [[a|m| |] t1]; cbn [fst snd]; try reflexivity. apply H2.
Qed.
Lemma framed_const {A} (r : cres A) : framed (fun t => (r, t)).
Proof. intros k o e l t. reflexivity. Qed.
Lemma framed_ret {A} (a : A) : framed (cret a).
Proof. apply framed_const. Qed.
Lemma framed_fail {A} m : framed (@cfail A m).
Proof. apply framed_const. Qed.
Lemma framed_api {A} (m : M A) : untimed m -> framed (api m).
Proof. intros H k o e l t. unfold api. cbn [t_st later]. rewrite H. destruct (m (t_st t)) as [r s]. reflexivity. Qed.
Lemma framed_api_or {A} (m : M A) d : untimed m -> framed (api_or m d).
Proof. intros H k o e l t. unfold api_or. cbn [t_st later]. rewrite H. destruct (m (t_st t)) as [r s]. reflexivity. Qed.
Lemma framed_api_res {A} (m : M A) : untimed m -> framed (api_res m).
Proof. intros H k o e l t. unfold api_res. cbn [t_st later]. rewrite H. destruct (m (t_st t)) as [r s]. reflexivity. Qed.
Lemma framed_print b : framed (print b).
Proof.
  intros k o e l t. unfold print. cbn [t_buf t_shown later]. destruct (last_line _) as [d r]. cbn [fst snd]. unfold later, with_out. cbn.
  rewrite app_assoc. reflexivity.
Qed.
Lemma framed_println b : framed (println b).
Proof. apply framed_print. Qed.
Lemma framed_flush : framed flush_stdout.
Proof. intros k o e l t. unfold flush_stdout, later, with_out. cbn. rewrite app_assoc. reflexivity. Qed.
Lemma framed_direct b : framed (write_direct b).
Proof. intros k o e l t. unfold write_direct, later, with_out. cbn. rewrite app_assoc. reflexivity. Qed.
Lemma framed_eprintln m : framed (eprintln m).
Proof. intros k o e l t. unfold eprintln, later. cbn. rewrite app_assoc. reflexivity. Qed.
Lemma framed_confirm : framed confirm.
Proof. intros k o e l t. unfold confirm. cbn [t_confirms later]. destruct (t_confirms t); reflexivity. Qed.
Lemma framed_ask : framed ask.
Proof. intros k o e l t. unfold ask. cbn [t_asks later]. destruct (t_asks t); reflexivity. Qed.
Lemma framed_tty : framed tty_password.
Proof. intros k o e l t. unfold tty_password. cbn [t_tty later]. destruct (t_tty t) as [|[x|] y]; reflexivity. Qed.
Lemma framed_secret p : framed (prompt_secret_text p).
Proof.
  unfold prompt_secret_text. apply framed_bind; [apply framed_direct|intros _]. intros k o e l t. cbn [t_stdin later].
  destruct (read_line (t_stdin t)) as [x r]. reflexivity.
Qed.
Lemma framed_password p sp : framed (prompt_password p sp).
Proof.
  unfold prompt_password. apply framed_bind; [destruct sp; [apply framed_secret|apply framed_tty]|intros s]. apply framed_ret.
Qed.

Ltac framed_tac := repeat first
  [ apply framed_secret | apply framed_password | apply framed_bind; [|intros ?]
  | apply framed_ret | apply framed_fail | apply framed_println | apply framed_print | apply framed_flush | apply framed_direct
  | apply framed_eprintln | apply framed_confirm | apply framed_ask | apply framed_const ].

Lemma framed_unlock_loop sp fuel : framed (unlock_loop fuel P sp).
Proof.
  induction fuel as [|f IH]; intros k o e l t; cbn [unlock_loop]; change (unlocked (t_st (later k o e l t))) with (unlocked (t_st t));
    destruct (unlocked (t_st t)); try reflexivity.
  match goal with |- ?c (later _ _ _ _ _) = _ => assert (framed c) as H; [|exact (H k o e l t)] end.
  apply framed_bind; [framed_tac|intros pp]. apply framed_bind; [|intros _; exact IH].
  destruct (_ <? _); framed_tac; [apply framed_api_res, untimed_unlock|]. destruct a; framed_tac.
Qed.
Lemma framed_ensure sp : framed (ensure_unlocked P sp).
Proof.
  intros k o e l t. unfold ensure_unlocked. change (initialized (t_st (later k o e l t))) with (initialized (t_st t)).
  destruct (negb _); [reflexivity|]. apply framed_unlock_loop.
Qed.
Lemma framed_recovery_loop asks acc : framed (recovery_loop P asks acc).
Proof.
  revert acc. induction asks as [|x asks IH]; intros acc; cbn [recovery_loop]; (apply framed_bind; [apply framed_ask|intros a]).
  { apply framed_const. }
  destruct a as [[| |line]|]; try apply IH. destruct line; framed_tac; [apply framed_api_res, untimed_decode|].
  destruct a as [v|e|]; framed_tac. destruct e; framed_tac; try apply IH.
  - destruct a0; framed_tac. apply framed_api, untimed_decode.
Qed.
Lemma framed_overwrite y x n r : framed (OVERWRITE P y x n r).
Proof.
  unfold OVERWRITE. destruct y; framed_tac; [apply framed_api_or, untimed_has|]. destruct a; framed_tac.
Qed.
Lemma framed_each {A} (f : A -> C unit) l : (forall x, framed (f x)) -> framed (each f l).
Proof. intros H. induction l as [|x l IH]; cbn [each]; framed_tac; [apply H|exact IH]. Qed.
Lemma framed_list_password sh rc vb site p : framed (list_password P sh rc vb site p).
Proof.
  unfold list_password. framed_tac.
  - destruct sh; framed_tac. apply framed_api, untimed_get.
  - destruct rc, p; framed_tac; [apply framed_api, untimed_code|]. apply framed_each. intros x. framed_tac.
  - destruct vb; framed_tac; [destruct (pass_notes p); framed_tac|destruct p; framed_tac].
Qed.
Lemma framed_list_loop name sh rc vb all sites : framed (list_loop P name sh rc vb all sites).
Proof.
  induction sites as [|s sites IH]; cbn [list_loop]; framed_tac; [apply framed_api, untimed_list|]. destruct a as [|p l]; framed_tac.
  - exact IH.
  - destruct a as [f e]. framed_tac.
  - unfold heading. framed_tac. destruct vb, (aliased all (site_name s)); framed_tac.
  - apply framed_each. intros x. apply framed_list_password.
  - exact IH.
  - destruct a1 as [f e]. framed_tac.
Qed.

Lemma framed_simple sp c : framed (process_simple P E path sp c).
Proof.
  destruct c; cbn [process_simple].
  - unfold set_primary_cmd. framed_tac. destruct (_ <? _); framed_tac. destruct (negb _); framed_tac. apply framed_api, untimed_reset.
  - unfold add_cmd. framed_tac; [apply framed_ensure|]. destruct (cs_is_empty _); framed_tac; [apply framed_overwrite|].
    destruct a0; framed_tac. apply framed_api, untimed_set_generated.
  - unfold add_stored_cmd. framed_tac; [apply framed_ensure|apply framed_overwrite|]. destruct a0; framed_tac.
    + destruct recovery; [intros k o e l t; apply framed_recovery_loop|framed_tac].
    + apply framed_api, untimed_set_stored.
  - unfold remove_cmd. framed_tac; [apply framed_ensure|apply framed_api, untimed_remove_call].
  - unfold show_cmd. framed_tac; [apply framed_ensure|apply framed_api, untimed_get|]. destruct qrcode; framed_tac. destruct (e_qr E a0); framed_tac.
  - unfold notes_cmd. framed_tac; [apply framed_ensure|apply framed_api, untimed_get_notes|destruct a0; framed_tac|].
    destruct set; framed_tac. apply framed_api, untimed_set_notes.
  - unfold list_cmd. framed_tac; [apply framed_ensure|apply framed_api, untimed_list_sites|apply framed_list_loop|].
    destruct a1 as [f e]. framed_tac; [apply framed_api, untimed_sites|]. destruct f; framed_tac.
  - unfold alias_cmd. framed_tac; [apply framed_ensure|]. destruct alias_target as [x|]; framed_tac; [apply framed_api, untimed_set_alias|].
    destruct remove; framed_tac; [apply framed_api, untimed_remove_alias|apply framed_api, untimed_get_alias].
  - framed_tac.
Qed.
End steady.

(** * The file and the memory *)

Definition tracks {A} (P : prims) (b : bool) (c : C A) : Prop := forall t, saved P (t_st t) ->
  match fst (c t) with
  | COk _ => saved P (t_st (snd (c t)))
  | CErr m => b = true -> match m with Lib e => write_error e = false | Text _ => True end -> saved P (t_st (snd (c t)))
  | _ => True
  end.
(** Neither the file nor the data change. *)
Definition same_data {A} (c : C A) : Prop := forall t,
  s_data (t_st (snd (c t))) = s_data (t_st t) /\ s_disk (t_st (snd (c t))) = s_disk (t_st t).

Section tracks.
Context (P : prims) (E : externals) (path : bytes) (HP : prims_ok P).

Lemma tracks_bind {A B} b (c : C A) (f : A -> C B) : tracks P b c -> (forall a, tracks P b (f a)) -> tracks P b (cbind c f).
Proof.
  intros H1 H2 t Ht. unfold cbind. specialize (H1 t Ht). destruct (c t) as [[a|m| |] t1]; cbn [fst snd] in *; try exact H1. exact (H2 a t1 H1).
Qed.
Lemma same_tracks {A} b (c : C A) : same_data c -> tracks P b c.
Proof.
  intros H t Ht. destruct (H t) as [H1 H2]. assert (saved P (t_st (snd (c t)))) as H3 by (unfold saved in *; rewrite H1, H2; exact Ht).
  destruct (fst (c t)); auto.
Qed.
Lemma same_bind {A B} (c : C A) (f : A -> C B) : same_data c -> (forall a, same_data (f a)) -> same_data (cbind c f).
Proof.
  intros H1 H2 t. unfold cbind. specialize (H1 t). destruct (c t) as [[a|m| |] t1]; cbn [snd] in *; try exact H1.
  destruct (H2 a t1). destruct H1. split; congruence.
Qed.
Lemma sure_same {A} (c : C A) : sure c -> same_data c.
Proof. intros H t. destruct (H t) as (a & t' & -> & Ht). cbn [snd]. rewrite Ht. auto. Qed.
Lemma same_const {A} (r : cres A) : same_data (fun t => (r, t)).
Proof. intros t. auto. Qed.
Lemma same_fail {A} m : same_data (@cfail A m).
Proof. apply same_const. Qed.
Lemma same_confirm : same_data confirm.
Proof. intros t. unfold confirm. destruct (t_confirms t); auto. Qed.
Lemma same_ask : same_data ask.
Proof. intros t. unfold ask. destruct (t_asks t); auto. Qed.
Lemma same_secret p : same_data (prompt_secret_text p).
Proof.
  unfold prompt_secret_text. apply same_bind; [apply sure_same, sure_direct|intros _ t].
  destruct (read_line (t_stdin t)) as [l r]. auto.
Qed.
Lemma same_password p sp : same_data (prompt_password p sp).
Proof.
  unfold prompt_password. apply same_bind; [|intros s; apply sure_same, sure_ret].
  destruct sp; [apply same_secret|]. intros t. unfold tty_password. destruct (t_tty t) as [|[x|] l]; auto.
Qed.
Definition same_call {A} (m : M A) : Prop := forall s, s_data (snd (m s)) = s_data s /\ s_disk (snd (m s)) = s_disk s.
Lemma same_api {A} (m : M A) : same_call m -> same_data (api m).
Proof. intros H t. unfold api. specialize (H (t_st t)). destruct (m (t_st t)) as [r s]. exact H. Qed.
Lemma same_api_or {A} (m : M A) d : same_call m -> same_data (api_or m d).
Proof. intros H t. unfold api_or. specialize (H (t_st t)). destruct (m (t_st t)) as [r s]. exact H. Qed.
Lemma same_api_res {A} (m : M A) : same_call m -> same_data (api_res m).
Proof. intros H t. unfold api_res. specialize (H (t_st t)). destruct (m (t_st t)) as [r s]. exact H. Qed.
Lemma still_same {A} (m : M A) : still m -> same_call m.
Proof. intros H s. destruct (H s) as (H0 & _ & H1 & _). split; assumption. Qed.
Lemma same_unlock pp : same_call (unlock P pp).
Proof.
  intros s. unfold unlock, bindM, reads, lift. destruct (get_salt (s_data s)) as [salt|e|]; auto.
  destruct (get_encryption_key P pp salt) as [k|e|]; auto.
  destruct (get_hmac_secret P (s_data s) k) as [h|e|]; auto.
Qed.

Ltac same_tac := repeat first
  [ apply same_secret | apply same_password | apply same_bind; [|intros ?] | apply same_fail | apply same_confirm | apply same_ask
  | apply sure_same; first [apply sure_ret|apply sure_println|apply sure_print|apply sure_flush|apply sure_direct|apply sure_eprintln]
  | apply same_const ].

Lemma same_unlock_loop sp fuel : same_data (unlock_loop fuel P sp).
Proof.
  induction fuel as [|f IH]; intros t; cbn [unlock_loop]; destruct (unlocked (t_st t)); auto.
  match goal with |- s_data (t_st (snd (?c t))) = _ /\ _ => assert (same_data c) as H; [|exact (H t)] end.
  apply same_bind; [same_tac|intros pp]. apply same_bind; [|intros _; exact IH].
  destruct (_ <? _); same_tac; [apply same_api_res, same_unlock|]. destruct a; same_tac.
Qed.
Lemma same_ensure sp : same_data (ensure_unlocked P sp).
Proof. intros t. unfold ensure_unlocked. destruct (negb _); [auto|apply same_unlock_loop]. Qed.
Lemma same_decode c : same_call (decode_recovery_code P c).
Proof. apply still_same. unfold decode_recovery_code, the_primary. still_tac. Qed.
Lemma same_recovery_loop asks acc : same_data (recovery_loop P asks acc).
Proof.
  revert acc. induction asks as [|x asks IH]; intros acc; cbn [recovery_loop]; (apply same_bind; [apply same_ask|intros a]).
  { apply same_const. }
  destruct a as [[| |line]|]; try apply IH. destruct line; same_tac; [apply same_api_res, same_decode|].
  destruct a as [v|e|]; same_tac. destruct e; same_tac; try apply IH; try (intros t; split; reflexivity).
  destruct a0; same_tac. apply same_api, same_decode.
Qed.
Lemma same_overwrite y x n r : same_data (OVERWRITE P y x n r).
Proof.
  unfold OVERWRITE. destruct y; same_tac; [apply same_api_or, still_same; unfold has, the_hmac, the_key; still_tac|]. destruct a; same_tac.
Qed.
Lemma same_each {A} (f : A -> C unit) l : (forall x, same_data (f x)) -> same_data (each f l).
Proof. intros H. induction l as [|x l IH]; cbn [each]; same_tac; [apply H|exact IH]. Qed.
Lemma same_list_password sh rc vb site p : same_data (list_password P sh rc vb site p).
Proof.
  unfold list_password. same_tac.
  - destruct sh; same_tac. apply same_api, still_same. unfold get, the_hmac, the_key, the_primary. still_tac.
  - destruct rc, p; same_tac; [apply same_api, still_same; unfold get_recovery_code, the_key; still_tac; intros s; repeat split|].
    apply same_each. intros x. same_tac.
  - destruct vb; same_tac; [destruct (pass_notes p); same_tac|destruct p; same_tac].
Qed.
Lemma same_list_loop name sh rc vb all sites : same_data (list_loop P name sh rc vb all sites).
Proof.
  induction sites as [|s sites IH]; cbn [list_loop]; same_tac; [apply same_api, still_same; unfold list_; still_tac|]. destruct a as [|p l]; same_tac.
  - exact IH.
  - destruct a as [f e]. same_tac.
  - unfold heading. same_tac. destruct vb, (aliased all (site_name s)); same_tac.
  - apply same_each. intros x. apply same_list_password.
  - exact IH.
  - destruct a1 as [f e]. same_tac.
Qed.

(** Calls that write. *)
Lemma tracks_write b o (m : M unit) : (forall s, exec P o s = as_out (fun _ => ODone) (m s)) -> modifies o = true ->
  (b = true -> is_remove_sites o = false) -> tracks P b (api m).
Proof.
  intros He Hm Hb t Ht. unfold api. pose proof (exec_disk P o (t_st t) HP) as (_ & H2 & H3 & _ & _).
  pose proof (failed_nothing P o (t_st t)) as H4. rewrite He in *. unfold as_out in *. cbn [fst snd] in *.
  destruct (m (t_st t)) as [[[]|e|] s']; cbn [fst snd t_st with_st] in *.
  - unfold saved. rewrite (H3 eq_refl Hm). apply load_flush; [exact HP|]. intros k v Hk. apply (H2 (load_texts _ _ _ Ht) k v Hk).
  - intros Hb' Hw. destruct (H4 e HP eq_refl Hw (Hb Hb')) as (E1 & _ & E3 & _). unfold saved in *. rewrite E1, E3. exact Ht.
  - exact I.
Qed.

Lemma tracks_simple sp c : tracks P (match c with List _ _ _ _ _ => false | _ => true end) (process_simple P E path sp c).
Proof.
  destruct c; cbn [process_simple].
  - unfold set_primary_cmd. apply tracks_bind; [apply same_tracks; same_tac|intros pp]. destruct (_ <? _); [apply same_tracks; same_tac|].
    apply tracks_bind; [apply same_tracks; same_tac|intros pp2]. destruct (negb _); [apply same_tracks; same_tac|].
    apply tracks_bind; [|intros _; apply same_tracks; same_tac]. apply (tracks_write _ (Reset pp)); reflexivity.
  - unfold add_cmd. apply tracks_bind; [apply same_tracks, same_ensure|intros _]. destruct (cs_is_empty _); [apply same_tracks; same_tac|].
    apply tracks_bind; [apply same_tracks, same_overwrite|intros go]. destruct go; [|apply same_tracks; same_tac].
    apply tracks_bind; [|intros _; apply same_tracks; same_tac].
    apply (tracks_write _ (SetGenerated domain name revision len (add_charset no_lower no_upper no_digit no_symbol))); reflexivity.
  - unfold add_stored_cmd. apply tracks_bind; [apply same_tracks, same_ensure|intros _].
    apply tracks_bind; [apply same_tracks, same_overwrite|intros go]. destruct go; [|apply same_tracks; same_tac].
    apply tracks_bind; [apply same_tracks; destruct recovery; [intros t; apply same_recovery_loop|same_tac]|intros pw].
    apply tracks_bind; [|intros _; apply same_tracks; same_tac]. apply (tracks_write _ (SetStored domain name revision pw)); reflexivity.
  - unfold remove_cmd. apply tracks_bind; [apply same_tracks, same_ensure|intros _].
    apply tracks_bind; [|intros _; apply same_tracks; same_tac]. apply (tracks_write _ (Remove domain name revision)); reflexivity.
  - unfold show_cmd. apply same_tracks. apply same_bind; [apply same_ensure|intros _].
    same_tac; [apply same_api, still_same; unfold get, the_hmac, the_key, the_primary; still_tac|].
    destruct qrcode; [destruct (e_qr E a); same_tac|same_tac].
  - unfold notes_cmd. apply tracks_bind; [apply same_tracks, same_ensure|intros _].
    apply tracks_bind; [apply same_tracks, same_api, still_same; unfold get_notes, the_hmac, the_key; still_tac|intros nt].
    apply tracks_bind; [apply same_tracks; destruct nt; same_tac|intros _]. destruct set; [|apply same_tracks; same_tac].
    apply tracks_bind; [apply same_tracks; same_tac|intros nt2].
    apply tracks_bind; [|intros _; apply same_tracks; same_tac]. apply (tracks_write _ (SetNotes domain name revision nt2)); reflexivity.
  - unfold list_cmd. apply tracks_bind; [apply same_tracks, same_ensure|intros _].
    apply tracks_bind; [apply same_tracks, same_api, still_same; unfold list_sites; still_tac|intros sites].
    apply tracks_bind; [apply same_tracks, same_list_loop|intros [f e]].
    apply tracks_bind; [|intros _; apply same_tracks; destruct f; same_tac].
    destruct e as [|x l]; [apply same_tracks, same_api; intros s; split; reflexivity|].
    apply (tracks_write _ (RemoveSites (x :: l))); [reflexivity|reflexivity|discriminate].
  - unfold alias_cmd. apply tracks_bind; [apply same_tracks, same_ensure|intros _]. destruct alias_target as [a|].
    + apply tracks_bind; [|intros _; apply same_tracks; same_tac]. apply (tracks_write _ (SetAlias domain a)); reflexivity.
    + destruct remove.
      * apply tracks_bind; [|intros _; apply same_tracks; same_tac]. apply (tracks_write _ (RemoveAlias domain)); reflexivity.
      * apply same_tracks. same_tac. apply same_api, still_same. unfold get_alias, the_hmac, the_key. still_tac.
  - apply same_tracks. same_tac.
Qed.
End tracks.

(** * Sessions *)

(** The terminal before anything was printed and changed. *)
Definition blank_term (t : term) : term :=
  mk_term (mk_st (s_data (t_st t)) (s_key (t_st t)) (s_hmac (t_st t)) (s_primary (t_st t)) (s_disk (t_st t)) 0 (s_flushes (t_st t)) (s_rand (t_st t)))
    (t_stdin t) (t_tty t) (t_confirms t) (t_asks t) [] [] [] [].
Definition lock_st (t : term) : term := with_st (snd (lock (t_st t))) t.

Section session.
Context (P : prims) (E : externals) (path : bytes) (HP : prims_ok P) (Hs : steady P).

(** A session [u] and separate processes [t] between commands. *)
Record between (u t : term) : Prop := {
  bt_rest : same_but_output t u;
  bt_err : t_err u = t_err t;
  bt_buf : t_buf u = [];
  bt_buf' : t_buf t = [];
  bt_locked : locked (t_st u);
  bt_saved : saved P (t_st u)
}.

Lemma session_term u l : t_buf u = [] -> with_lines l u = later (s_tick (t_st u)) (t_shown u) (t_err u) l (blank_term u).
Proof. intros H. unfold with_lines, later, blank_term. cbn. rewrite !app_nil_r, H. destruct (t_st u). reflexivity. Qed.
Lemma process_term u t : between u t -> exists k, begins P t = later k (t_shown t) (t_err t) (t_lines t) (blank_term u).
Proof.
  intros [[H1 H2 H3 H4 H5 H6 H7] H8 H9 H10 (L1 & L2 & L3) H11]. exists (S (s_tick (t_st t))). unfold begins, later, blank_term, with_st. cbn [exec snd].
  assert (load P (s_disk (t_st t)) = Ok (s_data (t_st u))) as -> by (rewrite <- H1; exact H11).
  cbn. rewrite H4, H5, H6, H7, H10, !app_nil_r. f_equal. unfold passwords_new, tick_on. cbn. rewrite L1, L2, L3, H1, H2, H3. reflexivity.
Qed.

Lemma show_lock sp lk t : e_parse E lk = SLock ->
  shell_step P E path sp lk t = (COk true, with_out (t_shown t ++ t_buf t ++ locked_line) [] (lock_st t)).
Proof.
  intros H. unfold shell_step. rewrite H. unfold cbind, api, println, print. cbn [lock set_secrets t_buf with_st].
  change (bs "Passwords locked." ++ [newline]) with locked_line. unfold locked_line. rewrite app_assoc, last_line_newline. cbn [app].
  rewrite <- app_assoc. reflexivity.
Qed.

Lemma one_command sp c line lk u t x t1 rest : between u t -> ~ refused c -> e_parse E line = SCommand c -> e_parse E lk = SLock ->
  main P E path (mk_args sp c) t = (x, t1) -> x = Success \/ x = Failure /\ clean_failure c t t1 ->
  exists u1 out, shell_loop P E path sp (Line line :: Line lk :: rest) u = shell_loop P E path sp rest u1 /\ between u1 t1 /\
    t_lines u1 = rest /\ t_shown t1 = t_shown t ++ out /\ t_shown u1 = t_shown u ++ out ++ locked_line.
Proof.
  intros B Hr Hc Hl Hm Hx.
  destruct (process_term u t B) as [k Hk]. pose proof (bt_saved _ _ B) as Hsv.
  assert (load P (s_disk (t_st t)) = Ok (s_data (t_st u))) as Hload
    by (rewrite <- (sb_disk _ _ (bt_rest _ _ B)); exact Hsv).
  rewrite (main_command P E path sp c t _ Hload) in Hm by (intros y ->; exact (Hr I)).
  assert (process_command P E path sp c = process_simple P E path sp c) as Hps by (destruct c; try reflexivity; destruct (Hr I)).
  rewrite Hps, Hk, (framed_simple P E path Hs sp c) in Hm.
  pose proof (tracks_simple P E path HP sp c (blank_term u) Hsv) as Ht.
  assert (forall rest', shell_step P E path sp line (with_lines rest' u) =
    match fst (process_simple P E path sp c (blank_term u)) with
    | COk _ => (COk true, with_out (t_shown u ++ t_shown (snd (process_simple P E path sp c (blank_term u))) ++
                  t_buf (snd (process_simple P E path sp c (blank_term u)))) []
                (later (s_tick (t_st u)) (t_shown u) (t_err u) rest' (snd (process_simple P E path sp c (blank_term u)))))
    | CErr m => (COk true, complained m (later (s_tick (t_st u)) (t_shown u) (t_err u) rest' (snd (process_simple P E path sp c (blank_term u)))))
    | CPanic => (CPanic, later (s_tick (t_st u)) (t_shown u) (t_err u) rest' (snd (process_simple P E path sp c (blank_term u))))
    | CStuck => (CStuck, later (s_tick (t_st u)) (t_shown u) (t_err u) rest' (snd (process_simple P E path sp c (blank_term u))))
    end) as Hstep.
  { intros rest'. unfold shell_step. rewrite Hc. rewrite (session_term u rest' (bt_buf _ _ B)).
    destruct c; try (destruct (Hr I)); cbv beta iota; rewrite (framed_simple P E path Hs sp _);
      destruct (process_simple P E path sp _ (blank_term u)) as [[[]|m| |] b]; cbn [fst snd]; try reflexivity;
      unfold cbind, flush_stdout, cret; cbn [later t_shown t_buf]; rewrite <- app_assoc; reflexivity. }
  destruct (process_simple P E path sp c (blank_term u)) as [r b]. cbn [fst snd] in *.
  destruct r as [[]|m| |]; cbn [ends] in Hm; injection Hm as <- <-; [| |destruct Hx as [Hx|[Hx _]]; discriminate Hx..].
  - eexists (with_out _ [] _), (t_shown b ++ t_buf b). split; [|split; [|split; [|split]]].
    + cbn [shell_loop]. unfold cbind at 1. rewrite Hstep. unfold cbind. rewrite (show_lock sp lk _ Hl). reflexivity.
    + constructor; cbn; try reflexivity.
      * constructor; reflexivity.
      * f_equal. apply B.
      * repeat split.
      * exact Ht.
    + reflexivity.
    + cbn. rewrite <- app_assoc. reflexivity.
    + cbn. rewrite !app_assoc. reflexivity.
  - destruct Hx as [Hx|[_ [Hnl (l & m' & He & Hw)]]]; [discriminate Hx|].
    assert (m = m') as <-.
    { change ((t_err t ++ t_err b) ++ [m] = t_err t ++ l ++ [m']) in He. rewrite app_assoc in He. apply app_inj_tail in He. apply He. }
    eexists (with_out _ [] _), (t_shown b ++ t_buf b). split; [|split; [|split; [|split]]].
    + cbn [shell_loop]. unfold cbind at 1. rewrite Hstep. unfold cbind. rewrite (show_lock sp lk _ Hl). reflexivity.
    + constructor; cbn; try reflexivity.
      * constructor; reflexivity.
      * f_equal. f_equal. apply B.
      * repeat split.
      * apply Ht; [destruct c; try reflexivity; destruct Hnl|exact Hw].
    + reflexivity.
    + cbn. rewrite <- app_assoc. reflexivity.
    + cbn. rewrite !app_assoc. reflexivity.
Qed.

Lemma commands_session sp lk rest : e_parse E lk = SLock -> forall cs t outs t', separately P E path sp cs t outs t' ->
  forall lines u, Forall2 (fun line c => e_parse E line = SCommand c /\ ~ refused c) lines cs -> between u t ->
  t_lines u = with_locks lk lines ++ rest ->
  exists u', shell_loop P E path sp (with_locks lk lines ++ rest) u = shell_loop P E path sp rest u' /\ between u' t' /\ t_lines u' = rest /\
    t_shown u' = t_shown u ++ concat (map (fun out => out ++ locked_line) outs) /\ t_shown t' = t_shown t ++ concat outs.
Proof.
  intros Hl cs t outs t' H. induction H as [t|c cs t t1 out outs t2 Hm Ho Hsep IH|c cs t t1 out outs t2 Hm Ho Hcf Hsep IH]; intros lines u Hf B Hlu.
  - inversion Hf; subst. exists u. cbn in *. rewrite !app_nil_r. auto.
  - inversion Hf as [|line ? lines' ? [H1 H2] Hf']; subst. cbn [with_locks flat_map app].
    destruct (one_command sp c line lk u t Success t1 (with_locks lk lines' ++ rest) B H2 H1 Hl Hm (or_introl eq_refl)) as (u1 & out' & E1 & B1 & L1 & O1 & O2).
    rewrite Ho in O1. apply app_inv_head in O1. subst out'.
    destruct (IH lines' u1 Hf' B1 L1) as (u2 & E2 & B2 & L2 & O3 & O4). exists u2. split; [etransitivity; [exact E1|exact E2]|]. split; [exact B2|]. split; [exact L2|].
    cbn [map concat]. rewrite O3, O2, O4, Ho, <- !app_assoc. auto.
  - inversion Hf as [|line ? lines' ? [H1 H2] Hf']; subst. cbn [with_locks flat_map app].
    destruct (one_command sp c line lk u t Failure t1 (with_locks lk lines' ++ rest) B H2 H1 Hl Hm (or_intror (conj eq_refl Hcf))) as (u1 & out' & E1 & B1 & L1 & O1 & O2).
    rewrite Ho in O1. apply app_inv_head in O1. subst out'.
    destruct (IH lines' u1 Hf' B1 L1) as (u2 & E2 & B2 & L2 & O3 & O4). exists u2. split; [etransitivity; [exact E1|exact E2]|]. split; [exact B2|]. split; [exact L2|].
    cbn [map concat]. rewrite O3, O2, O4, Ho, <- !app_assoc. auto.
Qed.

Lemma session_processes sp lk lines cs t outs t' last rest d :
  e_parse E lk = SLock -> Forall2 (fun line c => e_parse E line = SCommand c /\ ~ refused c) lines cs -> ending E last ->
  t_buf t = [] -> load P (s_disk (t_st t)) = Ok d -> separately P E path sp cs t outs t' ->
  exists u, main P E path (mk_args sp Shell) (with_lines (with_locks lk lines ++ last :: rest) t) = (Success, u) /\ same_but_output t' u /\
    t_err u = t_err t' /\
    t_shown u = t_shown t ++ SHELL_HELP ++ [newline] ++ concat (map (fun out => out ++ locked_line) outs) /\
    t_shown t' = t_shown t ++ concat outs.
Proof.
  intros Hl Hf Hend Hb Hload Hsep. set (t0 := with_lines (with_locks lk lines ++ last :: rest) t).
  rewrite (main_command P E path sp Shell t0 d Hload) by discriminate. cbn [process_command]. unfold shell_cmd, cbind.
  set (u0 := begins P t0).
  assert (t_buf u0 = []) as Hb0 by exact Hb. rewrite println_eq by exact Hb0. unfold flush_stdout.
  set (u1 := with_out _ [] _).
  assert (between u1 t) as B.
  { constructor; try reflexivity.
    - constructor; reflexivity.
    - exact Hb.
    - repeat split.
    - unfold saved. cbn. rewrite Hload. reflexivity. }
  destruct (commands_session sp lk (last :: rest) Hl cs t outs t' Hsep lines u1 Hf B eq_refl) as (u2 & E2 & B2 & L2 & O3 & O4).
  change (t_lines u1) with (with_locks lk lines ++ last :: rest). rewrite E2.
  exists (ended (with_lines rest u2)). split; [|split; [|split; [|split]]].
  - destruct Hend as [-> |(line & -> & Hend)]; [reflexivity|]. cbn [shell_loop]. unfold cbind, shell_step. rewrite Hend. reflexivity.
  - destruct B2 as [[H1 H2 H3 H4 H5 H6 H7] _ _ _ _ _]. constructor; assumption.
  - apply B2.
  - cbn. rewrite (bt_buf _ _ B2), app_nil_r, O3. unfold u1. cbn. rewrite Hb, app_nil_r, <- !app_assoc. reflexivity.
  - exact O4.
Qed.
End session.
