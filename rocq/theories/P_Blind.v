(** Commands do not look at the file after they have started. *)
From stdpp Require Import gmap.
From Coq Require Import ZArith ZifyBool ZifyNat ZifyN.
From Verif Require Import M_Base M_Base64 M_Utf8 M_Prims M_Types M_Crypto M_Recovery M_Json M_Serde M_Storage
  M_Passwords S_Vault M_History S_Api M_Cli S_Cli S_Processes.

Definition on_disk (d : option bytes) (s : st) : st :=
  mk_st (s_data s) (s_key s) (s_hmac s) (s_primary s) d (s_tick s) (s_flushes s) (s_rand s).

(** Either the file is left alone whatever it is, or it is replaced without looking at it. *)
Definition blind {A} (m : M A) : Prop := forall s,
  (s_disk (snd (m s)) = s_disk s /\ forall d, m (on_disk d s) = (fst (m s), on_disk d (snd (m s)))) \/
  (forall d, m (on_disk d s) = m s).
Definition unseeing {A} (c : C A) : Prop := forall t,
  (s_disk (t_st (snd (c t))) = s_disk (t_st t) /\ forall d, c (meanwhile d t) = (fst (c t), meanwhile d (snd (c t)))) \/
  (forall d, c (meanwhile d t) = c t).

Lemma blind_bind {A B} (m : M A) (f : A -> M B) : blind m -> (forall a, blind (f a)) -> blind (bindM m f).
Proof.
  intros H1 H2 s. unfold bindM. destruct (H1 s) as [[Hd Hk]|Hc].
  - destruct (m s) as [[a|e|] s1] eqn:E; cbn [fst snd] in *.
    + destruct (H2 a s1) as [[Hd' Hk']|Hc'].
      * left. split; [congruence|]. intros d. rewrite Hk, Hk'. reflexivity.
      * right. intros d. rewrite Hk. apply Hc'.
    + left. split; [exact Hd|]. intros d. rewrite Hk. reflexivity.
    + left. split; [exact Hd|]. intros d. rewrite Hk. reflexivity.
  - right. intros d. rewrite Hc. reflexivity.
Qed.
Lemma blind_keep {A} (m : M A) : (forall s, s_disk (snd (m s)) = s_disk s) ->
  (forall s d, m (on_disk d s) = (fst (m s), on_disk d (snd (m s)))) -> blind m.
Proof. intros H1 H2 s. left. auto. Qed.
Lemma blind_reads {A} (f : st -> res A) : (forall d s, f (on_disk d s) = f s) -> blind (reads f).
Proof. intros H. apply blind_keep; [reflexivity|]. intros s d. unfold reads. rewrite H. reflexivity. Qed.
Lemma blind_lift {A} (r : res A) : blind (lift r).
Proof. apply blind_keep; reflexivity. Qed.
Lemma blind_ret {A} (a : A) : blind (ret a).
Proof. apply blind_keep; reflexivity. Qed.
Lemma blind_draw P n : blind (draw P n).
Proof. apply blind_keep; reflexivity. Qed.
Lemma blind_put d : blind (put_data d).
Proof. apply blind_keep; reflexivity. Qed.
Lemma blind_set x v : blind (io_set x v).
Proof. apply blind_keep; reflexivity. Qed.
Lemma blind_remove x : blind (io_remove x).
Proof. apply blind_keep; intros s; unfold io_remove; [|intros d; cbn [s_data on_disk]]; destruct (s_data s !! x); reflexivity. Qed.
Lemma blind_secrets a b c : blind (set_secrets a b c).
Proof. apply blind_keep; reflexivity. Qed.
Lemma blind_encrypted P x t e : blind (set_encrypted P x t e).
Proof.
  apply blind_keep; intros s; unfold set_encrypted; [|intros d; cbn [s_rand on_disk]]; destruct (encrypt_data P (s_rand s) t e); reflexivity.
Qed.
Lemma blind_ensure P a b c : blind (ensure_site_data P a b c).
Proof.
  intros s. unfold ensure_site_data. cbn [s_data on_disk]. destruct (storage_get _ _ _ _ _); try (left; split; reflexivity).
  apply blind_encrypted.
Qed.
Lemma blind_flush P : blind (flush P).
Proof.
  intros s. unfold flush. cbn [s_flushes on_disk]. destruct (p_write P (s_flushes s)); cbn [snd s_disk].
  - right. reflexivity.
  - left. split; reflexivity.
  - left. split; reflexivity.
  - right. reflexivity.
Qed.

Ltac blind_tac := repeat first
  [ apply blind_bind; [|intros ?]
  | apply blind_reads; intros ? ?; reflexivity
  | apply blind_lift | apply blind_ret | apply blind_draw | apply blind_put | apply blind_set | apply blind_remove
  | apply blind_secrets | apply blind_encrypted | apply blind_ensure | apply blind_flush ].

Section blind.
Context (P : prims) (E : externals) (path : bytes).

Lemma blind_reset p : blind (reset P p).
Proof. unfold reset, storage_clear, io_clear, set_salt, set_hmac_secret. blind_tac. Qed.
Lemma blind_unlock p : blind (unlock P p).
Proof. unfold unlock. blind_tac. Qed.
Lemma blind_lock : blind lock.
Proof. unfold lock. blind_tac. Qed.
Lemma blind_get_alias x : blind (get_alias P x).
Proof. unfold get_alias, the_hmac, the_key. blind_tac. Qed.
Lemma blind_set_alias x a : blind (set_alias P x a).
Proof.
  unfold set_alias, the_hmac, the_key. blind_tac.
  destruct a3; blind_tac. unfold storage_set_alias, storage_set. destruct (bytes_eqb _ _); blind_tac.
Qed.
Lemma blind_remove_alias x : blind (remove_alias P x).
Proof. unfold remove_alias, the_hmac, the_key, storage_remove_alias. blind_tac. destruct (site_alias _); blind_tac. Qed.
Lemma blind_loop l h : blind (remove_sites_loop P l h).
Proof.
  induction l as [|y l IH]; cbn [remove_sites_loop]; [apply blind_ret|]. unfold storage_remove_site.
  apply blind_bind; [apply blind_remove|intros _; exact IH].
Qed.
Lemma blind_sites l : blind (remove_sites P l).
Proof.
  unfold remove_sites, the_hmac. destruct l as [|x l]; [apply blind_ret|]. apply blind_bind; [blind_tac|intros h].
  apply blind_bind; [apply blind_loop|intros _; blind_tac].
Qed.
Lemma blind_set_generated x n r len cs : blind (set_generated P x n r len cs).
Proof. unfold set_generated, the_hmac, the_key, set_password, storage_set. blind_tac. Qed.
Lemma blind_set_stored x n r p : blind (set_stored P x n r p).
Proof. unfold set_stored, the_hmac, the_key, set_password, storage_set. blind_tac. Qed.
Lemma blind_has x n r : blind (has P x n r).
Proof. unfold has, the_hmac, the_key. blind_tac. Qed.
Lemma blind_get x n r : blind (get P x n r).
Proof. unfold get, the_hmac, the_key, the_primary. blind_tac. Qed.
Lemma blind_code p : blind (get_recovery_code P p).
Proof. unfold get_recovery_code, the_key. blind_tac. apply blind_keep; reflexivity. Qed.
Lemma blind_decode c : blind (decode_recovery_code P c).
Proof. unfold decode_recovery_code, the_primary. blind_tac. Qed.
Lemma blind_get_notes x n r : blind (get_notes P x n r).
Proof. unfold get_notes, the_hmac, the_key. blind_tac. Qed.
Lemma blind_set_notes x n r t : blind (set_notes P x n r t).
Proof. unfold set_notes, the_hmac, the_key, set_password, storage_set. blind_tac. Qed.
Lemma blind_remove_call x n r : blind (remove P x n r).
Proof. unfold remove, the_hmac, the_key, remove_password. blind_tac. Qed.
Lemma blind_list x n : blind (list_ P x n).
Proof. apply blind_reads. reflexivity. Qed.
Lemma blind_list_sites x : blind (list_sites P x).
Proof. apply blind_reads. reflexivity. Qed.

(** * Commands *)

Lemma unseeing_bind {A B} (c : C A) (f : A -> C B) : unseeing c -> (forall a, unseeing (f a)) -> unseeing (cbind c f).
Proof.
  intros H1 H2 t. unfold cbind. destruct (H1 t) as [[Hd Hk]|Hc].
  - destruct (c t) as [[a|m| |] t1] eqn:Ec; cbn [fst snd] in *.
    + destruct (H2 a t1) as [[Hd' Hk']|Hc'].
      * left. split; [congruence|]. intros d. rewrite Hk, Hk'. reflexivity.
      * right. intros d. rewrite Hk. apply Hc'.
    + left. split; [exact Hd|]. intros d. rewrite Hk. reflexivity.
    + left. split; [exact Hd|]. intros d. rewrite Hk. reflexivity.
    + left. split; [exact Hd|]. intros d. rewrite Hk. reflexivity.
  - right. intros d. rewrite Hc. reflexivity.
Qed.
Lemma unseeing_keep {A} (c : C A) : (forall t, s_disk (t_st (snd (c t))) = s_disk (t_st t)) ->
  (forall t d, c (meanwhile d t) = (fst (c t), meanwhile d (snd (c t)))) -> unseeing c.
Proof. intros H1 H2 t. left. auto. Qed.
Lemma unseeing_const {A} (r : cres A) : unseeing (fun t => (r, t)).
Proof. apply unseeing_keep; reflexivity. Qed.
Lemma unseeing_ret {A} (a : A) : unseeing (cret a).
Proof. apply unseeing_const. Qed.
Lemma unseeing_fail {A} m : unseeing (@cfail A m).
Proof. apply unseeing_const. Qed.
Lemma meanwhile_st d t : t_st (meanwhile d t) = on_disk d (t_st t).
Proof. reflexivity. Qed.
Ltac api_tac H t :=
  let Hd := fresh in let Hk := fresh in
  destruct (H (t_st t)) as [[Hd Hk]|Hk];
  [left; split; [|let d := fresh in intros d; rewrite meanwhile_st, Hk]; destruct (_ (t_st t)) as [[?|?|] ?]; first [exact Hd|reflexivity]
  |right; intros d; rewrite meanwhile_st, Hk; reflexivity].
Lemma unseeing_api {A} (m : M A) : blind m -> unseeing (api m).
Proof. intros H t. unfold api. api_tac H t. Qed.
Lemma unseeing_api_or {A} (m : M A) x : blind m -> unseeing (api_or m x).
Proof. intros H t. unfold api_or. api_tac H t. Qed.
Lemma unseeing_api_res {A} (m : M A) : blind m -> unseeing (api_res m).
Proof. intros H t. unfold api_res. api_tac H t. Qed.
Lemma unseeing_print b : unseeing (print b).
Proof.
  apply unseeing_keep; intros t; unfold print; [|intros d; change (t_buf (meanwhile d t)) with (t_buf t)]; destruct (last_line _) as [x r]; reflexivity.
Qed.
Lemma unseeing_println b : unseeing (println b).
Proof. apply unseeing_print. Qed.
Lemma unseeing_flush : unseeing flush_stdout.
Proof. apply unseeing_keep; reflexivity. Qed.
Lemma unseeing_direct b : unseeing (write_direct b).
Proof. apply unseeing_keep; reflexivity. Qed.
Lemma unseeing_eprintln m : unseeing (eprintln m).
Proof. apply unseeing_keep; reflexivity. Qed.
Lemma unseeing_confirm : unseeing confirm.
Proof. apply unseeing_keep; intros t; unfold confirm; [|intros d; change (t_confirms (meanwhile d t)) with (t_confirms t)]; destruct (t_confirms t); reflexivity. Qed.
Lemma unseeing_ask : unseeing ask.
Proof. apply unseeing_keep; intros t; unfold ask; [|intros d; change (t_asks (meanwhile d t)) with (t_asks t)]; destruct (t_asks t); reflexivity. Qed.
Lemma unseeing_tty : unseeing tty_password.
Proof. apply unseeing_keep; intros t; unfold tty_password; [|intros d; change (t_tty (meanwhile d t)) with (t_tty t)]; destruct (t_tty t) as [|[x|] y]; reflexivity. Qed.
Lemma unseeing_secret p : unseeing (prompt_secret_text p).
Proof.
  unfold prompt_secret_text. apply unseeing_bind; [apply unseeing_direct|intros _].
  apply unseeing_keep; intros t; [|intros d; change (t_stdin (meanwhile d t)) with (t_stdin t)]; destruct (read_line (t_stdin t)) as [x r]; reflexivity.
Qed.
Lemma unseeing_password p sp : unseeing (prompt_password p sp).
Proof.
  unfold prompt_password. apply unseeing_bind; [destruct sp; [apply unseeing_secret|apply unseeing_tty]|intros s]. apply unseeing_ret.
Qed.

Ltac unseeing_tac := repeat first
  [ apply unseeing_secret | apply unseeing_password | apply unseeing_bind; [|intros ?]
  | apply unseeing_ret | apply unseeing_fail | apply unseeing_println | apply unseeing_print | apply unseeing_flush | apply unseeing_direct
  | apply unseeing_eprintln | apply unseeing_confirm | apply unseeing_ask | apply unseeing_const ].

Lemma unseeing_if {A} (f : st -> bool) (c1 c2 : C A) : (forall d s, f (on_disk d s) = f s) ->
  unseeing c1 -> unseeing c2 -> unseeing (fun t => if f (t_st t) then c1 t else c2 t).
Proof.
  intros Hf H1 H2 t. specialize (H1 t). specialize (H2 t).
  assert (forall d, f (t_st (meanwhile d t)) = f (t_st t)) as H by (intros; apply Hf).
  destruct (f (t_st t)) eqn:Ef.
  - destruct H1 as [[Hd Hk]|Hc]; [left; split; [exact Hd|]|right]; intros d; rewrite H; auto.
  - destruct H2 as [[Hd Hk]|Hc]; [left; split; [exact Hd|]|right]; intros d; rewrite H; auto.
Qed.
Lemma unseeing_unlock_loop sp fuel : unseeing (unlock_loop fuel P sp).
Proof.
  induction fuel as [|f IH]; cbn [unlock_loop]; apply (unseeing_if unlocked); try reflexivity; try apply unseeing_const.
  apply unseeing_bind; [unseeing_tac|intros pp]. apply unseeing_bind; [|intros _; exact IH].
  destruct (_ <? _); unseeing_tac; [apply unseeing_api_res, blind_unlock|]. destruct a; unseeing_tac.
Qed.
Lemma unseeing_ensure sp : unseeing (ensure_unlocked P sp).
Proof.
  unfold ensure_unlocked. apply (unseeing_if (fun s => negb (initialized s))); [reflexivity|apply unseeing_fail|].
  intros t. exact (unseeing_unlock_loop sp _ t).
Qed.
Lemma unseeing_recovery_loop asks acc : unseeing (recovery_loop P asks acc).
Proof.
  revert acc. induction asks as [|x asks IH]; intros acc; cbn [recovery_loop]; (apply unseeing_bind; [apply unseeing_ask|intros a]).
  { apply unseeing_const. }
  destruct a as [[| |line]|]; try apply IH. destruct line; unseeing_tac; [apply unseeing_api_res, blind_decode|].
  destruct a as [v|e|]; unseeing_tac. destruct e; unseeing_tac; try apply IH.
  - destruct a0; unseeing_tac. apply unseeing_api, blind_decode.
Qed.
Lemma unseeing_overwrite y x n r : unseeing (OVERWRITE P y x n r).
Proof.
  unfold OVERWRITE. destruct y; unseeing_tac; [apply unseeing_api_or, blind_has|]. destruct a; unseeing_tac.
Qed.
Lemma unseeing_each {A} (f : A -> C unit) l : (forall x, unseeing (f x)) -> unseeing (each f l).
Proof. intros H. induction l as [|x l IH]; cbn [each]; unseeing_tac; [apply H|exact IH]. Qed.
Lemma unseeing_list_password sh rc vb site p : unseeing (list_password P sh rc vb site p).
Proof.
  unfold list_password. unseeing_tac.
  - destruct sh; unseeing_tac. apply unseeing_api, blind_get.
  - destruct rc, p; unseeing_tac; [apply unseeing_api, blind_code|]. apply unseeing_each. intros x. unseeing_tac.
  - destruct vb; unseeing_tac; [destruct (pass_notes p); unseeing_tac|destruct p; unseeing_tac].
Qed.
Lemma unseeing_list_loop name sh rc vb all sites : unseeing (list_loop P name sh rc vb all sites).
Proof.
  induction sites as [|s sites IH]; cbn [list_loop]; unseeing_tac; [apply unseeing_api, blind_list|]. destruct a as [|p l]; unseeing_tac.
  - exact IH.
  - destruct a as [f e]. unseeing_tac.
  - unfold heading. unseeing_tac. destruct vb, (aliased all (site_name s)); unseeing_tac.
  - apply unseeing_each. intros x. apply unseeing_list_password.
  - exact IH.
  - destruct a1 as [f e]. unseeing_tac.
Qed.

Lemma unseeing_simple sp c : unseeing (process_simple P E path sp c).
Proof.
  destruct c; cbn [process_simple].
  - unfold set_primary_cmd. unseeing_tac. destruct (_ <? _); unseeing_tac. destruct (negb _); unseeing_tac. apply unseeing_api, blind_reset.
  - unfold add_cmd. unseeing_tac; [apply unseeing_ensure|]. destruct (cs_is_empty _); unseeing_tac; [apply unseeing_overwrite|].
    destruct a0; unseeing_tac. apply unseeing_api, blind_set_generated.
  - unfold add_stored_cmd. unseeing_tac; [apply unseeing_ensure|apply unseeing_overwrite|]. destruct a0; unseeing_tac.
    + destruct recovery; [intros t; exact (unseeing_recovery_loop _ _ t)|unseeing_tac].
    + apply unseeing_api, blind_set_stored.
  - unfold remove_cmd. unseeing_tac; [apply unseeing_ensure|apply unseeing_api, blind_remove_call].
  - unfold show_cmd. unseeing_tac; [apply unseeing_ensure|apply unseeing_api, blind_get|]. destruct qrcode; unseeing_tac. destruct (e_qr E a0); unseeing_tac.
  - unfold notes_cmd. unseeing_tac; [apply unseeing_ensure|apply unseeing_api, blind_get_notes|destruct a0; unseeing_tac|].
    destruct set; unseeing_tac. apply unseeing_api, blind_set_notes.
  - unfold list_cmd. unseeing_tac; [apply unseeing_ensure|apply unseeing_api, blind_list_sites|apply unseeing_list_loop|].
    destruct a1 as [f e]. unseeing_tac; [apply unseeing_api, blind_sites|]. destruct f; unseeing_tac.
  - unfold alias_cmd. unseeing_tac; [apply unseeing_ensure|]. destruct alias_target as [x|]; unseeing_tac; [apply unseeing_api, blind_set_alias|].
    destruct remove; unseeing_tac; [apply unseeing_api, blind_remove_alias|apply unseeing_api, blind_get_alias].
  - unseeing_tac.
Qed.

Lemma unseeing_lines {A} rest (c : C A) : unseeing c -> unseeing (fun t => c (with_lines rest t)).
Proof. intros H t. exact (H (with_lines rest t)). Qed.
Lemma unseeing_step sp line : unseeing (shell_step P E path sp line).
Proof.
  unfold shell_step. destruct (e_parse E line) as [m| | |c]; unseeing_tac; [apply unseeing_api, blind_lock|].
  assert (unseeing (fun t =>
        match process_simple P E path sp c t with
        | (COk _, t') => (let& _ := flush_stdout in cret true) t'
        | (CErr m, t') => (let& _ := eprintln m in cret true) t'
        | (CPanic, t') => (CPanic, t')
        | (CStuck, t') => (CStuck, t')
        end)) as H.
  { intros t. destruct (unseeing_simple sp c t) as [[Hd Hk]|Hc]; [|right; intros d; rewrite Hc; reflexivity].
    left. split; [|intros d; rewrite Hk]; destruct (process_simple P E path sp c t) as [[?|?| |] ?]; first [exact Hd|reflexivity]. }
  destruct c; unseeing_tac; exact H.
Qed.
Lemma unseeing_loop sp lines : unseeing (shell_loop P E path sp lines).
Proof.
  induction lines as [|[line| | |] lines IH]; cbn [shell_loop].
  - apply unseeing_const.
  - apply unseeing_bind; [apply unseeing_lines, unseeing_step|]. intros [|]; [exact IH|apply unseeing_ret].
  - apply unseeing_lines, IH.
  - apply (unseeing_lines lines (fun t => (COk tt, t))), unseeing_const.
  - apply unseeing_lines. unseeing_tac. exact IH.
Qed.

Lemma unseeing_command sp c : unseeing (process_command P E path sp c).
Proof.
  destruct c; try apply unseeing_simple. cbn [process_command]. unfold shell_cmd. unseeing_tac.
  intros t. exact (unseeing_loop sp (t_lines t) t).
Qed.
End blind.

(** C59 *)
Lemma command_blind P E path sp c t d :
  let '(r, t1) := process_command P E path sp c t in
  let '(r', t2) := process_command P E path sp c (meanwhile d t) in
  r' = r /\ meanwhile None t2 = meanwhile None t1 /\
  (s_disk (t_st t1) = s_disk (t_st t) /\ s_disk (t_st t2) = d \/ s_disk (t_st t2) = s_disk (t_st t1)).
Proof.
  pose proof (unseeing_command P E path sp c t) as H. destruct (process_command P E path sp c t) as [r t1]. cbn [fst snd] in H.
  destruct H as [[H1 H2]|H]; [rewrite H2|rewrite H]; auto.
Qed.
Lemma command_overwrites P E path sp c t d :
  s_disk (t_st (snd (process_command P E path sp c t))) <> s_disk (t_st t) ->
  process_command P E path sp c (meanwhile d t) = process_command P E path sp c t.
Proof. intros H. destruct (unseeing_command P E path sp c t) as [[H1 _]|H1]; [contradiction|apply H1]. Qed.
