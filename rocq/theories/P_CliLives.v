(** The command line program: messages, recovery codes, and processes one after the other. *)
From Coq Require Import Permutation ZArith ZifyBool ZifyNat ZifyN.
From stdpp Require Import gmap.
From Verif Require Import M_Base M_Base64 M_Utf8 M_Prims M_Types M_Crypto M_Recovery M_Json M_Serde M_Storage M_Passwords S_Json S_Serde
  S_Recovery S_Vault M_History S_Api S_History P_Base P_Utf8 P_Json P_Serde P_File P_Storage P_Api P_Calls P_Sound M_Cli S_Cli P_CliBase
  P_CliCalls P_CliUnlock P_CliCommands P_CliMain P_CliRecovery P_CliList P_CliVault.

(** * Messages *)

Lemma decimal_value ds n : decimal ds n -> digits_value ds = n.
Proof. intros H. apply decimal_spec in H. destruct H as (_ & _ & H). exact H. Qed.
Lemma write_number_inj n m : (n <= u64_max)%N -> (m <= u64_max)%N -> write_number n = write_number m -> n = m.
Proof.
  intros Hn Hm E. destruct (write_number_spec n Hn) as [H1 _]. destruct (write_number_spec m Hm) as [H2 _].
  rewrite <- (decimal_value _ _ H1), <- (decimal_value _ _ H2), E. reflexivity.
Qed.
(** The text at the beginning of a message tells which error it is. *)
Definition beginning (e : error) : bytes :=
  match e with
  | CreateDirFailure => bs "Failed creating directory for storage ("
  | FileReadFailure => bs "Failed reading storage file ("
  | FileWriteFailure => bs "Failed writing storage file ("
  | StorageNotInitialized => bs "Storage is missing data. Maybe use set-primary subcommand first?"
  | UnexpectedStorageFormat => bs "Unexpected storage file format."
  | PasswordsLocked => bs "Passwords are locked."
  | KeyMissing => bs "No such value in storage."
  | UnexpectedData => bs "Unexpected JSON data in storage."
  | InvalidCiphertext => bs "Corrupt ciphertext data in storage."
  | InvalidBase64 => bs "Corrupt Base64 data in storage ("
  | InvalidJson => bs "Corrupt JSON data in storage ("
  | InvalidUtf8 => bs "Corrupt UTF-8 data in storage ("
  | DecryptionFailure => bs "Decryption failure, wrong primary password?"
  | NoSuchAlias => bs "Site is not an alias."
  | AliasToSelf => bs "Cannot make a site an alias for itself."
  | SiteHasPasswords => bs "Site has passwords, remove before making it an alias."
  | RecoveryCodeExtraData _ => bs "Error in recovery code, extra data starting with line "
  | RecoveryCodeChecksumMismatch _ => bs "Error in recovery code, checksum mismatch in line "
  | RecoveryCodeIncomplete => bs "Error in recovery code, code is incomplete."
  | RecoveryCodeWrongVersion => bs "Wrong recovery code version, generated by a newer application version?"
  | RecoveryCodeInsufficientData => bs "Not enough data in the recovery code."
  end.
Fixpoint clash (a b : bytes) : bool :=
  match a, b with
  | x :: a', y :: b' => if Byte.eqb x y then clash a' b' else true
  | _, _ => false
  end.
Lemma clash_neq a b x y : clash a b = true -> a ++ x = b ++ y -> False.
Proof.
  revert b. induction a as [|c a IH]; intros [|d b] H; cbn in H; try discriminate H.
  destruct (Byte.eqb c d) eqn:Ec; cbn; intros [= Hcd Hab].
  - exact (IH b H Hab).
  - subst. rewrite eqb_refl in Ec. discriminate Ec.
Qed.
Lemma format_beginning d e : exists x, format_error d e = beginning e ++ x.
Proof. destruct e; cbn [format_error beginning]; first [eexists; reflexivity|exists []; rewrite app_nil_r; reflexivity]. Qed.
Definition kind (e : error) : error :=
  match e with
  | RecoveryCodeExtraData _ => RecoveryCodeExtraData 0
  | RecoveryCodeChecksumMismatch _ => RecoveryCodeChecksumMismatch 0
  | e => e
  end.
Lemma beginnings e e' : kind e = kind e' \/ clash (beginning e) (beginning e') = true.
Proof. destruct e, e'; first [left; reflexivity|right; vm_compute; reflexivity]. Qed.
Lemma format_error_inj d d' e e' : usize_lines e -> usize_lines e' -> format_error d e = format_error d' e' -> e = e'.
Proof.
  intros He He' H. destruct (beginnings e e') as [Hk|Hc].
  - destruct e, e'; cbn [kind] in Hk; try discriminate Hk; try reflexivity; cbn [format_error] in H; cbn [usize_lines] in He, He'.
    all: apply app_inv_head in H; apply app_inv_tail in H; apply write_number_inj in H; [|exact He|exact He'];
      apply Nat2N.inj in H; subst; reflexivity.
  - exfalso. destruct (format_beginning d e) as [x Hx], (format_beginning d' e') as [y Hy]. rewrite Hx, Hy in H.
    exact (clash_neq _ _ _ _ Hc H).
Qed.

Section lives.
Context (P : prims) (E : externals) (path : bytes).

(** * Storing what a recovery code contains *)

Lemma add_recovery_goes sp x n r y code lines pp l ms more t : prims_ok P -> ready t -> y = true \/ seems_new P (t_st t) x n r ->
  code_lines code lines -> (length lines <= 256 \/ p_overflow_checks P = false) ->
  spells [] (significant code) l ms -> t_asks t = l ++ more -> s_primary (t_st t) = Some pp ->
  let t1 := after_questions (t_confirms t) more ms t in
  match decode P code pp with
  | Ok v => finishes P (SetStored x n r v) (bs "Password added.") t1 (process_simple P E path sp (AddStored x n r true y) t)
  | Err e => process_simple P E path sp (AddStored x n r true y) t = (CErr (Lib e), t1)
  | Panic => process_simple P E path sp (AddStored x n r true y) t = (CPanic, t1)
  end.
Proof.
  intros HP Hr Hy Hc Hs Hsp Ha Hp t1. rewrite (add_stored_ready P E path sp x n r true y t Hr).
  rewrite (bind_ok _ _ _ _ _ (overwrite_yes P x n r y t Hy)).
  pose proof (recovery_spells P HP code lines pp [] _ l ms Hc Hs Hsp eq_refl more t Ha Hp) as H.
  change (layout []) with (@nil byte) in H. change (recovery_loop P (t_asks t) [] t) with (prompt_recovery_code P t) in H.
  fold t1 in H. destruct (decode P code pp) as [v|e|]; cbn [outcome_of] in H.
  - rewrite (bind_ok _ _ _ _ _ H). apply finish_line; [reflexivity|]. apply Hr.
  - rewrite (bind_err _ _ _ _ _ H). reflexivity.
  - rewrite (bind_panic _ _ _ _ H). reflexivity.
Qed.

(** * Sequences of processes *)

Lemma no_reset a o : (forall y, a_command a <> SetPrimary y) -> session_calls E (a_command a) o -> is_reset o = false.
Proof.
  intros Ha Ho. destruct o; try reflexivity. exfalso. unfold session_calls in Ho.
  destruct (a_command a) eqn:Ec; try (destruct Ho as [(y & Hy) _]; first [discriminate Hy|injection Hy as ->; exact (Ha _ eq_refl)]).
  destruct Ho as [Ho|(line & c' & _ & Hn & [(y & ->) _])]; [discriminate Ho|]. apply Hn, I.
Qed.

Lemma calm_run_app l1 : forall l2 s, calm_run P l1 s -> calm_run P l2 (snd (run P l1 s)) -> calm_run P (l1 ++ l2) s.
Proof.
  induction l1 as [|o l1 IH]; intros l2 s H1 H2; [exact H2|]. destruct H1 as [Ho H1]. split; [exact Ho|]. apply IH; [exact H1|].
  cbn [run] in H2. destruct (exec P o s) as [r s']. cbn [snd]. destruct (run P l1 s'). exact H2.
Qed.
Lemma calm_run_free l : Forall (fun o => is_reset o = false) l -> forall s, calm_run P l s.
Proof. induction 1 as [|o l Ho Hl IH]; intros s; [exact I|]. split; [destruct o; try exact I; discriminate Ho|apply IH]. Qed.

(** The calls of a process; if it resets, then it does so while locked. *)
Lemma main_calls_calm a t : externals_valid E -> command_valid (a_command a) -> typed_valid t ->
  exists l, Forall (fun o => op_valid o /\ (o = Restart \/ o = Lock \/ session_calls E (a_command a) o)) (Restart :: l) /\
    t_st (snd (main P E path a t)) = snd (run P (Restart :: l) (t_st t)) /\ calm_run P (Restart :: l) (t_st t).
Proof.
  intros HE Hc Ht. destruct (match a_command a with SetPrimary _ => true | _ => false end) eqn:Ep.
  - destruct a as [sp c]. cbn [a_command] in *. destruct c; try discriminate Ep. rewrite set_primary_main.
    assert (forall t0, t_st t0 = snd (exec P Restart (t_st t)) -> exists l, Forall (fun o => exists q, o = Reset q /\ 6 <= length q) l /\ length l <= 1 /\
      t_st (snd (set_primary_cmd P path sp t0)) = snd (run P (Restart :: l) (t_st t))) as G.
    { intros t0 E0. pose proof (set_primary_cases P path sp t0) as H. destruct (set_primary_cmd P path sp t0) as [r t']. cbn [snd].
      destruct H as [H|(c & c2 & es & _ & Hl & _ & H)].
      - exists []. split; [constructor|]. split; [cbn; lia|]. rewrite H, E0. rewrite run_one. reflexivity.
      - exists [Reset (trim c)]. split; [constructor; [eauto|constructor]|]. split; [cbn; lia|]. rewrite H, E0.
        change [Restart; Reset (trim c)] with ([Restart] ++ [Reset (trim c)]). rewrite run_app, !run_one. reflexivity. }
    assert (exists l, Forall (fun o => exists q, o = Reset q /\ 6 <= length q) l /\ length l <= 1 /\
      t_st (snd (if asks_first P t assume_yes
        then match t_confirms t with
             | [] => (CStuck, begins P t)
             | NO :: l => (COk tt, answered l (begins P t))
             | _ :: l => set_primary_cmd P path sp (answered l (begins P t))
             end
        else set_primary_cmd P path sp (begins P t))) = snd (run P (Restart :: l) (t_st t))) as (l & Hl & Hlen & Hst).
    { assert (exists l, Forall (fun o => exists q, o = Reset q /\ 6 <= length q) l /\ length l <= 1 /\
        snd (exec P Restart (t_st t)) = snd (run P (Restart :: l) (t_st t))) as G0.
      { exists []. split; [constructor|]. split; [cbn; lia|]. rewrite run_one. reflexivity. }
      destruct (asks_first P t assume_yes); [|apply G; reflexivity].
      destruct (t_confirms t) as [|[| |q] k]; [exact G0|apply G; reflexivity|exact G0|apply G; reflexivity]. }
    match goal with |- context [ends ?x] => set (r := x) in * end.
    exists (l ++ match fst r with COk _ | CErr _ => [Lock] | _ => [] end).
    split; [|split].
    + constructor; [split; [exact I|auto]|]. apply Forall_app. split.
      * eapply List.Forall_impl; [|exact Hl]. intros o (q & -> & Hq). split; [exact I|]. right. right. cbn. eauto.
      * destruct (fst r); constructor; try constructor; cbn; auto.
    + rewrite app_comm_cons, run_app. cbn [snd]. rewrite <- Hst.
      destruct r as [[u|m| |] t']; cbn [fst snd ends]; try reflexivity; rewrite run_one; reflexivity.
    + rewrite app_comm_cons. apply calm_run_app; [|apply calm_run_free; destruct (fst r); repeat constructor].
      split; [exact I|]. destruct l as [|o [|? ?]]; [exact I| |cbn in Hlen; lia]. apply Forall_inv in Hl. destruct Hl as (q & -> & _).
      split; [|exact I]. intros Hu. discriminate Hu.
  - destruct (main_calls P E path a t HE Hc Ht) as (l & Hl & E1). eexists. split; [|split; [exact E1|]].
    + constructor; [split; [exact I|auto]|]. apply Forall_app. split.
      * eapply List.Forall_impl; [|exact Hl]. intros o [Ho1 Ho2]. auto.
      * destruct (fst (main P E path a t)); constructor; try constructor; cbn; auto.
    + apply calm_run_free. constructor; [reflexivity|]. apply Forall_app. split.
      * eapply List.Forall_impl; [|exact Hl]. intros o [Ho1 _]. apply (no_reset a o); [|exact Ho1]. intros y Hy. rewrite Hy in Ep. discriminate Ep.
      * destruct (fst (main P E path a t)); repeat constructor.
Qed.

Lemma processes_calls : externals_valid E -> forall l s, Forall process_valid l ->
  exists ops, processes P E path l s = snd (run P ops s) /\ Forall op_valid ops /\
    hd_error ops = match l with [] => None | _ => Some Restart end /\
    Forall (fun o => o = Restart \/ o = Lock \/ exists a t, In (a, t) l /\ session_calls E (a_command a) o) ops /\
    calm_run P ops s.
Proof.
  intros HE. induction l as [|[a t] l IH]; intros s HF.
  - exists []. repeat split; constructor.
  - inversion HF as [|? ? [Hc Ht] HF']; subst. cbn [fst snd] in Hc, Ht. cbn [processes].
    destruct (main_calls_calm a (with_st s t) HE Hc Ht) as (l1 & H1 & E1 & C1). change (t_st (with_st s t)) with s in E1, C1.
    destruct (IH (t_st (snd (main P E path a (with_st s t)))) HF') as (ops & E2 & Hv & _ & Hk & C2).
    set (ops1 := Restart :: l1) in *.
    exists (ops1 ++ ops). rewrite run_app. cbn [snd]. rewrite <- E1. split; [exact E2|].
    split; [|split; [reflexivity|split]].
    + apply Forall_app. split; [|exact Hv]. eapply List.Forall_impl; [|exact H1]. intros o [Ho _]. exact Ho.
    + apply Forall_app. split; [eapply List.Forall_impl; [|exact H1]|eapply List.Forall_impl; [|exact Hk]].
      * intros o [_ [Ho|[Ho|Ho]]]; auto. right. right. exists a, t. split; [left; reflexivity|exact Ho].
      * intros o [Ho|[Ho|(a' & t' & Hi & Ho)]]; auto. right. right. exists a', t'. split; [right; exact Hi|exact Ho].
    + apply calm_run_app; [exact C1|]. rewrite <- E1. exact C2.
Qed.

(** * What only [reset] changes *)

Definition steady (slot : bytes) (x : option bytes) (s : st) : Prop :=
  texts (s_data s) /\ whole s /\ (forall d, load P (s_disk s) = Ok d -> d !! slot = x) /\
  (s_data s !! slot = x \/ (s_data s = ∅ /\ locked s)).

Lemma steady_step slot x o s : prims_ok P -> slot = bs "salt" \/ slot = bs "hmac-secret" -> is_reset o = false ->
  steady slot x s -> steady slot x (snd (exec P o s)).
Proof.
  intros HP Hslot Hr (Ht & Hw & Hd & Hx). destruct (modifies o) eqn:Em.
  - assert (needs_secrets o = true) as Hn by (destruct o; try discriminate; try reflexivity; destruct l; [discriminate|reflexivity]).
    destruct Hx as [Hx|[He Hl]]; [|rewrite (locked_exec P o s Hl Hn); cbn [snd]; exact (conj Ht (conj Hw (conj Hd (or_intror (conj He Hl)))))].
    destruct (exec_disk P o s HP) as (Hdisk & Htexts & _). specialize (Htexts Ht).
    assert (s_data (snd (exec P o s)) !! slot = x) as Hx'.
    { rewrite <- Hx. apply exec_frame; try assumption. intros Hto. apply touched_not_reserved in Hto.
      destruct Hto as [H1 H2]. destruct Hslot; contradiction. }
    split; [exact Htexts|]. split; [apply exec_secrets; assumption|]. split; [|left; exact Hx'].
    intros d Hload. destruct Hdisk as [Hdisk|(_ & p & q & Hp & Hdisk)]; rewrite Hdisk in Hload; [exact (Hd d Hload)|].
    destruct q as [|b q].
    + rewrite app_nil_r in Hp. rewrite <- Hp in Hload. rewrite (load_flush P _ HP Htexts) in Hload. injection Hload as <-. exact Hx'.
    + exfalso. assert (b :: q <> []) as Hq by discriminate. destruct (load_prefix P _ p (b :: q) Htexts Hp Hq) as [E1|E1]; congruence.
  - destruct (reading o) eqn:Er.
    + destruct (exec_reading P o s Er) as ((E1 & E2 & E3 & _) & _). unfold steady, whole, locked in *. unfold secrets in *.
      injection E2 as -> -> ->. rewrite E1, E3. auto.
    + destruct o; try discriminate Em; try discriminate Er; try discriminate Hr.
      * destruct (unlock_cases P pp s) as [[H1 (key & h & Hs & Hdat & Hdisk)]|[_ ->]]; [|exact (conj Ht (conj Hw (conj Hd Hx)))].
        destruct Hx as [Hx|[He Hl]].
        -- split; [rewrite Hdat; exact Ht|]. split; [right; eauto|]. split; [rewrite Hdisk; exact Hd|left; rewrite Hdat; exact Hx].
        -- exfalso. cbn [exec] in H1. unfold unlock, bindM, reads, lift, get_salt, io_get in H1. rewrite He, lookup_empty in H1. discriminate H1.
      * split; [exact Ht|]. split; [left; repeat split|]. split; [exact Hd|]. destruct Hx as [Hx|[He _]]; [left; exact Hx|right].
        split; [exact He|repeat split].
      * cbn [exec snd passwords_new]. unfold steady. cbn [s_data s_disk]. split.
        { destruct (load P (s_disk s)) as [d|e|] eqn:El; [exact (load_texts _ _ _ El)|apply texts_empty..]. }
        split; [left; repeat split|]. split; [exact Hd|].
        destruct (load P (s_disk s)) as [d|e|] eqn:El; [left; apply Hd; reflexivity|right; split; [reflexivity|repeat split]..].
      * destruct l; discriminate.
Qed.

Lemma processes_steady l s d d' : prims_ok P -> externals_valid E -> Forall process_valid l ->
  Forall (fun p => forall y, a_command (fst p) <> SetPrimary y) l ->
  load P (s_disk s) = Ok d -> load P (s_disk (processes P E path l s)) = Ok d' ->
  d' !! bs "salt" = d !! bs "salt" /\ d' !! bs "hmac-secret" = d !! bs "hmac-secret".
Proof.
  intros HP HE HF Hno Hd Hd'.
  (* the first process starts with what it finds in the file *)
  destruct l as [|[a t] l]; [cbn in Hd'; rewrite Hd in Hd'; injection Hd' as ->; auto|].
  destruct (processes_calls HE ((a, t) :: l) s HF) as (ops & Er & _ & Hh & Hk & _). rewrite Er in Hd'.
  destruct ops as [|o ops]; [discriminate Hh|]. injection Hh as ->. apply Forall_inv_tail in Hk.
  assert (snd (run P (Restart :: ops) s) = snd (run P ops (snd (exec P Restart s)))) as Es.
  { cbn [run]. destruct (exec P Restart s) as [r1 s1]. cbn [snd]. destruct (run P ops s1). reflexivity. }
  rewrite Es in Hd'. clear Es. set (s1 := snd (exec P Restart s)) in *.
  assert (Forall (fun o => is_reset o = false) ops) as Hnr.
  { eapply List.Forall_impl; [|exact Hk]. intros o [->|[->|(a' & t' & Hi & Ho)]]; try reflexivity.
    rewrite List.Forall_forall in Hno. exact (no_reset a' o (Hno _ Hi) Ho). }
  assert (forall slot, slot = bs "salt" \/ slot = bs "hmac-secret" -> d' !! slot = d !! slot) as H; [|split; apply H; auto].
  intros slot Hslot. assert (steady slot (d !! slot) s1) as Hs1.
  { unfold s1. cbn [exec snd passwords_new]. unfold steady. cbn [s_data s_disk]. rewrite Hd. split; [exact (load_texts _ _ _ Hd)|].
    split; [left; repeat split|]. split; [intros d0 Hd0; change (load P (s_disk s) = Ok d0) in Hd0; congruence|left; reflexivity]. }
  clear Hk Er. revert Hd' Hs1. generalize s1. clear s1. induction Hnr as [|o ops Ho Hnr IH]; intros s1 Hd' Hs1.
  - destruct Hs1 as (_ & _ & H & _). apply H, Hd'.
  - cbn [run] in Hd'. pose proof (steady_step slot _ o s1 HP Hslot Ho Hs1) as Hs2. destruct (exec P o s1) as [r s2]. cbn [snd] in Hs2.
    apply (IH s2); [|exact Hs2]. destruct (run P ops s2). exact Hd'.
Qed.
End lives.
