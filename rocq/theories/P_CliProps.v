(** The command line program: consequences. *)
From Coq Require Import Permutation ZArith ZifyBool ZifyNat ZifyN.
From stdpp Require Import gmap.
From Verif Require Import M_Base M_Base64 M_Utf8 M_Prims M_Types M_Crypto M_Recovery M_Json M_Serde M_Storage M_Passwords S_Json S_Serde
  S_Recovery S_Vault M_History S_Api S_History P_Base P_Utf8 P_Json P_Serde P_File P_Storage P_Api P_Calls P_Sound
  M_Cli S_Cli P_CliBase P_CliCalls P_CliUnlock P_CliCommands P_CliMain P_CliRecovery P_CliList P_CliVault P_CliLives P_CliWorld.

Lemma no_newline_text s : existsb (Byte.eqb newline) s = false -> ~ In newline s.
Proof.
  intros H Hin. assert (existsb (Byte.eqb newline) s = true); [|congruence]. apply existsb_exists. exists newline. split; [exact Hin|reflexivity].
Qed.

Section props.
Context (P : prims) (E : externals) (path : bytes).

(** Commands start once the passwords are unlocked. *)
Lemma command_ensures sp c t : ~ refused c ->
  let '(r, t1) := ensure_unlocked P sp t in
  match r with
  | COk _ => initialized (t_st t1) = true /\ unlocked (t_st t1) = true /\ process_simple P E path sp c t = process_simple P E path sp c t1
  | CErr m => process_simple P E path sp c t = (CErr m, t1)
  | CPanic => process_simple P E path sp c t = (CPanic, t1)
  | CStuck => process_simple P E path sp c t = (CStuck, t1)
  end.
Proof.
  intros Hr. pose proof (ensure_cases P sp t) as Hc. destruct (ensure_unlocked P sp t) as [r t1] eqn:Eu.
  destruct r as [[]|m| |].
  - assert (initialized (t_st t1) = true /\ unlocked (t_st t1) = true) as [H1 H2]; [|repeat split; try assumption; apply simple_after; assumption].
    destruct Hc as [([=] & _)|(Hi & [(_ & -> & Hu)|(Hu & [(_ & c' & es & _ & _ & _ & Hx)|([[=]|[=]] & _)])])]; [auto|].
    destruct (unlock_cases P (trim c') (t_st t)) as [[_ (k & h & Hs & Hd & _)]|[Hn _]]; rewrite Hx in *; cbn [fst snd] in *; [|contradiction].
    split; [unfold initialized in *; rewrite Hd; exact Hi|]. unfold unlocked. unfold secrets in Hs. injection Hs as -> _ _. reflexivity.
  - rewrite simple_fails; [exact Eu|exact Hr|rewrite Eu; discriminate].
  - rewrite simple_fails; [exact Eu|exact Hr|rewrite Eu; discriminate].
  - rewrite simple_fails; [exact Eu|exact Hr|rewrite Eu; discriminate].
Qed.

(** If it does not end, then no number of rounds is enough. *)
Lemma ensure_stuck sp t : fst (ensure_unlocked P sp t) = CStuck -> forall f, fst (unlock_loop f P sp t) = CStuck.
Proof.
  intros H f. destruct (initialized (t_st t)) eqn:Hi; [|rewrite ensure_new in H by exact Hi; discriminate H].
  destruct (unlocked (t_st t)) eqn:Hu; [rewrite ensure_done in H by assumption; discriminate H|].
  destruct (entered_exist sp t) as (es & He & _). destruct (first_accepted P (t_st t) es) as (bad & msgs & rest & Hb & -> & Hr).
  destruct rest as [|x rest].
  - rewrite app_nil_r in He. exact (proj1 (loop_stuck P sp f t bad msgs Hu Hb He)).
  - exfalso. pose proof (ensure_asks P sp t bad msgs x rest Hi Hu He Hb) as Ha. destruct x as [c|].
    + destruct Ha as (_ & _ & [(Ha & _)|(Ha & _)]); [intros c0 m [= <-]; apply Hr|congruence..].
    + destruct Ha as (Ha & _); [intros c m [=]|congruence].
Qed.

(** A process that was not allowed to overwrite a password leaves the file as it is. *)
Lemma unconfirmed_process p sp t bad msgs c es cmd x n r : fst (exec P (Unlock p) (snd (exec P Restart (t_st t)))) = ODone -> 6 <= length p ->
  t_buf t = [] -> entered sp t (map Some bad ++ Some c :: es) -> trim c = p -> Forall2 (rejected P (snd (exec P Restart (t_st t)))) bad msgs ->
  (exists len a b d e, cmd = Add x n r len a b d e false) \/ (exists rc, cmd = AddStored x n r rc false) ->
  fst (exec P (Has x n r) (snd (run P [Restart; Unlock p] (t_st t)))) = OBool true -> (forall q l, t_confirms t = q :: l -> q = NO) ->
  s_disk (t_st (snd (main P E path (mk_args sp cmd) t))) = s_disk (t_st t).
Proof.
  intros Hu Hl Hb He Ec Hrej Hcmd Hhas Hno.
  destruct (opens_with P E path p sp t bad msgs c es Hu Hl Hb He Ec Hrej) as (t1 & Ho & Hm).
  rewrite Hm by (destruct Hcmd as [(len & a & b & d & e & ->)|(rc & ->)]; intros []). rewrite ends_disk.
  rewrite <- (ob_st _ _ _ _ _ _ _ Ho) in Hhas.
  assert (forall q l, t_confirms t1 = q :: l -> q = NO) as Hno1 by (rewrite (as_confirms _ _ _ _ (ob_asked _ _ _ _ _ _ _ Ho)); exact Hno).
  destruct (unconfirmed P E path sp cmd x n r t1 (ob_ready _ _ _ _ _ _ _ Ho) Hcmd Hhas Hno1) as [-> _].
  rewrite (ob_st _ _ _ _ _ _ _ Ho). change [Restart; Unlock p] with ([Restart] ++ [Unlock p]). rewrite run_app, !run_one. cbn [snd].
  destruct (unlock_cases P p (snd (exec P Restart (t_st t)))) as [[_ (k & h & _ & _ & Hd)]|[_ ->]]; [rewrite Hd; reflexivity|reflexivity].
Qed.

(** Once the file is written, [Reset] leaves nothing but the salt and the secret, in memory and in the file. *)
Lemma reset_done pp s : prims_ok P -> p_write P (s_flushes s) = WriteOk ->
  fst (exec P (Reset pp) s) = ODone /\ s_disk (snd (exec P (Reset pp) s)) = Some (flush_text P (snd (exec P (Reset pp) s))) /\
  texts (s_data (snd (exec P (Reset pp) s))) /\
  forall slot, s_data (snd (exec P (Reset pp) s)) !! slot <> None -> slot = bs "salt" \/ slot = bs "hmac-secret".
Proof.
  intros HP Hw. destruct (reset_cases P pp s HP) as (s1 & _ & _ & Hf & _ & Ht & _ & Hk & Hc).
  destruct (flush_facts P s1) as (F1 & _ & _ & _ & _ & _ & F7 & _). rewrite Hf in F7. apply F7 in Hw.
  assert (fst (exec P (Reset pp) s) = ODone) as Hd.
  { destruct Hc as [(_ & H & _)|(Hn & E0)]; [exact H|]. exfalso. apply Hn. rewrite E0. unfold done_out.
    destruct (flush P s1) as [f s2]. cbn [fst] in Hw. subst f. reflexivity. }
  split; [exact Hd|]. split; [exact (proj1 (proj2 (proj2 (exec_disk P (Reset pp) s HP))) Hd eq_refl)|].
  destruct Hc as [(_ & _ & E0)|(Hn & _)]; [|contradiction].
  assert (s_data (snd (exec P (Reset pp) s)) = s_data s1) as -> by (rewrite E0; cbn [set_secrets snd s_data]; exact F1).
  split; [exact Ht|]. intros slot Hs. apply Hk. destruct (s_data s1 !! slot) as [c|]; [exists c; reflexivity|contradiction].
Qed.

(** Without a usable file the primary password is set without a question, whatever the file contains. *)
Lemma set_primary_unasked sp t c c2 es e : prims_ok P -> load P (s_disk (t_st t)) = Err e -> t_buf t = [] ->
  entered sp t (Some c :: Some c2 :: es) -> trim c = trim c2 -> 6 <= length (trim c) -> p_write P (s_flushes (t_st t)) = WriteOk ->
  exists t', main P E path (mk_args sp (SetPrimary false)) t = (Success, t') /\ t_confirms t' = t_confirms t /\
    t_st t' = snd (run P [Restart; Reset (trim c); Lock] (t_st t)) /\
    exists d, load P (s_disk (t_st t')) = Ok d /\ forall slot, d !! slot <> None -> slot = bs "salt" \/ slot = bs "hmac-secret".
Proof.
  intros HP Hl Hb He Ec H6 Hw. rewrite set_primary_main. unfold asks_first. rewrite Hl. cbn [is_ok andb].
  assert (entered sp (begins P t) (Some c :: Some c2 :: es)) as He' by (destruct sp; exact He).
  destruct (set_primary_two P path sp c c2 es (begins P t) He' H6 Hb) as (t1 & t2 & Hp1 & Hp2 & _ & _ & Hf). specialize (Hf Ec).
  unfold finishes in Hf. rewrite (pr_st _ _ _ _ Hp2), (pr_st _ _ _ _ Hp1) in Hf. change (t_st (begins P t)) with (snd (exec P Restart (t_st t))) in Hf.
  set (s := snd (exec P Restart (t_st t))) in *.
  destruct (reset_done (trim c) s HP) as (Hd & Hdisk & Htexts & Hslots); [exact Hw|].
  destruct (exec P (Reset (trim c)) s) as [x s'] eqn:Ex. cbn [fst snd] in *. subst x. rewrite Hf.
  eexists. split; [reflexivity|]. split.
  { cbn. rewrite (pr_confirms _ _ _ _ Hp2), (pr_confirms _ _ _ _ Hp1). reflexivity. }
  split.
  { change [Restart; Reset (trim c); Lock] with ([Restart] ++ [Reset (trim c)] ++ [Lock]). rewrite !run_app, !run_one. cbn [snd].
    fold s. rewrite Ex. reflexivity. }
  exists (s_data s'). split; [|exact Hslots]. cbn. rewrite Hdisk. apply load_flush; assumption.
Qed.

(** The password shown is not on a line of its own. *)
Lemma own_line sp x n r t p : ready t -> fst (exec P (Get x n r) (t_st t)) = OText p -> p <> [] -> ~ In newline p ->
  exists text, process_simple P E path sp (Show x n r false) t = (COk tt, show_text text t) /\ ~ In p (split_on newline text).
Proof.
  intros Hr Hg Hp Hn. rewrite show_shows, Hg by exact Hr. eexists. split; [reflexivity|].
  rewrite app_assoc. rewrite split_cons; [|].
  - change (split_on newline []) with [@nil byte]. intros [H|[H|[]]]; [|congruence].
    pose proof (f_equal (@length byte) H) as Hl. rewrite app_length in Hl. cbn in Hl. lia.
  - intros H. apply in_app_or in H. destruct H as [H|H]; [|contradiction]. revert H. apply no_newline_text. reflexivity.
Qed.
End props.
