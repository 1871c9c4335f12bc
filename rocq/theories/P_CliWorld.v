(** The command line program: processes after any history of calls. *)
From Coq Require Import Permutation ZArith ZifyBool ZifyNat ZifyN.
From stdpp Require Import gmap.
From Verif Require Import M_Base M_Base64 M_Utf8 M_Prims M_Types M_Crypto M_Recovery M_Json M_Serde M_Storage M_Passwords S_Json S_Serde
  S_Recovery S_Vault M_History S_Api S_History P_Base P_Utf8 P_Json P_Serde P_File P_Storage P_Vault P_History P_Api P_Calls P_Props P_Sound
  M_Cli S_Cli P_CliBase P_CliCalls P_CliUnlock P_CliCommands P_CliMain P_CliRecovery P_CliList P_CliVault P_CliLives.

Section opening.
Context (P : prims) (E : externals) (path : bytes).

Lemma unlock_initialized p s : fst (exec P (Unlock p) s) = ODone -> initialized s = true.
Proof.
  cbn [exec]. unfold unlock, bindM, reads, lift, get_salt, get_hmac_secret, initialized, storage_initialized.
  destruct (s_data s !! SALT_KEY) as [c|] eqn:E1; [|discriminate]. cbn [ok_or bind].
  destruct (b64_decode c) as [salt|]; [|discriminate]. cbn [ok_or bind].
  destruct (get_encryption_key P p salt) as [key|e|]; [|discriminate..]. cbn [ok_or bind].
  destruct (s_data s !! HMAC_SECRET_KEY) as [d|] eqn:E2; [|discriminate]. intros _.
  unfold io_contains. rewrite E1, E2. reflexivity.
Qed.

(** What happens until the passwords are unlocked. *)
Lemma opens_with p sp t bad msgs c es : fst (exec P (Unlock p) (snd (exec P Restart (t_st t)))) = ODone -> 6 <= length p ->
  t_buf t = [] -> entered sp t (map Some bad ++ Some c :: es) -> trim c = p ->
  Forall2 (rejected P (snd (exec P Restart (t_st t)))) bad msgs ->
  exists t1, opened_by P p msgs sp es t t1 /\
    forall cmd, ~ refused cmd -> main P E path (mk_args sp cmd) t = ends (process_simple P E path sp cmd t1).
Proof.
  intros Hdone Hl Eb He Ec Hrej. set (s := snd (exec P Restart (t_st t))) in *.
  assert (initialized s = true) as Hi by exact (unlock_initialized _ _ Hdone).
  assert (exists d, load P (s_disk (t_st t)) = Ok d) as (d & Hd).
  { destruct (load P (s_disk (t_st t))) as [d|e|] eqn:El; [eauto|exfalso..];
      unfold s in Hi; cbn [exec snd] in Hi; rewrite El in Hi; unfold initialized, storage_initialized, io_contains in Hi; cbn [s_data passwords_new] in Hi;
      rewrite lookup_empty in Hi; discriminate Hi. }
  assert (entered sp (begins P t) (map Some bad ++ Some c :: es)) as He' by (destruct sp; exact He).
  pose proof (ensure_asks P sp (begins P t) bad msgs (Some c) es Hi eq_refl He' Hrej) as H. cbv beta iota in H.
  change (t_st (begins P t)) with s in H. rewrite Ec in H.
  destruct H as (_ & H2 & [(H3 & _ & H5 & H6 & H7)|(_ & H3)]).
  { intros c' m [= <-] Hx. inversion Hx; subst; [lia|]. unfold s in *. change (t_st (begins P t)) with (snd (exec P Restart (t_st t))) in *. congruence. }
  - set (t1 := snd (ensure_unlocked P sp (begins P t))) in *. exists t1. split.
    + constructor.
      * unfold ready. rewrite H2. destruct (unlock_cases P p s) as [[_ (k & h & Hs & Hdat & _)]|[Hn _]]; [|contradiction].
        split; [unfold initialized in *; rewrite Hdat; exact Hi|]. split; [|rewrite (as_buf _ _ _ _ H7); exact Eb].
        pose proof (f_equal (fun x => fst (fst x)) Hs) as Hk. change (s_key (snd (exec P (Unlock p) s)) = Some k) in Hk.
        unfold unlocked. rewrite Hk. reflexivity.
      * rewrite H2. unfold s. change [Restart; Unlock p] with ([Restart] ++ [Unlock p]). rewrite run_app, !run_one. reflexivity.
      * rewrite <- (Forall2_length _ _ _ Hrej). destruct H7. constructor; assumption.
      * exact H6.
      * exact H5.
    + intros cmd Hr. rewrite (main_command P E path sp cmd t d Hd); [|intros y ->; exact (Hr I)].
      f_equal. destruct cmd; try (destruct (Hr I)); cbn [process_command]; apply simple_after; try exact Hr;
        rewrite (surjective_pairing (ensure_unlocked P sp (begins P t))), H3; reflexivity.
  - exfalso. congruence.
Qed.

(** A process that makes a call after that. *)
Lemma call_process p msgs sp es t t1 t2 cmd o line : opened_by P p msgs sp es t t1 ->
  main P E path (mk_args sp cmd) t = ends (process_simple P E path sp cmd t1) -> t_st t2 = t_st t1 ->
  finishes P o line t2 (process_simple P E path sp cmd t1) ->
  let '(x, t') := main P E path (mk_args sp cmd) t in
  match fst (exec P o (t_st t1)) with
  | ODone => x = Success /\ t_st t' = snd (run P [Restart; Unlock p; o; Lock] (t_st t)) /\
      t_shown t' = t_shown t2 ++ line ++ [newline] ++ t_buf t2 /\ t_err t' = t_err t2
  | OErr e => x = Failure /\ t_st t' = snd (run P [Restart; Unlock p; o; Lock] (t_st t)) /\
      t_shown t' = t_shown t2 ++ t_buf t2 /\ t_err t' = t_err t2 ++ [Lib e]
  | _ => x = Aborted
  end.
Proof.
  intros Ho Hm E2 Hf. rewrite Hm. unfold finishes in Hf. rewrite E2 in Hf.
  assert (snd (run P [Restart; Unlock p; o; Lock] (t_st t)) = snd (lock (snd (exec P o (t_st t1))))) as Er.
  { change [Restart; Unlock p; o; Lock] with ([Restart; Unlock p] ++ [o] ++ [Lock]). rewrite run_app. cbn [snd].
    rewrite <- (ob_st _ _ _ _ _ _ _ Ho), run_app, !run_one. reflexivity. }
  rewrite Er. destruct (exec P o (t_st t1)) as [x s]. cbn [fst snd]. destruct x; rewrite Hf; cbn; try reflexivity.
  - repeat split. rewrite <- !app_assoc. reflexivity.
  - repeat split.
Qed.
End opening.

Section world.
Context (P : prims) (E : externals) (path : bytes).
Context (sc : scope) (l : list op) (s0 : st) (So : sound P sc l s0).
Notation s1 := (snd (run P l s0)).
Notation Holds := (holds P sc l s0).

Section file.
Context (wrs : list write) (R : srep P (sc_sites sc) (sc_ids sc) (sc_pws sc) (s_rand s1) s1 (fst (vrun P wrs nothing l))).

(** The file, as a new process finds it. *)
Lemma file_found :
  match w_file (fst (vrun P wrs nothing l)) with
  | None => exists e, load P (s_disk s1) = Err e
  | Some (p, v) => revs v /\ (exists d, load P (s_disk s1) = Ok d) /\
      let s := snd (exec P Restart s1) in
      initialized s = true /\ unlocked s = false /\
      (covered sc (Unlock p) -> fst (exec P (Unlock p) s) = ODone /\ Holds (snd (exec P (Unlock p) s)) p v) /\
      (forall q, covered sc (Unlock q) -> q <> p -> fst (exec P (Unlock q) s) = OErr DecryptionFailure)
  end.
Proof.
  pose proof (vrun_revs P l wrs) as [_ Hrevs].
  assert (covered sc Restart) as HcR by (repeat split; intros ? []).
  destruct (sound_step P sc l s0 So Restart _ _ R HcR eq_refl) as (wr & _ & R1 & _).
  cbn [vstep fst] in R1. pose proof R as [_ F]. destruct (w_file (fst (vrun P wrs nothing l))) as [[p v]|] eqn:Ef; cbn [file_rep] in F.
  - split; [exact (Hrevs _ _ eq_refl)|]. destruct F as (i & d & Hd & _). split; [eauto|].
    cbv zeta. set (s := snd (exec P Restart s1)) in *. split.
    { pose proof (init_rep P sc l s0 So s _ R1) as H. cbn [exec fst w_mem] in H. congruence. }
    split; [reflexivity|]. split.
    + intros Hc. destruct (sound_step P sc l s0 So (Unlock p) _ _ R1 Hc eq_refl) as (wr2 & _ & R2 & H2).
      cbn [vstep w_mem] in R2, H2. rewrite bytes_eqb_refl in R2, H2. cbn in R2, H2. split; [exact H2|]. eexists. exact R2.
    + intros q Hc Hq. destruct (sound_step P sc l s0 So (Unlock q) _ _ R1 Hc eq_refl) as (wr2 & _ & _ & H2).
      cbn [vstep w_mem] in H2. apply bytes_eqb_neq in Hq. rewrite Hq in H2. exact H2.
  - destruct (load P (s_disk s1)) as [d|e|] eqn:El; [discriminate F|eauto|]. exfalso. exact (load_no_panic P _ El).
Qed.

(** What happens until the passwords are unlocked. *)
Lemma opens :
  match w_file (fst (vrun P wrs nothing l)) with
  | None => forall sp cmd t, t_st t = s1 -> (forall y, cmd <> SetPrimary y) ->
      exists e, main P E path (mk_args sp cmd) t = (Failure, ended (complained (Lib e) (begins P t)))
  | Some (p, v) => covered sc (Unlock p) -> 6 <= length p ->
      forall sp t bad c es, t_st t = s1 -> t_buf t = [] ->
      entered sp t (map Some bad ++ Some c :: es) -> trim c = p ->
      Forall (fun b => length (trim b) < 6 \/ (covered sc (Unlock (trim b)) /\ trim b <> p)) bad ->
      exists t1, opened_by P p (map complaint bad) sp es t t1 /\ Holds (t_st t1) p v /\ revs v /\
        forall cmd, ~ refused cmd -> main P E path (mk_args sp cmd) t = ends (process_simple P E path sp cmd t1)
  end.
Proof.
  pose proof file_found as H.
  destruct (w_file (fst (vrun P wrs nothing l))) as [[p v]|].
  - destruct H as (Hrev & (d & Hd) & Hi & Hu & Hopen & Hwrong). intros Hc Hl sp t bad c es Et Eb He Ec Hbad.
    destruct (Hopen Hc) as [Hdone HH]. clear Hopen. set (s := snd (exec P Restart s1)) in *.
    assert (t_st (begins P t) = s) as Es by (unfold s; rewrite <- Et; reflexivity).
    assert (entered sp (begins P t) (map Some bad ++ Some c :: es)) as He' by (destruct sp; exact He).
    assert (Forall2 (rejected P (t_st (begins P t))) bad (map complaint bad)) as Hrej.
    { rewrite Es. clear He He'. induction Hbad as [|b bad Hb Hbad IH]; [constructor|]. cbn [map]. constructor; [|exact IH].
      unfold complaint. destruct (length (trim b) <? 6) eqn:El.
      - apply too_short. lia.
      - destruct Hb as [Hb|[Hb1 Hb2]]; [lia|]. apply wrong; [lia|]. exact (Hwrong _ Hb1 Hb2). }
    unfold s in Hdone. rewrite <- Et in Hdone.
    destruct (opens_with P E path p sp t bad _ c es Hdone Hl Eb He Ec Hrej) as (t1 & Ho & Hm).
    exists t1. split; [exact Ho|]. split; [|split; [exact Hrev|exact Hm]].
    rewrite (ob_st _ _ _ _ _ _ _ Ho), Et. change [Restart; Unlock p] with ([Restart] ++ [Unlock p]). rewrite run_app, !run_one. exact HH.
  - destruct H as (e & He). intros sp cmd t Et Hc. exists e. apply main_unreadable; [rewrite Et; exact He|exact Hc].
Qed.

(** * Showing passwords and notes, listing *)

Lemma show_process p v : w_file (fst (vrun P wrs nothing l)) = Some (p, v) -> covered sc (Unlock p) -> 6 <= length p ->
  forall sp t bad c es, t_st t = s1 -> t_buf t = [] -> entered sp t (map Some bad ++ Some c :: es) -> trim c = p ->
  Forall (fun b => length (trim b) < 6 \/ (covered sc (Unlock (trim b)) /\ trim b <> p)) bad ->
  exists t1, opened_by P p (map complaint bad) sp es t t1 /\
  (forall x n r, covered sc (Has x n r) ->
    main P E path (mk_args sp (Show x n r false)) t =
    match v_pw v !! (target v x, n, rev_of r) with
    | Some e => match reveal P p (target v x, n, rev_of r) (e_secret e) with
                | OText text => (Success, ended (show_text (bs "Password retrieved." ++ text ++ [newline]) t1))
                | OErr err => (Failure, ended (complained (Lib err) t1))
                | _ => (Aborted, t1)
                end
    | None => (Failure, ended (complained (Lib KeyMissing) t1))
    end) /\
  (forall x n r, covered sc (Has x n r) ->
    main P E path (mk_args sp (Notes x n r false)) t =
    match v_pw v !! (target v x, n, rev_of r) with
    | Some e => (Success, ended (show_text (notes_text (e_notes e)) t1))
    | None => (Failure, ended (complained (Lib KeyMissing) t1))
    end) /\
  (forall x, covered sc (GetAlias x) ->
    main P E path (mk_args sp (Alias x None false)) t =
    match v_sites v !! host x with
    | Some (Some a) => (Success, ended (show_text (bs "'" ++ x ++ bs "' is an alias for '" ++ a ++ bs "'." ++ [newline]) t1))
    | _ => (Failure, ended (complained (Lib NoSuchAlias) t1))
    end) /\
  ((forall x, In x (sc_sites sc) -> host x = x) -> forall domain name sh rc vb, chains_match P v domain ->
    exists r, list_goes P sc p v domain name sh rc vb t1 r /\
      main P E path (mk_args sp (List domain name sh rc vb)) t = ends r).
Proof.
  pose proof opens as H. intros Ef Hc Hl sp t bad c es Et Eb He Ec Hbad.
  rewrite Ef in H. destruct (H Hc Hl sp t bad c es Et Eb He Ec Hbad) as (t1 & Ho & HH & Hrev & Hm).
  exists t1. split; [exact Ho|]. pose proof (ob_ready _ _ _ _ _ _ _ Ho) as Hr. split; [|split; [|split]].
  - intros x n r Hcx. rewrite Hm by (intros []). rewrite show_shows by exact Hr.
    rewrite (holds_get P sc l s0 So _ _ _ x n r HH Hcx). destruct (v_pw v !! _) as [e|]; [|reflexivity].
    destruct (reveal P p _ (e_secret e)); reflexivity.
  - intros x n r Hcx. rewrite Hm by (intros []). rewrite notes_shows by exact Hr.
    rewrite (holds_notes P sc l s0 So _ _ _ x n r HH Hcx). destruct (v_pw v !! _) as [e|]; reflexivity.
  - intros x Hcx. rewrite Hm by (intros []). rewrite alias_shows by exact Hr.
    rewrite (holds_alias P sc l s0 So _ _ _ x HH Hcx). destruct (v_sites v !! host x) as [[a|]|]; reflexivity.
  - intros Hhost domain name sh rc vb Hch. eexists. split; [|rewrite Hm by (intros []); reflexivity].
    cbn [process_simple]. exact (list_holds P sc l s0 So (t_st t1) p v sp domain name sh rc vb t1 Hhost HH Hrev Hch Hr eq_refl).
Qed.
End file.
End world.

(** * A password added by one process is shown by the next one *)

Definition adds (x n r : bytes) (o : op) (e : entry) : Prop :=
  (exists text, o = SetStored x n r text /\ e = mk_entry (SFixed text) []) \/
  (exists len cs, o = SetGenerated x n r len cs /\ e = mk_entry (SGenerated len cs) []).

Lemma agrees_done P e : agrees P ODone e -> e = ODone.
Proof.
  destruct e; cbn; intros H; try exact (eq_sym H); try (destruct H as (? & [=] & _)). destruct H as [(? & [=] & _)|([=] & _)].
Qed.
Lemma vstep_unlock P wr f p : snd (vstep P wr (mk_world f false f) (Unlock p)) = ODone ->
  exists v, f = Some (p, v) /\ fst (vstep P wr (mk_world f false f) (Unlock p)) = mk_world f true f.
Proof.
  cbn [vstep w_mem w_file]. destruct f as [[q v]|]; [|discriminate]. destruct (bytes_eqb p q) eqn:E; [|discriminate].
  apply bytes_eqb_eq in E. subst. eauto.
Qed.
Lemma vstep_adds P wr p v f x n r o e : adds x n r o e -> snd (vstep P wr (mk_world (Some (p, v)) true f) o) = ODone ->
  w_file (fst (vstep P wr (mk_world (Some (p, v)) true f) o)) = Some (p, put v (target v x, n, rev_of r) e).
Proof.
  intros [(text & -> & ->)|(len & cs & -> & ->)]; cbn [vstep w_open w_mem]; unfold commit; destruct wr; cbn; intros [=]; reflexivity.
Qed.

Lemma added_file P sc l s0 p o x n r e :
  let l2 := l ++ [Restart; Unlock p; o; Lock] in
  sound P sc l2 s0 -> adds x n r o e -> fst (exec P (Unlock p) (snd (run P (l ++ [Restart]) s0))) = ODone ->
  fst (exec P o (snd (run P (l ++ [Restart; Unlock p]) s0))) = ODone ->
  exists wrs v, srep P (sc_sites sc) (sc_ids sc) (sc_pws sc) (s_rand (snd (run P l2 s0))) (snd (run P l2 s0)) (fst (vrun P wrs nothing l2)) /\
    w_file (fst (vrun P wrs nothing l2)) = Some (p, put v (target v x, n, rev_of r) e).
Proof.
  intros l2 So Ha Hu Hd. destruct (sound_rep P sc l2 s0 So) as (wrs & Hw & R & Ag).
  destruct (writes_app P l _ wrs s0 Hw) as (wrs1 & wrs2 & -> & Hlen & _ & Hw2).
  destruct wrs2 as [|a [|b [|c [|d [|? ?]]]]]; try (cbn in Hw2; tauto).
  unfold l2 in *. rewrite (vrun_app P l _ _ _ _ Hlen) in R, Ag. cbn [fst snd] in R, Ag.
  exists (wrs1 ++ [a; b; c; d]). rewrite (vrun_app P l _ _ _ _ Hlen). cbn [fst].
  rewrite run_app in Ag. cbn [fst] in Ag.
  apply Forall2_app_inv in Ag; [|rewrite run_len, vrun_len; auto]. destruct Ag as [_ Ag].
  set (w := fst (vrun P wrs1 nothing l)) in *. set (s1 := snd (run P l s0)) in *.
  rewrite run_app in Hu. cbn [snd] in Hu. fold s1 in Hu. rewrite run_one in Hu. cbn [snd] in Hu.
  change [Restart; Unlock p] with ([Restart] ++ [Unlock p]) in Hd. rewrite run_app in Hd. cbn [snd] in Hd. fold s1 in Hd.
  rewrite run_app, !run_one in Hd. cbn [snd] in Hd.
  set (sR := snd (exec P Restart s1)) in *. set (sU := snd (exec P (Unlock p) sR)) in *.
  assert (fst (run P [Restart; Unlock p; o; Lock] s1) = [fst (exec P Restart s1); ODone; ODone; fst (exec P Lock (snd (exec P o sU)))]) as Er.
  { change [Restart; Unlock p; o; Lock] with ([Restart] ++ [Unlock p] ++ [o] ++ [Lock]). rewrite !run_app, !run_one. cbn [fst snd app].
    fold sR sU. rewrite Hu, Hd. reflexivity. }
  rewrite Er in Ag. clear Er.
  set (wR := mk_world (w_file w) false (w_file w)). set (wU := fst (vstep P b wR (Unlock p))). set (wO := fst (vstep P c wU o)).
  assert (vrun P [a; b; c; d] w [Restart; Unlock p; o; Lock] =
    (fst (vstep P d wO Lock), [ODone; snd (vstep P b wR (Unlock p)); snd (vstep P c wU o); ODone])) as Ev.
  { cbn [vrun]. change (vstep P a w Restart) with (wR, ODone). unfold wO, wU. destruct (vstep P b wR (Unlock p)) as [w1 r1]. cbn [fst snd].
    destruct (vstep P c w1 o) as [w2 r2]. reflexivity. }
  rewrite Ev in Ag, R |- *. cbn [fst snd] in Ag, R |- *.
  inversion Ag as [|? ? ? ? _ Ag1]; subst. inversion Ag1 as [|? ? ? ? A2 Ag2]; subst. inversion Ag2 as [|? ? ? ? A3 _]; subst.
  apply agrees_done in A2, A3. destruct (vstep_unlock P b _ p A2) as (v & Ef & EU). fold wR wU in EU. exists v. split; [exact R|].
  unfold wO. rewrite EU, Ef in *. exact (vstep_adds P c p v _ x n r o e Ha A3).
Qed.

Section two.
Context (P : prims) (E : externals) (path : bytes).

Lemma added_shown sc l s0 p o x n r e :
  let l2 := l ++ [Restart; Unlock p; o; Lock] in
  sound P sc l2 s0 -> adds x n r o e -> fst (exec P (Unlock p) (snd (run P (l ++ [Restart]) s0))) = ODone ->
  fst (exec P o (snd (run P (l ++ [Restart; Unlock p]) s0))) = ODone -> 6 <= length p ->
  forall sp t bad c es, t_st t = snd (run P l2 s0) -> t_buf t = [] -> entered sp t (map Some bad ++ Some c :: es) -> trim c = p ->
  Forall (fun b => length (trim b) < 6 \/ (covered sc (Unlock (trim b)) /\ trim b <> p)) bad ->
  exists t1, opened_by P p (map complaint bad) sp es t t1 /\
    main P E path (mk_args sp (Show x n r false)) t =
    match reveal P p (resolved P (t_st t1) x, n, rev_of r) (e_secret e) with
    | OText text => (Success, ended (show_text (bs "Password retrieved." ++ text ++ [newline]) t1))
    | OErr err => (Failure, ended (complained (Lib err) t1))
    | _ => (Aborted, t1)
    end.
Proof.
  intros l2 So Ha Hu Hd Hl sp t bad c es Et Eb He Ec Hbad.
  assert (Forall (covered sc) [Restart; Unlock p; o; Lock]) as Hcov.
  { pose proof (so_covered _ _ _ _ So) as H. unfold l2 in H. apply Forall_app in H. apply H. }
  rewrite List.Forall_forall in Hcov. assert (covered sc (Unlock p)) as HcU by (apply Hcov; cbn; auto).
  assert (covered sc (Has x n r)) as HcH.
  { assert (covered sc o) as Ho by (apply Hcov; cbn; auto). destruct Ha as [(text & -> & _)|(len & cs & -> & _)];
      destruct Ho as (H1 & H2 & H3 & _); cbn in H1, H2, H3; repeat split; try tauto; intros ? []. }
  destruct (added_file P sc l s0 p o x n r e So Ha Hu Hd) as (wrs & v & R & Hf). fold l2 in R, Hf.
  destruct (show_process P E path sc l2 s0 So wrs R p _ Hf HcU Hl sp t bad c es Et Eb He Ec Hbad) as (t1 & Ho & Hs & _).
  exists t1. split; [exact Ho|]. rewrite (Hs x n r HcH), target_put.
  pose proof (opens P E path sc l2 s0 So wrs R) as H. rewrite Hf in H.
  destruct (H HcU Hl sp t bad c es Et Eb He Ec Hbad) as (t1' & Ho' & HH & _ & _).
  assert (t_st t1 = t_st t1') as Et1 by (rewrite (ob_st _ _ _ _ _ _ _ Ho), (ob_st _ _ _ _ _ _ _ Ho'); reflexivity).
  rewrite Et1, (holds_resolved P sc l2 s0 So _ _ _ x HH (cover_alias sc x n r HcH)), target_put.
  cbn [v_pw put]. rewrite lookup_insert. reflexivity.
Qed.

(** Both processes. *)
Lemma stored_then_shown sc l s0 p spA tA badA msgsA c pw esA x n r xA tA' :
  let l2 := l ++ [Restart; Unlock p; SetStored x n r (trim pw); Lock] in
  sound P sc l2 s0 -> t_st tA = snd (run P l s0) -> t_buf tA = [] -> 6 <= length p ->
  fst (exec P (Unlock p) (snd (exec P Restart (t_st tA)))) = ODone ->
  entered spA tA (map Some badA ++ Some c :: Some pw :: esA) -> trim c = p ->
  Forall2 (rejected P (snd (exec P Restart (t_st tA)))) badA msgsA ->
  main P E path (mk_args spA (AddStored x n r false true)) tA = (xA, tA') -> xA = Success ->
  t_st tA' = snd (run P l2 s0) /\
  forall sp t bad c' es, t_st t = t_st tA' -> t_buf t = [] -> entered sp t (map Some bad ++ Some c' :: es) -> trim c' = p ->
  Forall (fun b => length (trim b) < 6 \/ (covered sc (Unlock (trim b)) /\ trim b <> p)) bad ->
  exists t1, opened_by P p (map complaint bad) sp es t t1 /\
    main P E path (mk_args sp (Show x n r false)) t =
    (Success, ended (show_text (bs "Password retrieved." ++ trim pw ++ [newline]) t1)).
Proof.
  intros l2 So EA BA Hl Hu HeA Ec HrejA HmA ->.
  destruct (opens_with P E path p spA tA badA msgsA c _ Hu Hl BA HeA Ec HrejA) as (t1 & Ho & Hm).
  specialize (Hm (AddStored x n r false true) (fun x => x)).
  destruct (ob_remaining _ _ _ _ _ _ _ Ho) as [Hrem|(_ & Hrem & _)]; [|discriminate Hrem].
  destruct (add_stored_goes P E path spA x n r true pw esA t1 (ob_ready _ _ _ _ _ _ _ Ho) (or_introl eq_refl) Hrem) as (t2 & Hp & _ & Hf).
  pose proof (call_process P E path p msgsA spA _ tA t1 t2 _ _ _ Ho Hm (pr_st _ _ _ _ Hp) Hf) as H. rewrite HmA in H.
  assert (fst (exec P (SetStored x n r (trim pw)) (t_st t1)) = ODone /\
    t_st tA' = snd (run P [Restart; Unlock p; SetStored x n r (trim pw); Lock] (t_st tA))) as [Hd Hst].
  { destruct (fst (exec P (SetStored x n r (trim pw)) (t_st t1))); try discriminate H; destruct H as (H & H2 & _); try discriminate H. auto. }
  rewrite EA in Hst. assert (t_st tA' = snd (run P l2 s0)) as HstA by (unfold l2; rewrite run_app; exact Hst).
  split; [exact HstA|]. intros sp t bad c' es Et Eb He Ec' Hbad. rewrite HstA in Et.
  rewrite (ob_st _ _ _ _ _ _ _ Ho), EA in Hd. rewrite EA in Hu.
  apply (added_shown sc l s0 p (SetStored x n r (trim pw)) x n r (mk_entry (SFixed (trim pw)) [])) with (c := c'); try assumption.
  - left. eauto.
  - rewrite run_app. cbn [snd]. rewrite run_one. exact Hu.
  - rewrite run_app. exact Hd.
Qed.
Lemma generated_then_shown sc l s0 p spA tA badA msgsA c esA x n r len nl nu nd ns xA tA' :
  let cs := wanted nl nu nd ns in
  let l2 := l ++ [Restart; Unlock p; SetGenerated x n r len cs; Lock] in
  sound P sc l2 s0 -> t_st tA = snd (run P l s0) -> t_buf tA = [] -> 6 <= length p ->
  fst (exec P (Unlock p) (snd (exec P Restart (t_st tA)))) = ODone ->
  entered spA tA (map Some badA ++ Some c :: esA) -> trim c = p ->
  Forall2 (rejected P (snd (exec P Restart (t_st tA)))) badA msgsA -> cs <> cs_empty ->
  main P E path (mk_args spA (Add x n r len nl nu nd ns true)) tA = (xA, tA') -> xA = Success ->
  t_st tA' = snd (run P l2 s0) /\
  forall sp t bad c' es, t_st t = t_st tA' -> t_buf t = [] -> entered sp t (map Some bad ++ Some c' :: es) -> trim c' = p ->
  Forall (fun b => length (trim b) < 6 \/ (covered sc (Unlock (trim b)) /\ trim b <> p)) bad ->
  exists t1, opened_by P p (map complaint bad) sp es t t1 /\
    main P E path (mk_args sp (Show x n r false)) t =
    match reveal P p (resolved P (t_st t1) x, n, rev_of r) (SGenerated len cs) with
    | OText text => (Success, ended (show_text (bs "Password retrieved." ++ text ++ [newline]) t1))
    | OErr err => (Failure, ended (complained (Lib err) t1))
    | _ => (Aborted, t1)
    end.
Proof.
  intros cs l2 So EA BA Hl Hu HeA Ec HrejA Hcs HmA ->.
  destruct (opens_with P E path p spA tA badA msgsA c _ Hu Hl BA HeA Ec HrejA) as (t1 & Ho & Hm).
  specialize (Hm (Add x n r len nl nu nd ns true) (fun x => x)).
  pose proof (add_goes P E path spA x n r len nl nu nd ns true t1 (ob_ready _ _ _ _ _ _ _ Ho) Hcs (or_introl eq_refl)) as Hf.
  fold cs in Hf. pose proof (call_process P E path p msgsA spA _ tA t1 t1 _ _ _ Ho Hm eq_refl Hf) as H. rewrite HmA in H.
  assert (fst (exec P (SetGenerated x n r len cs) (t_st t1)) = ODone /\
    t_st tA' = snd (run P [Restart; Unlock p; SetGenerated x n r len cs; Lock] (t_st tA))) as [Hd Hst].
  { destruct (fst (exec P (SetGenerated x n r len cs) (t_st t1))); try discriminate H; destruct H as (H & H2 & _); try discriminate H. auto. }
  rewrite EA in Hst. assert (t_st tA' = snd (run P l2 s0)) as HstA by (unfold l2; rewrite run_app; exact Hst).
  split; [exact HstA|]. intros sp t bad c' es Et Eb He Ec' Hbad. rewrite HstA in Et.
  rewrite (ob_st _ _ _ _ _ _ _ Ho), EA in Hd. rewrite EA in Hu.
  apply (added_shown sc l s0 p (SetGenerated x n r len cs) x n r (mk_entry (SGenerated len cs) [])) with (c := c'); try assumption.
  - right. eauto.
  - rewrite run_app. cbn [snd]. rewrite run_one. exact Hu.
  - rewrite run_app. exact Hd.
Qed.
End two.
