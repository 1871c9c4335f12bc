(** The command line program: order of listed passwords; processes one after the other. *)
From Coq Require Import Sorted ZArith ZifyBool ZifyNat ZifyN.
From stdpp Require Import gmap.
From Verif Require Import M_Base M_Base64 M_Utf8 M_Prims M_Types M_Crypto M_Recovery M_Json M_Serde M_Storage M_Passwords
  S_Recovery S_Vault M_History S_Api S_History P_Base P_Sound
  M_Cli S_Cli P_CliBase P_CliCalls P_CliUnlock P_CliCommands P_CliMain P_CliList P_CliVault P_CliLives P_CliWorld.

(** * Order *)

Lemma before_app_same a b c : before (a ++ b) (a ++ c) <-> before b c.
Proof.
  induction a as [|x a IH]; [reflexivity|]. cbn [app]. rewrite <- IH. split; intros H; [|apply before_same, H].
  inversion H; subst; [lia|assumption].
Qed.

Lemma not_after_name a b : printable (pid_name (sh_item a).1) -> printable (pid_name (sh_item b).1) ->
  not_after a b -> by_name a b.
Proof.
  destruct a as [[[[x n] r] e] va ca], b as [[[[x' n'] r'] e'] vb cb]. unfold not_after, order_key, by_name, pid_name. cbn [sh_item fst snd].
  intros Ha Hb H. destruct (before_total n n') as [->|[Hl|Hl]]; auto.
  - right. split; [reflexivity|]. intros Hr. apply H. apply before_app_same. apply before_app_same, Hr.
  - exfalso. apply H. clear H. induction Hl as [y t|y z t u Hyz|y t u _ IH].
    + inversion Ha; subst. apply before_less. cbn. assumption.
    + apply before_less. assumption.
    + inversion Ha; inversion Hb; subst. apply before_same. auto.
Qed.

Lemma sorted_by_name l : Forall (fun it => printable (pid_name (sh_item it).1)) l ->
  StronglySorted not_after l -> StronglySorted by_name l.
Proof.
  intros Hp H. induction H as [|a l H IH Ha]; [constructor|]. inversion Hp as [|? ? Hpa Hpl]; subst. constructor; [auto|].
  rewrite List.Forall_forall in *. intros b Hb. apply not_after_name; auto.
Qed.

Lemma list_output P sc l s0 : sound P sc l s0 ->
  (forall x, In x (sc_sites sc) -> host x = x) ->
  let s1 := snd (run P l s0) in
  unlocked s1 = true ->
  exists pp v wrs, s_primary s1 = Some pp /\ writes_ok P l wrs s0 /\ w_mem (fst (vrun P wrs nothing l)) = Some (pp, v) /\
  (forall E path sp domain name sh rc vb t t', chains_match P v domain -> ready t -> t_st t = s1 ->
   process_simple P E path sp (List domain name sh rc vb) t = (COk tt, t') ->
   exists groups, Forall (shows P pp v domain name sh rc) groups /\ StronglySorted before (map gr_site groups) /\
     (forall x i e, shows_site P v domain x -> shows_password P v name x i e -> In x (map gr_site groups)) /\
     t_shown t' = t_shown t ++ list_text sh rc vb groups /\
     ((forall i e, v_pw v !! i = Some e -> printable (pid_name i)) -> Forall (fun g => StronglySorted by_name (gr_items g)) groups)).
Proof.
  intros So Hh s1 Hu. destruct (list_vault P sc l s0 So Hh Hu) as (pp & v & wrs & H1 & H2 & H3 & H4).
  exists pp, v, wrs. split; [exact H1|]. split; [exact H2|]. split; [exact H3|]. intros E path sp domain name sh rc vb t t' Hn Hr Et Hp.
  pose proof (H4 sp domain name sh rc vb t Hn Hr Et) as H. cbn [process_simple] in Hp. rewrite Hp in H.
  destruct H as (_ & groups & Hg & Hs & Hc & Ht & _). exists groups. split; [exact Hg|]. split; [exact Hs|]. split; [exact Hc|]. split; [exact Ht|].
  intros Hpr. rewrite List.Forall_forall in *. intros g Hin. specialize (Hg g Hin). apply sorted_by_name; [|exact (sh_order _ _ _ _ _ _ _ _ Hg)].
  apply List.Forall_forall. intros it Hit. destruct (sh_item it) as [i e] eqn:Ei. cbn [fst].
  apply (Hpr i e). apply (proj1 (sh_items _ _ _ _ _ _ _ _ Hg i e)). eauto.
Qed.

Lemma match_everything P v domain : (forall x, p_wild P domain x = true) -> chains_match P v domain.
Proof. intros H y x a _ _ _. left. apply H. Qed.

Lemma list_everything P sc l s0 : sound P sc l s0 ->
  (forall x, In x (sc_sites sc) -> host x = x) ->
  let s1 := snd (run P l s0) in
  unlocked s1 = true ->
  exists pp v wrs, s_primary s1 = Some pp /\ writes_ok P l wrs s0 /\ w_mem (fst (vrun P wrs nothing l)) = Some (pp, v) /\
  (forall E path sp domain name sh rc vb t t', (forall x, p_wild P domain x = true /\ p_wild P name x = true) ->
   ready t -> t_st t = s1 ->
   process_simple P E path sp (List domain name sh rc vb) t = (COk tt, t') ->
   exists groups, t_shown t' = t_shown t ++ list_text sh rc vb groups /\
     forall i e, (exists g it, In g groups /\ In it (gr_items g) /\ gr_site g = pid_site i /\ sh_item it = (i, e)) <->
       v_pw v !! i = Some e /\ in_list v (pid_site i)).
Proof.
  intros So Hh s1 Hu. destruct (list_output P sc l s0 So Hh Hu) as (pp & v & wrs & H1 & H2 & H3 & H4).
  exists pp, v, wrs. split; [exact H1|]. split; [exact H2|]. split; [exact H3|].
  intros E path sp domain name sh rc vb t t' Hw Hr Et Hp.
  destruct (H4 E path sp domain name sh rc vb t t' (match_everything _ _ _ (fun x => proj1 (Hw x))) Hr Et Hp) as (groups & Hg & _ & Hall & Ht & _).
  exists groups. split; [exact Ht|]. rewrite List.Forall_forall in Hg. intros i e. unfold in_list. split.
  - intros (g & it & Hgi & Hit & Hs & Ei). pose proof (Hg g Hgi) as G.
    destruct (proj1 (sh_items _ _ _ _ _ _ _ _ G i e) (ex_intro _ it (conj Hit Ei))) as (Hv & _ & _).
    split; [exact Hv|]. pose proof (sh_listed _ _ _ _ _ _ _ _ G) as Hl. rewrite Hs in Hl. destruct Hl as [Hna [[Hx _]|(y & Hy & _)]]; eauto.
  - intros (Hv & Hna & Hx). assert (shows_site P v domain (pid_site i)) as Hsite.
    { split; [exact Hna|]. destruct Hx as [Hx|(y & Hy)].
      - destruct (v_sites v !! pid_site i) as [[a|]|] eqn:Ex; [destruct (Hna a eq_refl)| |destruct Hx as [? [=]]]. left. split; [reflexivity|apply Hw].
      - right. exists y. split; [exact Hy|]. left. apply Hw. }
    assert (shows_password P v name (pid_site i) i e) as Hpw by (split; [exact Hv|split; [reflexivity|apply Hw]]).
    pose proof (Hall _ _ _ Hsite Hpw) as Hin. apply in_map_iff in Hin. destruct Hin as (g & Hs & Hgi).
    rewrite <- Hs in Hpw. destruct (proj2 (sh_items _ _ _ _ _ _ _ _ (Hg g Hgi) i e) Hpw) as (it & Hit & Ei).
    exists g, it. auto.
Qed.

(** * Processes *)

(** The process of a command, when it has been unlocked. *)
Lemma file_process P E path sc l s0 : sound P sc l s0 -> let s1 := snd (run P l s0) in
  exists wrs, writes_ok P l wrs s0 /\
  match w_file (fst (vrun P wrs nothing l)) with
  | None => forall sp cmd t, t_st t = s1 -> (forall y, cmd <> SetPrimary y) ->
      exists e, main P E path (mk_args sp cmd) t = (Failure, ended (complained (Lib e) (begins P t)))
  | Some (p, v) => covered sc (Unlock p) -> 6 <= length p ->
      forall sp t bad c es, t_st t = s1 -> t_buf t = [] -> entered sp t (map Some bad ++ Some c :: es) -> trim c = p ->
      Forall (fun b => length (trim b) < 6 \/ (covered sc (Unlock (trim b)) /\ trim b <> p)) bad ->
      exists t1, opened_by P p (map complaint bad) sp es t t1 /\
      (forall x n r, covered sc (Has x n r) ->
        main P E path (mk_args sp (Show x n r false)) t =
        match v_pw v !! (target v x, n, rev_of r) with
        | Some e => match reveal P p (target v x, n, rev_of r) (e_secret e) with
                    | OText text => (Success, ended (show_text (bs "Password retrieved." ++ text ++ [newline]) t1))
                    | OErr err => (Failure, ended (complained (Lib err) t1))
                    | _ => (Aborted, t1)
                    end
        | None => (Failure, ended (complained (Lib KeyMissing) t1))
        end) /\
      (forall x n r, covered sc (Has x n r) ->
        main P E path (mk_args sp (Notes x n r false)) t =
        match v_pw v !! (target v x, n, rev_of r) with
        | Some e => (Success, ended (show_text (notes_text (e_notes e)) t1))
        | None => (Failure, ended (complained (Lib KeyMissing) t1))
        end) /\
      (forall x, covered sc (GetAlias x) ->
        main P E path (mk_args sp (Alias x None false)) t =
        match v_sites v !! host x with
        | Some (Some a) => (Success, ended (show_text (bs "'" ++ x ++ bs "' is an alias for '" ++ a ++ bs "'." ++ [newline]) t1))
        | _ => (Failure, ended (complained (Lib NoSuchAlias) t1))
        end) /\
      ((forall x, In x (sc_sites sc) -> host x = x) -> forall domain name sh rc vb, chains_match P v domain ->
        exists r, list_goes P sc p v domain name sh rc vb t1 r /\
          main P E path (mk_args sp (List domain name sh rc vb)) t = ends r)
  end.
Proof.
  intros So s1. destruct (sound_rep P sc l s0 So) as (wrs & Hw & R & _). exists wrs. split; [exact Hw|].
  destruct (w_file (fst (vrun P wrs nothing l))) as [[p v]|] eqn:Ef.
  - exact (show_process P E path sc l s0 So wrs R p v Ef).
  - pose proof (opens P E path sc l s0 So wrs R) as H. rewrite Ef in H. exact H.
Qed.

Lemma one_call_process P E path p sp t bad msgs c es cmd o line :
  fst (exec P (Unlock p) (snd (exec P Restart (t_st t)))) = ODone -> 6 <= length p ->
  t_buf t = [] -> entered sp t (map Some bad ++ Some c :: es) -> trim c = p ->
  Forall2 (rejected P (snd (exec P Restart (t_st t)))) bad msgs -> one_call cmd o line ->
  let '(x, t') := main P E path (mk_args sp cmd) t in
  match fst (exec P o (snd (run P [Restart; Unlock p] (t_st t)))) with
  | ODone => x = Success /\ t_st t' = snd (run P [Restart; Unlock p; o; Lock] (t_st t)) /\
      t_err t' = t_err t ++ msgs /\
      exists prompts, t_shown t' = t_shown t ++ prompts ++ line ++ [newline] /\ (sp = false -> prompts = [])
  | OErr e => x = Failure /\ t_st t' = snd (run P [Restart; Unlock p; o; Lock] (t_st t)) /\
      t_err t' = t_err t ++ msgs ++ [Lib e]
  | _ => x = Aborted
  end.
Proof.
  intros Hd Hl Eb He Ec Hrej Ho.
  destruct (opens_with P E path p sp t bad msgs c es Hd Hl Eb He Ec Hrej) as (t1 & H1 & Hm).
  assert (~ refused cmd) as Hr by (destruct Ho; intros []).
  pose proof (ob_ready _ _ _ _ _ _ _ H1) as Hrd.
  assert (finishes P o line t1 (process_simple P E path sp cmd t1)) as Hf.
  { destruct Ho; [apply add_goes; auto|apply remove_finishes|apply alias_finishes|apply unalias_finishes]; exact Hrd. }
  pose proof (call_process P E path p msgs sp es t t1 t1 cmd o line H1 (Hm cmd Hr) eq_refl Hf) as H.
  destruct (main P E path (mk_args sp cmd) t) as [x t']. rewrite (ob_st _ _ _ _ _ _ _ H1) in H.
  destruct Hrd as (_ & _ & Hb1). rewrite Hb1 in H.
  destruct (fst (exec P o (snd (run P [Restart; Unlock p] (t_st t))))); try exact H.
  - destruct H as (-> & H2 & H3 & H4). split; [reflexivity|]. split; [exact H2|]. split; [rewrite H4; apply (ob_err _ _ _ _ _ _ _ H1)|].
    pose proof (as_shown _ _ _ _ (ob_asked _ _ _ _ _ _ _ H1)) as Hs. rewrite Hs in H3. rewrite app_nil_r in H3. rewrite <- app_assoc in H3.
    eexists. split; [exact H3|]. intros ->. reflexivity.
  - destruct H as (-> & H2 & H3 & H4). split; [reflexivity|]. split; [exact H2|]. rewrite H4, (ob_err _ _ _ _ _ _ _ H1), app_assoc. reflexivity.
Qed.

(** A process changing notes. *)
Lemma notes_process P E path p sp t bad msgs c es x n r old new es' :
  fst (exec P (Unlock p) (snd (exec P Restart (t_st t)))) = ODone -> 6 <= length p ->
  t_buf t = [] -> entered sp t (map Some bad ++ Some c :: es) -> trim c = p ->
  Forall2 (rejected P (snd (exec P Restart (t_st t)))) bad msgs ->
  (if sp then es = Some new :: es' else entered true t (Some new :: es')) ->
  let s1 := snd (run P [Restart; Unlock p] (t_st t)) in
  fst (exec P (GetNotes x n r) s1) = OText old ->
  let '(y, t') := main P E path (mk_args sp (Notes x n r true)) t in
  match fst (exec P (SetNotes x n r new) s1) with
  | ODone => y = Success /\ t_st t' = snd (run P [Restart; Unlock p; SetNotes x n r new; Lock] (t_st t)) /\
      t_err t' = t_err t ++ msgs /\
      exists prompts, t_shown t' = t_shown t ++ prompts ++ notes_text old ++ bs "Please enter new notes to be stored:" ++
        (match new with [] => bs "Notes removed." | _ => bs "Notes stored." end) ++ [newline] /\ (sp = false -> prompts = [])
  | OErr e => y = Failure /\ t_st t' = snd (run P [Restart; Unlock p; SetNotes x n r new; Lock] (t_st t)) /\
      t_err t' = t_err t ++ msgs ++ [Lib e]
  | _ => y = Aborted
  end.
Proof.
  intros Hd Hl Eb He Ec Hrej Hnew s1 Hold.
  destruct (opens_with P E path p sp t bad msgs c es Hd Hl Eb He Ec Hrej) as (t1 & H1 & Hm).
  pose proof (ob_ready _ _ _ _ _ _ _ H1) as Hrd.
  assert (entered true (show_text (notes_text old) t1) (Some new :: es')) as Hen.
  { change (entered true t1 (Some new :: es')). destruct sp.
    - subst es. destruct (ob_remaining _ _ _ _ _ _ _ H1) as [Hrem|(_ & Hrem & _)]; [exact Hrem|discriminate Hrem].
    - unfold entered in *. rewrite (as_stdin _ _ _ _ (ob_asked _ _ _ _ _ _ _ H1) eq_refl). exact Hnew. }
  unfold s1 in Hold. rewrite <- (ob_st _ _ _ _ _ _ _ H1) in Hold.
  destruct (notes_set P E path sp x n r t1 old new es' Hrd Hold Hen) as (t2 & Hp & _ & Hf).
  pose proof (call_process P E path p msgs sp es t t1 t2 _ _ _ H1 (Hm (Notes x n r true) (fun x => x)) (pr_st _ _ _ _ Hp) Hf) as H.
  destruct (main P E path (mk_args sp (Notes x n r true)) t) as [y t']. rewrite (ob_st _ _ _ _ _ _ _ H1) in H. fold s1 in H.
  pose proof (pr_shown _ _ _ _ Hp) as Hs2. pose proof (pr_buf _ _ _ _ Hp) as Hb2. pose proof (pr_err _ _ _ _ Hp) as He2.
  destruct Hrd as (_ & _ & Hb1). cbn [t_buf t_err t_shown show_text with_out] in Hs2, Hb2, He2.
  destruct (fst (exec P (SetNotes x n r new) s1)); try exact H.
  - destruct H as (-> & H2 & H3 & H4). split; [reflexivity|]. split; [exact H2|]. split; [rewrite H4, He2; apply (ob_err _ _ _ _ _ _ _ H1)|].
    pose proof (as_shown _ _ _ _ (ob_asked _ _ _ _ _ _ _ H1)) as Hs. rewrite Hb2, Hb1, Hs2, Hs, app_nil_r, <- !app_assoc in H3.
    eexists. split; [exact H3|]. intros ->. reflexivity.
  - destruct H as (-> & H2 & H3 & H4). split; [reflexivity|]. split; [exact H2|]. rewrite H4, He2, (ob_err _ _ _ _ _ _ _ H1), app_assoc. reflexivity.
Qed.
