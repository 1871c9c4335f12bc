(** The statements of the properties about API calls, derived from the lemmas about states. *)
From Coq Require Import ZArith ZifyBool ZifyNat ZifyN.
From stdpp Require Import gmap.
From Verif Require Import M_Base M_Base64 M_Utf8 M_Prims M_Types M_Crypto M_Recovery M_Json M_Serde M_Storage
  M_Passwords S_Policy S_Serde S_Vault M_History S_Api S_History P_Base P_Policy P_File P_Storage P_Api P_Calls P_Sound
  P_Corollary.

Section reachable.
  Context (P : prims) (HP : prims_ok P) (s : st) (HR : reachable P s).

  Lemma reachable_cases : locked s \/ exists k h p, unlocked_with s k h p /\ length k = 32.
  Proof. exact (reachable_good P s HP HR). Qed.

  Lemma reachable_open : unlocked s = true -> exists k h p, unlocked_with s k h p /\ length k = 32.
  Proof.
    intros Hu. destruct reachable_cases as [(Hk & _)|H]; [|exact H]. unfold unlocked in Hu. rewrite Hk in Hu. discriminate Hu.
  Qed.

  Lemma reachable_locked : unlocked s = false -> locked s.
  Proof.
    intros Hu. destruct reachable_cases as [H|(k & h & p & H & _)]; [exact H|].
    unfold unlocked in Hu. rewrite (hs_key s k h p H) in Hu. discriminate Hu.
  Qed.

  Lemma performed_open o : performed (fst (exec P o s)) -> needs_secrets o = true ->
    exists k h p, unlocked_with s k h p /\ length k = 32.
  Proof.
    intros Hp Hn. destruct reachable_cases as [H|H]; [|exact H].
    rewrite (locked_exec P o s H Hn) in Hp. destruct Hp as [Hp|[Hp|Hp]]; discriminate Hp.
  Qed.

  Lemma stored_after x n r t : op_valid (SetStored x n r t) -> performed (fst (exec P (SetStored x n r t) s)) ->
    let s' := snd (exec P (SetStored x n r t) s) in
    fst (exec P (Get x n r) s') = OText t /\ fst (exec P (GetNotes x n r) s') = OText [] /\
    fst (exec P (Has x n r) s') = OBool true.
  Proof.
    intros Hv Hp. destruct (performed_open _ Hp eq_refl) as (k & h & p & Hs & Hk).
    exact (set_stored_after P x n r t s k h p HP Hs Hk Hv Hp).
  Qed.

  Lemma generated_after x n r len cs pp : op_valid (SetGenerated x n r len cs) ->
    performed (fst (exec P (SetGenerated x n r len cs) s)) -> s_primary s = Some pp ->
    let s' := snd (exec P (SetGenerated x n r len cs) s) in
    fst (exec P (Get x n r) s') = text_out (derive_password P pp (generation_input (resolved P s x, n, rev_of r)) len cs) /\
    fst (exec P (GetNotes x n r) s') = OText [] /\ fst (exec P (Has x n r) s') = OBool true.
  Proof.
    intros Hv Hp Hpp. destruct (performed_open _ Hp eq_refl) as (k & h & p & Hs & Hk).
    rewrite (hs_primary s k h p Hs) in Hpp. injection Hpp as <-.
    exact (set_generated_value P x n r len cs s k h p HP Hs Hk Hv Hp).
  Qed.

  Lemma generated_panics x n r len cs : op_valid (SetGenerated x n r len cs) ->
    performed (fst (exec P (SetGenerated x n r len cs) s)) ->
    fst (exec P (Get x n r) (snd (exec P (SetGenerated x n r len cs) s))) = OPanic <->
    (len = 0 \/ cs = cs_empty \/ 137438953471 < len)%N.
  Proof.
    intros Hv Hp. destruct (performed_open _ Hp eq_refl) as (k & h & p & Hs & Hk).
    destruct (set_generated_value P x n r len cs s k h p HP Hs Hk Hv Hp) as (-> & _).
    rewrite <- (derive_password_panic P p (generation_input (resolved P s x, n, rev_of r)) len cs HP).
    destruct (derive_password _ _ _ _ _); cbn; split; intros E; congruence.
  Qed.

  Lemma removed_after x n r : performed (fst (exec P (Remove x n r) s)) ->
    let s' := snd (exec P (Remove x n r) s) in
    fst (exec P (Has x n r) s) = OBool true /\
    fst (exec P (Has x n r) s') = OBool false /\ fst (exec P (Get x n r) s') = OErr KeyMissing.
  Proof.
    intros Hp. destruct (performed_open _ Hp eq_refl) as (k & h & p & Hs & Hk).
    exact (remove_after P x n r s k h p Hs Hp).
  Qed.

  Lemma alias_after x a : op_valid (SetAlias x a) -> performed (fst (exec P (SetAlias x a) s)) ->
    let s' := snd (exec P (SetAlias x a) s) in
    fst (exec P (GetAlias x) s') = OText (resolved P s a) /\ resolved P s a <> host x.
  Proof.
    intros Hv Hp. destruct (performed_open _ Hp eq_refl) as (k & h & p & Hs & Hk).
    destruct (set_alias_after P x a s k h p HP Hs Hk Hv Hp) as (t & H1 & H2 & H3 & _). cbv zeta.
    assert (resolved P s a = t) as ->; [|split; [exact H1|exact H2]].
    unfold resolved. destruct H3 as [->|[-> ->]]; reflexivity.
  Qed.

  Lemma alias_no_passwords x a : op_valid (SetAlias x a) -> performed (fst (exec P (SetAlias x a) s)) ->
    fst (exec P (GetAlias x) s) = OErr NoSuchAlias -> forall n r t, fst (exec P (Get x n r) s) <> OText t.
  Proof.
    intros Hv Hp. destruct (performed_open _ Hp eq_refl) as (k & h & p & Hs & Hk).
    exact (set_alias_no_passwords P x a s k h p HP Hs Hk Hv Hp).
  Qed.

  Lemma alias_removed x : performed (fst (exec P (RemoveAlias x) s)) ->
    let s' := snd (exec P (RemoveAlias x) s) in
    (exists t, fst (exec P (GetAlias x) s) = OText t) /\ fst (exec P (GetAlias x) s') = OErr NoSuchAlias.
  Proof.
    intros Hp. destruct (performed_open _ Hp eq_refl) as (k & h & p & Hs & Hk).
    exact (remove_alias_after P x s k h p Hs Hp).
  Qed.

  Lemma nul_replaces x n m r t : op_valid (SetStored x (n ++ x00 :: m) r t) ->
    performed (fst (exec P (SetStored x (n ++ x00 :: m) r t) s)) ->
    fst (exec P (Get x n (m ++ x00 :: rev_of r)) (snd (exec P (SetStored x (n ++ x00 :: m) r t) s))) = OText t.
  Proof.
    intros Hv Hp. destruct (performed_open _ Hp eq_refl) as (k & h & p & Hs & Hk).
    exact (nul_get P x n m r t s k h p HP Hs Hk Hv Hp).
  Qed.

  Lemma has_iff_get x n r b : fst (exec P (Has x n r) s) = OBool b ->
    (b = false <-> fst (exec P (Get x n r) s) = OErr KeyMissing).
  Proof. exact (has_get P x n r s b (good_whole s (reachable_good P s HP HR))). Qed.

  Lemma locked_calls o : unlocked s = false -> needs_secrets o = true -> exec P o s = (OErr PasswordsLocked, s).
  Proof. intros Hu. apply locked_exec, reachable_locked, Hu. Qed.
  Lemma locked_lists o : unlocked s = false ->
    match o with ListPasswords _ _ | ListSites _ => True | _ => False end -> exec P o s = (OPanic, s).
  Proof. intros Hu. apply locked_list, reachable_locked, Hu. Qed.
  Lemma locked_code x n r t : unlocked s = false -> exists e, exec P (RecoveryCode x n r t) s = (OErr e, s).
  Proof. intros Hu. destruct (locked_recovery P x n r t s (reachable_locked Hu)) as (e & He & _). exists e. exact He. Qed.

  Lemma disk_after_call o : let s' := snd (exec P o s) in
    s_disk s' = s_disk s \/
    modifies o = true /\ exists p q, flush_text P s' = p ++ q /\ s_disk s' = Some p /\
      (q = [] -> load P (s_disk s') = Ok (s_data s')) /\
      (q <> [] -> load P (s_disk s') = Err FileReadFailure \/ load P (s_disk s') = Err InvalidJson).
  Proof.
    cbv zeta. destruct (exec_disk P o s HP) as (H & _). destruct H as [H|(Hm & p & q & E & Hd)]; [left; exact H|].
    right. split; [exact Hm|]. exists p, q. split; [exact E|]. split; [exact Hd|].
    assert (reachable P (snd (exec P o s))) as HR' by (apply reachable_step, HR).
    pose proof (reachable_texts P _ HP HR') as Ht. rewrite Hd. split; intros Hq.
    - subst q. rewrite app_nil_r in E. rewrite <- E. apply load_flush; [exact HP|exact Ht].
    - exact (load_prefix P _ p q Ht E Hq).
  Qed.

  Lemma saved_after o : modifies o = true -> fst (exec P o s) = ODone -> let s' := snd (exec P o s) in
    s_disk s' = Some (flush_text P s') /\ load P (s_disk s') = Ok (s_data s').
  Proof.
    intros Hm Hd. cbv zeta. split; [|exact (load_after P o s HP HR Hm Hd)].
    destruct (exec_disk P o s HP) as (_ & _ & H & _). exact (H Hd Hm).
  Qed.

  Lemma file_kept o : p_write P (s_flushes s) = CreateDirFails \/ p_write P (s_flushes s) = OpenFails ->
    s_disk (snd (exec P o s)) = s_disk s.
  Proof. destruct (exec_disk P o s HP) as (_ & _ & _ & H & _). exact H. Qed.
End reachable.

Lemma generation_ambiguous s n m : m <> [] -> generation_input (s, n ++ x00 :: m, []) = generation_input (s, n, m).
Proof. intros H. cbn. destruct m; [contradiction|reflexivity]. Qed.

Lemma same_revision s n r r' : password_id_new s n r = password_id_new s n r' <->
  r = r' \/ (r = [] /\ r' = bs "1") \/ (r = bs "1" /\ r' = []).
Proof.
  rewrite <- rev_of_eq.
  rewrite !password_id_new_eq. split; congruence.
Qed.

(** A history that is sound is so up to each of its calls. *)
Lemma calm_app P l1 l2 : forall s, calm_run P (l1 ++ l2) s -> calm_run P l1 s.
Proof.
  induction l1 as [|o l1 IH]; intros s H; [exact I|]. destruct H as [H1 H2]. split; [exact H1|exact (IH _ H2)].
Qed.

Lemma sound_app P sc l1 l2 s : sound P sc (l1 ++ l2) s -> sound P sc l1 s.
Proof.
  intros [H1 H2 H3 H4 H5 H6 H7]. apply List.Forall_app in H5. destruct H5 as [H5 _]. split; auto.
  - exact (calm_app P l1 l2 s H6).
  - rewrite run_app in H7. cbn [snd] in H7. pose proof (run_grows P l2 (snd (run P l1 s))) as Hg.
    destruct H7 as [A1 A2 A3]. split; intros i.
    + intros x y Hi. apply A1. lia.
    + intros x n r n' r' Hi. apply A2. lia.
    + intros p q Hi. apply A3. lia.
Qed.

Lemma sound_reachable P sc l s : sound P sc l s -> calmly_reachable P (snd (run P l s)).
Proof.
  intros [H1 (Hd & Hk & Hh & Hp & _) _ _ _ H6 _]. exists l, s. split; [|split; [exact H6|reflexivity]].
  split; [repeat split; assumption|left; exact Hd].
Qed.
