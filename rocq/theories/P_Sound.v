(** Consequences of refinement for histories. *)
From stdpp Require Import gmap.
From Coq Require Import Permutation ZArith ZifyBool ZifyNat ZifyN.
From Verif Require Import M_Base M_Base64 M_Utf8 M_Prims M_Types M_Crypto M_Recovery M_Json M_Serde M_Storage
  M_Passwords M_History S_Json S_Serde S_Vault S_Api S_History P_Base P_Base64 P_Crypto P_Recovery P_Json P_Serde P_Utf8
  P_File P_Storage P_Api P_Vault P_History P_Calls.

Ltac Zify.zify_post_hook ::= Z.div_mod_to_equations.

(** * Representation, with the bound left open *)

Section sound.
Context (P : prims) (sc : scope) (l : list op) (s0 : st) (So : sound P sc l s0).
Notation HP := (so_prims _ _ _ _ So).
Notation bound := (s_rand (snd (run P l s0))).
Notation Srep := (srep P (sc_sites sc) (sc_ids sc) (sc_pws sc) bound).
Notation scoped := (in_scope (sc_sites sc) (sc_ids sc) (sc_pws sc)).

Lemma covered_scope o : covered sc o -> scoped o.
Proof. intros (H1 & H2 & H3 & H4). split; [exact H1|]. split; [exact H2|]. split; [intros n r; apply H3|exact H4]. Qed.

Lemma sound_rep : exists wrs, writes_ok P l wrs s0 /\ Srep (snd (run P l s0)) (fst (vrun P wrs nothing l)) /\
  Forall2 (agrees P) (fst (run P l s0)) (snd (vrun P wrs nothing l)).
Proof.
  apply run_rep; try exact (so_calm _ _ _ _ So); try exact HP.
  - exact (so_sites _ _ _ _ So).
  - exact (so_ids _ _ _ _ So).
  - exact (so_assumptions _ _ _ _ So).
  - apply fresh_srep, (so_fresh _ _ _ _ So).
  - eapply List.Forall_impl; [exact covered_scope|exact (so_covered _ _ _ _ So)].
  - apply le_n.
Qed.

Lemma sound_step o s w : Srep s w -> covered sc o -> is_reset o = false ->
  exists wr, allowed (p_write P (s_flushes s)) wr /\ Srep (snd (exec P o s)) (fst (vstep P wr w o)) /\
    agrees P (fst (exec P o s)) (snd (vstep P wr w o)).
Proof.
  intros R Ho Hr. apply (step_any P HP _ _ _ _ (so_sites _ _ _ _ So) (so_ids _ _ _ _ So) (so_assumptions _ _ _ _ So) o s w R).
  - apply covered_scope, Ho.
  - unfold calm. destruct o; try exact I. discriminate Hr.
  - intros pp ->. discriminate Hr.
Qed.

End sound.

Lemma sound_mentioned P l s :
  prims_ok P -> fresh P s -> Forall op_valid l -> names_ok l -> calm_run P l s ->
  assumptions P (flat_map op_sites l) (flat_map op_ids l) (flat_map op_passwords l) (s_rand (snd (run P l s))) ->
  sound P (mentioned l) l s.
Proof.
  intros HP Hf Hv Hn Hc HA. split; cbn; auto.
  - intros x Hx. apply in_flat_map in Hx. destruct Hx as (o & Ho & Hx). rewrite List.Forall_forall in Hv.
    apply (op_sites_utf8 o); auto.
  - intros n r Hx. pose proof Hx as Hx'. apply in_flat_map in Hx. destruct Hx as (o & Ho & Hx).
    rewrite List.Forall_forall in Hv. destruct (op_ids_utf8 o n r (Hv o Ho) Hx). repeat split; try assumption.
    unfold names_ok in Hn. rewrite List.Forall_forall in Hn. apply (Hn _ Hx').
  - rewrite List.Forall_forall in *. intros o Ho. split; [apply Hv, Ho|]. repeat split; cbn; intros x Hx; apply in_flat_map; eauto.
Qed.

(** C23 *)
Lemma history_vault P l s :
  prims_ok P -> fresh P s -> Forall op_valid l -> names_ok l -> calm_run P l s ->
  assumptions P (flat_map op_sites l) (flat_map op_ids l) (flat_map op_passwords l) (s_rand (snd (run P l s))) ->
  exists wrs, writes_ok P l wrs s /\ Forall2 (agrees P) (fst (run P l s)) (snd (vrun P wrs nothing l)).
Proof.
  intros HP Hf Hv Hn Hc HA. destruct (sound_rep P _ l s (sound_mentioned P l s HP Hf Hv Hn Hc HA)) as (wrs & H1 & _ & H3).
  exists wrs. auto.
Qed.

Lemma saved_writes P l : (forall n, p_write P n = WriteOk) -> forall wrs s, writes_ok P l wrs s -> wrs = repeat Saved (length l).
Proof.
  intros Hw. induction l as [|o l IH]; intros [|wr wrs] s H; cbn in H; try contradiction; [reflexivity|].
  destruct H as [H1 H2]. rewrite Hw in H1. cbn in H1. subst. cbn. f_equal. eapply IH, H2.
Qed.

Lemma saved_calm P l : prims_ok P -> (forall n, p_write P n = WriteOk) -> forall s, calm_run P l s.
Proof.
  intros HP Hw. induction l as [|o l IH]; intros s; cbn; [exact I|]. split; [|apply IH]. destruct o; try exact I. intros _.
  destruct (reset_cases P pp s HP) as (s1 & _ & _ & _ & _ & _ & _ & _ & [(_ & H & _)|(H & _)]); [exact H|].
  exfalso. apply H. cbn [exec]. rewrite (reset_eq P pp s HP). cbv zeta. unfold bindM, flush. rewrite Hw. reflexivity.
Qed.

Lemma history_saved P l s :
  prims_ok P -> (forall n, p_write P n = WriteOk) -> fresh P s -> Forall op_valid l -> names_ok l ->
  assumptions P (flat_map op_sites l) (flat_map op_ids l) (flat_map op_passwords l) (s_rand (snd (run P l s))) ->
  Forall2 (agrees P) (fst (run P l s)) (snd (vrun P (repeat Saved (length l)) nothing l)).
Proof.
  intros HP Hw Hf Hv Hn HA.
  destruct (history_vault P l s HP Hf Hv Hn (saved_calm P l HP Hw s) HA) as (wrs & H1 & H2).
  rewrite <- (saved_writes P l Hw wrs s H1). exact H2.
Qed.

(** * Probing the state after a history *)

Section probe.
Context (P : prims) (sc : scope) (l : list op) (s0 : st) (So : sound P sc l s0).
Notation bound := (s_rand (snd (run P l s0))).
Notation Srep := (srep P (sc_sites sc) (sc_ids sc) (sc_pws sc) bound).

(** The vault of an unlocked instance. *)
Definition holds (s : st) (pp : bytes) (v : vault) : Prop :=
  exists f, Srep s (mk_world (Some (pp, v)) true f).

Lemma open_holds s w : Srep s w -> unlocked s = true -> exists pp v, holds s pp v /\ s_primary s = Some pp /\ w_mem w = Some (pp, v).
Proof.
  intros R Hu. pose proof R as [M _]. unfold mem_rep in M. destruct w as [[[pp v]|] o f]; cbn in M.
  - destruct M as (i & D & Hs). unfold secrets_rep in Hs. unfold unlocked in Hu. destruct o.
    + exists pp, v. split; [exists f; exact R|]. split; [apply Hs|reflexivity].
    + destruct Hs as (Hk & _). rewrite Hk in Hu. discriminate Hu.
  - destruct M as (_ & _ & Hk & _). unfold unlocked in Hu. rewrite Hk in Hu. discriminate Hu.
Qed.

Lemma sound_open : unlocked (snd (run P l s0)) = true -> exists pp v, holds (snd (run P l s0)) pp v /\ s_primary (snd (run P l s0)) = Some pp.
Proof.
  intros Hu. destruct (sound_rep P sc l s0 So) as (wrs & _ & R & _). destruct (open_holds _ _ R Hu) as (pp & v & H & Hp & _). eauto.
Qed.

Lemma holds_secrets s pp v : holds s pp v -> exists i, data_rep P (sc_sites sc) (sc_ids sc) (sc_pws sc) bound i pp (s_data s) v /\
  unlocked_with s (ekey P pp i) (hsec P i) pp.
Proof.
  intros [f [M _]]. unfold mem_rep in M. cbn in M. destruct M as (i & D & H1 & H2 & H3). exists i. split; [exact D|].
  unfold unlocked_with, secrets. rewrite H1, H2, H3. reflexivity.
Qed.

(** Reading calls. *)
Lemma look s pp v o : holds s pp v -> covered sc o -> reading o = true ->
  agrees P (fst (exec P o s)) (snd (vstep P Saved (mk_world (Some (pp, v)) true None) o)).
Proof.
  intros [f R] Ho Hr. destruct (sound_step P sc l s0 So o s _ R Ho) as (wr & _ & _ & H); [destruct o; try reflexivity; discriminate Hr|].
  destruct o; try discriminate Hr; try exact H.
  - destruct l0; [exact H|discriminate Hr].
  - cbn in *. destruct (v_pw v !! _); exact H.
  - cbn in *. destruct (v_pw v !! _); exact H.
Qed.

(** Modifying calls. *)
Lemma change s pp v o : holds s pp v -> covered sc o -> modifies o = true -> is_reset o = false -> performed (fst (exec P o s)) ->
  exists v', holds (snd (exec P o s)) pp v' /\
    fst (vstep P Saved (mk_world (Some (pp, v)) true None) o) = mk_world (Some (pp, v')) true (Some (pp, v')).
Proof.
  intros [f R] Ho Hm Hr Hp. destruct (sound_step P sc l s0 So o s _ R Ho Hr) as (wr & _ & R1 & Ha).
  assert (forall v' , 
    (performed (fst (exec P o s)) -> vstep P wr (mk_world (Some (pp, v)) true f) o = commit wr (mk_world (Some (pp, v)) true f) pp v' /\
      vstep P Saved (mk_world (Some (pp, v)) true None) o = commit Saved (mk_world (Some (pp, v)) true None) pp v') ->
    exists v', holds (snd (exec P o s)) pp v' /\
    fst (vstep P Saved (mk_world (Some (pp, v)) true None) o) = mk_world (Some (pp, v')) true (Some (pp, v'))) as K.
  { intros v' H. exists v'. destruct (H Hp) as [H1 H2]. rewrite H1 in R1. rewrite H2.
    split; [|reflexivity]. destruct wr; cbn in R1; eexists; exact R1. }
  assert (forall e, (e = CreateDirFailure \/ e = FileWriteFailure -> False) ->
    snd (vstep P wr (mk_world (Some (pp, v)) true f) o) = OErr e -> False) as K'.
  { intros e He E. rewrite E in Ha. cbn in Ha. destruct Hp as [H|[H|H]]; rewrite Ha in H; try discriminate H; injection H as ->; auto. }
  destruct o; try discriminate Hm; try discriminate Hr.
  - cbn in *. destruct (has_passwords v (host s1)); [exfalso; eapply (K' SiteHasPasswords); [intros [|]; discriminate|reflexivity]|].
    destruct (bytes_eqb (host s1) (target v a)); [exfalso; eapply (K' AliasToSelf); [intros [|]; discriminate|reflexivity]|].
    eapply K. intros _. split; reflexivity.
  - cbn in *. destruct (v_sites v !! host s1) as [[a|]|];
      try (exfalso; eapply (K' NoSuchAlias); [intros [|]; discriminate|reflexivity]).
    eapply K. intros _. split; reflexivity.
  - destruct l0 as [|x l0]; [discriminate Hm|]. cbn in *. destruct (v_sites v !! x) as [a|].
    + destruct (drop_sites (delete x (v_sites v)) l0) as [m []].
      * eapply K. intros _. split; reflexivity.
      * exfalso. eapply (K' KeyMissing); [intros [|]; discriminate|reflexivity].
    + exfalso. eapply (K' KeyMissing); [intros [|]; discriminate|reflexivity].
  - cbn in *. eapply K. intros _. split; reflexivity.
  - cbn in *. eapply K. intros _. split; reflexivity.
  - cbn in *. destruct (v_pw v !! (target v s1, n, rev_of r)) as [e|];
      [|exfalso; eapply (K' KeyMissing); [intros [|]; discriminate|reflexivity]].
    eapply K. intros _. split; reflexivity.
  - cbn in *. destruct (v_pw v !! (target v s1, n, rev_of r)) as [e|];
      [|exfalso; eapply (K' KeyMissing); [intros [|]; discriminate|reflexivity]].
    eapply K. intros _. split; reflexivity.
Qed.

(** Short forms. *)
Lemma holds_alias s pp v x : holds s pp v -> covered sc (GetAlias x) ->
  fst (exec P (GetAlias x) s) = match v_sites v !! host x with Some (Some a) => OText a | _ => OErr NoSuchAlias end.
Proof.
  intros H Hc. pose proof (look s pp v _ H Hc eq_refl) as Ha. cbn in Ha |- *.
  destruct (v_sites v !! host x) as [[a|]|]; exact Ha.
Qed.

Lemma holds_resolved s pp v x : holds s pp v -> covered sc (GetAlias x) -> resolved P s x = target v x.
Proof.
  intros H Hc. unfold resolved, target. rewrite (holds_alias s pp v x H Hc).
  destruct (v_sites v !! host x) as [[a|]|]; reflexivity.
Qed.

Lemma holds_get s pp v x n r : holds s pp v -> covered sc (Get x n r) ->
  fst (exec P (Get x n r) s) =
  match v_pw v !! (target v x, n, rev_of r) with
  | Some e => reveal P pp (target v x, n, rev_of r) (e_secret e) | None => OErr KeyMissing end.
Proof.
  intros H Hc. pose proof (look s pp v _ H Hc eq_refl) as Ha. cbn [vstep w_open w_mem] in Ha.
  destruct (v_pw v !! _) as [e|]; cbn [snd] in Ha; [|exact Ha].
  unfold reveal in *. destruct (e_secret e); [|exact Ha]. destruct (derive_password _ _ _ _ _); exact Ha.
Qed.
Lemma holds_notes s pp v x n r : holds s pp v -> covered sc (GetNotes x n r) ->
  fst (exec P (GetNotes x n r) s) =
  match v_pw v !! (target v x, n, rev_of r) with Some e => OText (e_notes e) | None => OErr KeyMissing end.
Proof.
  intros H Hc. pose proof (look s pp v _ H Hc eq_refl) as Ha. cbn [vstep w_open w_mem] in Ha.
  destruct (v_pw v !! _) as [e|]; exact Ha.
Qed.
Lemma holds_has s pp v x n r : holds s pp v -> covered sc (Has x n r) ->
  fst (exec P (Has x n r) s) = OBool (match v_pw v !! (target v x, n, rev_of r) with Some e => true | None => false end).
Proof. intros H Hc. exact (look s pp v _ H Hc eq_refl). Qed.

Lemma cover_get x n r : covered sc (Get x n r) <-> covered sc (Has x n r).
Proof. reflexivity. Qed.
Lemma cover_notes x n r : covered sc (GetNotes x n r) <-> covered sc (Has x n r).
Proof. reflexivity. Qed.
Lemma cover_alias x n r : covered sc (Has x n r) -> covered sc (GetAlias x).
Proof. intros (H1 & H2 & _ & H4). split; [apply H1|]. repeat split; [exact H2|intros ? []|intros ? []]. Qed.

Notation s1 := (snd (run P l s0)).

(** C33: what [set_notes] does. *)
Lemma notes_after x n r t : unlocked s1 = true -> covered sc (SetNotes x n r t) ->
  performed (fst (exec P (SetNotes x n r t) s1)) ->
  let s2 := snd (exec P (SetNotes x n r t) s1) in
  fst (exec P (GetNotes x n r) s2) = OText t /\
  fst (exec P (Get x n r) s2) = fst (exec P (Get x n r) s1) /\
  fst (exec P (Has x n r) s1) = OBool true.
Proof.
  intros Hu Hc Hp. cbv zeta. destruct (sound_open Hu) as (pp & v & H & _).
  assert (covered sc (Has x n r)) as Hc'.
  { destruct Hc as ((? & ? & ? & ?) & ? & ? & ?). repeat split; assumption. }
  destruct (change _ pp v _ H Hc eq_refl eq_refl Hp) as (v' & H' & Hv). cbn in Hv.
  rewrite (holds_has _ _ _ _ _ _ H Hc'), (holds_get _ _ _ _ _ _ H Hc'), (holds_get _ _ _ _ _ _ H' Hc'), (holds_notes _ _ _ _ _ _ H' Hc').
  destruct (v_pw v !! (target v x, n, rev_of r)) as [e|] eqn:E; cbn in Hv; [|discriminate Hv]. injection Hv as <-.
  cbn [v_pw]. assert (forall m, target (mk_vault (v_sites v) m) x = target v x) as -> by reflexivity.
  rewrite lookup_insert. auto.
Qed.

(** C25 *)
Definition sees (o : op) (x n r : bytes) : Prop := o = Get x n r \/ o = GetNotes x n r \/ o = Has x n r.

Lemma sees_same s s' pp v v' q x n r : holds s pp v -> holds s' pp v' -> covered sc (Has x n r) -> sees q x n r ->
  target v' x = target v x ->
  v_pw v' !! (target v x, n, rev_of r) = v_pw v !! (target v x, n, rev_of r) ->
  fst (exec P q s') = fst (exec P q s).
Proof.
  intros H H' Hc [->|[->| ->]] Ht Hv.
  - rewrite (holds_get _ _ _ _ _ _ H Hc), (holds_get _ _ _ _ _ _ H' Hc), Ht, Hv. reflexivity.
  - rewrite (holds_notes _ _ _ _ _ _ H Hc), (holds_notes _ _ _ _ _ _ H' Hc), Ht, Hv. reflexivity.
  - rewrite (holds_has _ _ _ _ _ _ H Hc), (holds_has _ _ _ _ _ _ H' Hc), Ht, Hv. reflexivity.
Qed.

Lemma target_put v i e x : target (put v i e) x = target v x.
Proof.
  unfold target, put. cbn [v_sites]. destruct (v_sites v !! pid_site i) eqn:E; [reflexivity|].
  destruct (decide (pid_site i = host x)) as [E'|E'].
  - rewrite <- E', lookup_insert, E. reflexivity.
  - rewrite lookup_insert_ne by exact E'. reflexivity.
Qed.

Lemma others_unchanged o i q x n r :
  unlocked s1 = true -> covered sc o -> covered sc (Has x n r) -> addresses P s1 o i -> performed (fst (exec P o s1)) ->
  sees q x n r -> i <> (resolved P s1 x, n, rev_of r) ->
  fst (exec P q (snd (exec P o s1))) = fst (exec P q s1).
Proof.
  intros Hu Hc Hq Ha Hp Hs Hne. destruct (sound_open Hu) as (pp & v & H & _).
  rewrite (holds_resolved _ _ _ _ H (cover_alias _ _ _ Hq)) in Hne.
  assert (modifies o = true /\ is_reset o = false) as [Hm Hr] by (destruct o; try contradiction; auto).
  destruct (change _ pp v _ H Hc Hm Hr Hp) as (v' & H' & Hv).
  apply (sees_same _ _ pp v v' q x n r H H' Hq Hs); destruct o; try contradiction; cbn [addresses] in Ha; cbn in Hv;
    (rewrite (holds_resolved _ _ _ _ H) in Ha
      by (destruct Hc as ((? & _) & ? & _); repeat split; [assumption|assumption|intros ? []|intros ? []])); subst i.
  - injection Hv as <-. apply target_put.
  - injection Hv as <-. apply target_put.
  - destruct (v_pw v !! _) as [e|]; cbn in Hv; [|discriminate Hv]. injection Hv as <-. reflexivity.
  - destruct (v_pw v !! _) as [e|]; cbn in Hv; [|discriminate Hv]. injection Hv as <-. reflexivity.
  - injection Hv as <-. unfold put. cbn [v_pw]. apply lookup_insert_ne, Hne.
  - injection Hv as <-. unfold put. cbn [v_pw]. apply lookup_insert_ne, Hne.
  - destruct (v_pw v !! (target v s, n0, rev_of r0)) as [e|]; cbn in Hv; [|discriminate Hv]. injection Hv as <-.
    cbn [v_pw]. apply lookup_insert_ne, Hne.
  - destruct (v_pw v !! (target v s, n0, rev_of r0)) as [e|]; cbn in Hv; [|discriminate Hv]. injection Hv as <-.
    cbn [v_pw]. apply lookup_delete_ne, Hne.
Qed.

(** Calls about the entries of sites. *)
Definition site_call (o : op) (x : bytes) : Prop :=
  match o with
  | SetAlias y _ | RemoveAlias y => host y <> host x
  | RemoveSites l => ~ In (host x) l
  | _ => False
  end.

Lemma drop_sites_other l' : forall m x, ~ In x l' -> fst (drop_sites m l') !! x = m !! x.
Proof.
  induction l' as [|y l' IH]; intros m x H; [reflexivity|]. cbn [drop_sites]. destruct (m !! y) eqn:E; [|reflexivity].
  rewrite IH by (intros Hin; apply H; right; exact Hin). apply lookup_delete_ne. intros ->. apply H. left. reflexivity.
Qed.

Lemma site_others_unchanged o q x n r :
  unlocked s1 = true -> covered sc o -> covered sc (Has x n r) -> site_call o x -> performed (fst (exec P o s1)) ->
  sees q x n r \/ q = GetAlias x ->
  fst (exec P q (snd (exec P o s1))) = fst (exec P q s1).
Proof.
  intros Hu Hc Hq Ha Hp Hs. destruct (sound_open Hu) as (pp & v & H & _).
  destruct (modifies o) eqn:Hm.
  2:{ destruct o; try contradiction; try discriminate Hm. destruct l0; [reflexivity|discriminate Hm]. }
  assert (is_reset o = false) as Hr by (destruct o; try contradiction; auto).
  destruct (change _ pp v _ H Hc Hm Hr Hp) as (v' & H' & Hv).
  assert (v_sites v' !! host x = v_sites v !! host x /\ v_pw v' = v_pw v) as [E1 E2].
  { destruct o; try contradiction; cbn in Ha.
    - cbn in Hv. destruct (has_passwords v (host s)); [discriminate Hv|].
      destruct (bytes_eqb _ _); [discriminate Hv|]. cbn in Hv. injection Hv as <-. cbn. split; [|reflexivity]. apply lookup_insert_ne, Ha.
    - cbn in Hv. destruct (v_sites v !! host s) as [[a|]|]; try discriminate Hv. cbn in Hv. injection Hv as <-. cbn.
      split; [|reflexivity]. apply lookup_delete_ne, Ha.
    - destruct l0 as [|y l0]; [discriminate Hm|]. pose proof (drop_sites_other (y :: l0) (v_sites v) (host x) Ha) as Hd.
      cbn in Hv, Hd. destruct (v_sites v !! y) as [a|] eqn:Ey; [|discriminate Hv].
      destruct (drop_sites (delete y (v_sites v)) l0) as [m []]; [|discriminate Hv].
      cbn in Hv. injection Hv as <-. cbn. split; [exact Hd|reflexivity]. }
  assert (target v' x = target v x) as Et by (unfold target; rewrite E1; reflexivity).
  destruct Hs as [Hs| ->].
  - apply (sees_same _ _ pp v v' q x n r H H' Hq Hs Et). rewrite E2. reflexivity.
  - rewrite (holds_alias _ _ _ _ H (cover_alias _ _ _ Hq)), (holds_alias _ _ _ _ H' (cover_alias _ _ _ Hq)), E1. reflexivity.
Qed.

(** C34 *)
Lemma list_exact x pattern : unlocked s1 = true -> covered sc (ListPasswords x pattern) ->
  exists items pp, s_primary s1 = Some pp /\ fst (exec P (ListPasswords x pattern) s1) = OPasswords items /\
    List.NoDup (map fst items) /\
    (forall y n r e, In (y, n, r, e) items -> y = resolved P s1 x /\ p_wild P pattern n = true) /\
    forall n r, covered sc (Has x n r) -> let i := (resolved P s1 x, n, rev_of r) in
      (fst (exec P (Has x n r) s1) = OBool true /\ p_wild P pattern n = true <-> exists e, In (i, e) items) /\
      forall e, In (i, e) items -> fst (exec P (GetNotes x n r) s1) = OText (e_notes e) /\
                                   fst (exec P (Get x n r) s1) = reveal P pp i (e_secret e).
Proof.
  intros Hu Hc. destruct (sound_open Hu) as (pp & v & H & Hpp).
  assert (covered sc (GetAlias x)) as Hca.
  { destruct Hc as (? & ? & _). repeat split; [assumption|assumption|intros ? []|intros ? []]. }
  pose proof (look _ pp v _ H Hc eq_refl) as Ha. cbn in Ha. destruct Ha as (items & Hi & Hperm).
  exists items, pp. rewrite (holds_resolved _ _ _ _ H Hca). set (y0 := target v x) in *.
  split; [exact Hpp|]. split; [exact Hi|].
  assert (forall i e, In (i, e) items <-> v_pw v !! i = Some e /\ pid_site i = y0 /\ p_wild P pattern (pid_name i) = true) as Hin.
  { intros i e. split.
    - intros Hx. apply (Permutation_in _ Hperm) in Hx. apply filter_In in Hx. destruct Hx as [Hx Hf].
      rewrite <- elem_of_list_In in Hx. apply elem_of_map_to_list in Hx. apply andb_true_iff in Hf. destruct Hf as [Hf ?].
      apply bytes_eqb_eq in Hf. auto.
    - intros (Hx & Hs & Hw). apply (Permutation_in _ (Permutation_sym Hperm)), filter_In. split.
      + rewrite <- elem_of_list_In. apply elem_of_map_to_list, Hx.
      + rewrite Hw, Hs, bytes_eqb_refl. reflexivity. }
  split; [|split].
  - apply (Permutation_NoDup (l := map fst (List.filter (fun '(i, _) => bytes_eqb (pid_site i) y0 && p_wild P pattern (pid_name i)) (map_to_list (v_pw v))))).
    { apply Permutation_map, Permutation_sym, Hperm. }
    pose proof (NoDup_fst_map_to_list (v_pw v)) as Hn. apply NoDup_ListNoDup in Hn. revert Hn. generalize (map_to_list (v_pw v)).
    change (fmap fst : list (pid * entry) -> list pid) with (map (@fst pid entry)).
    induction l0 as [|[i e] l0 IH]; cbn; [intros; constructor|]. intros Hn. inversion Hn; subst.
    destruct (_ && _); cbn; [|apply IH; assumption]. constructor; [|apply IH; assumption].
    intros Hx. apply in_map_iff in Hx. destruct Hx as ([i' e'] & E & Hx). cbn in E. subst i'. apply filter_In in Hx.
    match goal with H : ~ In i _ |- _ => apply H end. apply in_map_iff. exists (i, e'). split; [reflexivity|apply Hx].
  - intros y n r e Hx. apply Hin in Hx. destruct Hx as (_ & Hs & Hw). split; assumption.
  - intros n r Hq. cbv zeta. rewrite (holds_has _ _ _ _ _ _ H Hq). fold y0. split.
    + split.
      * intros [Hb Hw]. destruct (v_pw v !! (y0, n, rev_of r)) as [e|] eqn:E; [|discriminate Hb]. exists e. apply Hin. auto.
      * intros [e He]. apply Hin in He. destruct He as (-> & _ & Hw). auto.
    + intros e He. apply Hin in He. destruct He as (He & _ & _).
      rewrite (holds_notes _ _ _ _ _ _ H Hq), (holds_get _ _ _ _ _ _ H Hq). fold y0. rewrite He. auto.
Qed.

Lemma list_sites_exact pattern : unlocked s1 = true -> covered sc (ListSites pattern) ->
  exists items, fst (exec P (ListSites pattern) s1) = OSites items /\
    List.NoDup (map fst items) /\
    (forall y a, In (y, a) items -> p_wild P pattern y = true \/ exists t, a = Some t /\ p_wild P pattern t = true) /\
    forall y, host y = y -> covered sc (GetAlias y) ->
      (forall t, In (y, Some t) items <->
         fst (exec P (GetAlias y) s1) = OText t /\ (p_wild P pattern y = true \/ p_wild P pattern t = true)) /\
      (In (y, None) items -> fst (exec P (GetAlias y) s1) = OErr NoSuchAlias).
Proof.
  intros Hu Hc. destruct (sound_open Hu) as (pp & v & H & Hpp).
  pose proof (look _ pp v _ H Hc eq_refl) as Ha. cbn in Ha. destruct Ha as (items & Hi & Hperm).
  exists items. split; [exact Hi|].
  assert (forall y a, In (y, a) items <-> v_sites v !! y = Some a /\
            (match a with Some t => p_wild P pattern t | None => false end || p_wild P pattern y) = true) as Hin.
  { intros y a. split.
    - intros Hx. apply (Permutation_in _ Hperm) in Hx. apply filter_In in Hx. destruct Hx as [Hx Hf].
      rewrite <- elem_of_list_In in Hx. apply elem_of_map_to_list in Hx. auto.
    - intros (Hx & Hw). apply (Permutation_in _ (Permutation_sym Hperm)), filter_In. split; [|exact Hw].
      rewrite <- elem_of_list_In. apply elem_of_map_to_list, Hx. }
  split; [|split].
  - eapply (Permutation_NoDup (l := map fst (List.filter _ (map_to_list (v_sites v))))).
    { apply Permutation_map, Permutation_sym, Hperm. }
    pose proof (NoDup_fst_map_to_list (v_sites v)) as Hn. apply NoDup_ListNoDup in Hn. revert Hn. generalize (map_to_list (v_sites v)).
    change (fmap fst : list (bytes * option bytes) -> list bytes) with (map (@fst bytes (option bytes))).
    induction l0 as [|[i e] l0 IH]; cbn; [intros; constructor|]. intros Hn. inversion Hn; subst.
    destruct (_ || _); cbn; [|apply IH; assumption]. constructor; [|apply IH; assumption].
    intros Hx. apply in_map_iff in Hx. destruct Hx as ([i' e'] & E & Hx). cbn in E. subst i'. apply filter_In in Hx.
    match goal with H : ~ In i _ |- _ => apply H end. apply in_map_iff. exists (i, e'). split; [reflexivity|apply Hx].
  - intros y a Hx. apply Hin in Hx. destruct Hx as (_ & Hw). apply orb_true_iff in Hw.
    destruct a as [t|]; destruct Hw as [Hw|Hw]; eauto. discriminate Hw.
  - intros y Hy Hq. rewrite (holds_alias _ _ _ _ H Hq), Hy. split.
    + intros t. rewrite Hin, orb_true_iff. destruct (v_sites v !! y) as [[t'|]|].
      * split; [intros [[= ->] ?]|intros [[= ->] ?]]; tauto.
      * split; [intros [[=] _]|intros [[=] _]].
      * split; [intros [[=] _]|intros [[=] _]].
    + intros Hx. apply Hin in Hx. destruct Hx as [-> _]. reflexivity.
Qed.
End probe.

(** * Unlocking (C30) *)

Lemma vrun_inv P (I : world -> Prop) l : (forall o wr w, In o l -> I w -> I (fst (vstep P wr w o))) ->
  forall wrs w, I w -> I (fst (vrun P wrs w l)).
Proof.
  induction l as [|o l IH]; intros H [|wr wrs] w Hw; try exact Hw. cbn [vrun].
  pose proof (H o wr w (or_introl eq_refl) Hw) as H1. destruct (vstep P wr w o) as [w1 r].
  specialize (IH (fun o' wr' w' Ho => H o' wr' w' (or_intror Ho)) wrs w1 H1). destruct (vrun P wrs w1 l) as [w2 rs]. exact IH.
Qed.

Lemma writes_app P l1 : forall l2 wrs s, writes_ok P (l1 ++ l2) wrs s ->
  exists wrs1 wrs2, wrs = wrs1 ++ wrs2 /\ length wrs1 = length l1 /\ writes_ok P l1 wrs1 s /\ writes_ok P l2 wrs2 (snd (run P l1 s)).
Proof.
  induction l1 as [|o l1 IH]; intros l2 wrs s H.
  - exists [], wrs. repeat split. exact H.
  - destruct wrs as [|wr wrs]; [destruct H|]. destruct H as [H1 H2]. destruct (IH _ _ _ H2) as (wrs1 & wrs2 & -> & H3 & H4 & H5).
    exists (wr :: wrs1), wrs2. cbn. destruct (exec P o s) as [r s1]. cbn in *.
    destruct (run P l1 s1) as [rs s2]. cbn in *. auto.
Qed.

Lemma vrun_app P l1 : forall l2 wrs1 wrs2 w, length wrs1 = length l1 ->
  vrun P (wrs1 ++ wrs2) w (l1 ++ l2) =
  (fst (vrun P wrs2 (fst (vrun P wrs1 w l1)) l2), snd (vrun P wrs1 w l1) ++ snd (vrun P wrs2 (fst (vrun P wrs1 w l1)) l2)).
Proof.
  induction l1 as [|o l1 IH]; intros l2 [|wr wrs1] wrs2 w H; try discriminate H.
  - cbn. destruct (vrun P wrs2 w l2); reflexivity.
  - cbn. destruct (vstep P wr w o) as [w1 r]. rewrite IH by (injection H; auto). destruct (vrun P wrs1 w1 l1). reflexivity.
Qed.

Lemma vrun_len P l : forall wrs w, length wrs = length l -> length (snd (vrun P wrs w l)) = length l.
Proof.
  induction l as [|o l IH]; intros [|wr wrs] w H; try discriminate H; [reflexivity|]. cbn. destruct (vstep P wr w o) as [w1 r].
  specialize (IH wrs w1). destruct (vrun P wrs w1 l). cbn in *. rewrite IH; congruence.
Qed.
Lemma run_len P l : forall s, length (fst (run P l s)) = length l.
Proof.
  induction l as [|o l IH]; intros s; [reflexivity|]. cbn. destruct (exec P o s) as [r s1].
  specialize (IH s1). destruct (run P l s1). cbn in *. congruence.
Qed.

Definition has_pw (p : bytes) (m : option (bytes * vault)) : Prop := forall q v, m = Some (q, v) -> q = p.

Lemma vstep_keeps P p o wr w : is_reset o = false -> has_pw p (w_mem w) /\ has_pw p (w_file w) ->
  has_pw p (w_mem (fst (vstep P wr w o))) /\ has_pw p (w_file (fst (vstep P wr w o))).
Proof.
  intros Hr [Hm Hf].
  assert (forall v, has_pw p (Some (p, v))) as Hk by (intros v q v' [= -> _]; reflexivity).
  destruct w as [m op f]. cbn [w_mem w_file] in *.
  assert (forall v wr', let w' := fst (commit wr' (mk_world m op f) p v) in has_pw p (w_mem w') /\ has_pw p (w_file w')) as Hc.
  { intros v wr'. destruct wr'; cbn; auto. split; [apply Hk|]. intros q v' [=]. }
  destruct m as [[q v]|]; [rewrite (Hm q v eq_refl) in *|]; clear q || idtac;
    destruct op; destruct o; try discriminate Hr; cbn [vstep w_mem w_open w_file fst snd]; auto;
    repeat first [ apply Hc | match goal with |- context [match ?x with _ => _ end] =>
      lazymatch x with context [commit] => fail | _ => destruct x eqn:? end; cbn [w_mem w_open w_file fst snd]; auto end ].
Qed.

Lemma vstep_init P o wr w : is_reset o = false -> o <> Restart -> w_mem w <> None -> w_mem (fst (vstep P wr w o)) <> None.
Proof.
  intros Hr Ho Hm. destruct w as [m op f]. cbn [w_mem] in Hm.
  assert (forall p v wr', let w' := fst (commit wr' (mk_world m op f) p v) in w_mem w' <> None) as Hc.
  { intros p v wr'. destruct wr'; cbn; discriminate. }
  destruct m as [[q v]|]; [|congruence].
  destruct op; destruct o; try discriminate Hr; try congruence; cbn [vstep w_mem w_open w_file fst snd]; auto;
    repeat first [ apply Hc | match goal with |- context [match ?x with _ => _ end] =>
      lazymatch x with context [commit] => fail | _ => destruct x eqn:? end; cbn [w_mem w_open w_file fst snd]; auto; try discriminate end ].
Qed.

Lemma vstep_init_safe P o wr w : is_reset o = false -> wr <> Torn -> w_mem w <> None /\ w_file w <> None ->
  w_mem (fst (vstep P wr w o)) <> None /\ w_file (fst (vstep P wr w o)) <> None.
Proof.
  intros Hr Hw [Hm Hf]. destruct w as [m op f]. cbn [w_mem w_file] in *.
  assert (forall p v, let w' := fst (commit wr (mk_world m op f) p v) in w_mem w' <> None /\ w_file w' <> None) as Hc.
  { intros p v. destruct wr; cbn; split; try discriminate; congruence. }
  destruct m as [[q v]|]; [|congruence].
  destruct op; destruct o; try discriminate Hr; try congruence; cbn [vstep w_mem w_open w_file fst snd]; auto;
    repeat first [ apply Hc | match goal with |- context [match ?x with _ => _ end] =>
      lazymatch x with context [commit] => fail | _ => destruct x eqn:? end; cbn [w_mem w_open w_file fst snd]; auto; try (split; [discriminate|exact Hf]) end ].
Qed.

Lemma init_rep P sc l s0 (So : sound P sc l s0) s w : srep P (sc_sites sc) (sc_ids sc) (sc_pws sc) (s_rand (snd (run P l s0))) s w ->
  fst (exec P Initialized s) = OBool (match w_mem w with Some _ => true | None => false end).
Proof.
  intros R. destruct (sound_step P sc l s0 So Initialized s w R) as (wr & _ & _ & H); try reflexivity; [|exact H].
  repeat split; intros ? [].
Qed.

Lemma reset_unlock P sc l p l2 s0 q :
  sound P sc (l ++ Reset p :: l2) s0 -> fst (exec P (Reset p) (snd (run P l s0))) = ODone ->
  Forall (fun o => is_reset o = false) l2 -> covered sc (Unlock q) ->
  let s := snd (run P (l ++ Reset p :: l2) s0) in
  (~ In Restart l2 \/ (forall n k, p_write P n <> WriteFailsAfter k) -> fst (exec P Initialized s) = OBool true) /\
  (fst (exec P Initialized s) = OBool true ->
     (q = p -> fst (exec P (Unlock q) s) = ODone) /\
     (q <> p -> exec P (Unlock q) s = (OErr DecryptionFailure, s))) /\
  (fst (exec P Initialized s) = OBool false -> exec P (Unlock q) s = (OErr StorageNotInitialized, s)).
Proof.
  intros So Hd Hl Hc. cbv zeta. pose proof (sound_rep P sc _ s0 So) as (wrs & Hw & R & Ha).
  destruct (writes_app P l (Reset p :: l2) wrs s0 Hw) as (wrs1 & wrs2 & -> & Hlen & Hw1 & Hw2).
  destruct wrs2 as [|wr wrs2]; [destruct Hw2|]. destruct Hw2 as [Hwr Hw2].
  rewrite (vrun_app P l (Reset p :: l2) wrs1 (wr :: wrs2) nothing Hlen) in R, Ha. cbn [fst snd] in R, Ha.
  rewrite run_app in Ha. cbn [fst] in Ha.
  assert (length (fst (run P l s0)) = length (snd (vrun P wrs1 nothing l))) as El by (rewrite run_len, vrun_len by exact Hlen; reflexivity).
  destruct (Forall2_app_inv _ _ _ _ _ El Ha) as [_ Ha2]. clear Ha.
  set (w := fst (vrun P wrs1 nothing l)) in *. set (s1 := snd (run P l s0)) in *.
  assert (wr = Saved) as ->.
  { cbn [run vrun] in Ha2. destruct (exec P (Reset p) s1) as [r s2]. cbn [fst] in Hd. subst r.
    destruct (run P l2 s2) as [rs s3]. cbn [fst] in Ha2.
    destruct (vstep P wr w (Reset p)) as [w1 r1] eqn:Ev. destruct (vrun P wrs2 w1 l2) as [w2 rs2]. cbn [snd] in Ha2.
    inversion Ha2; subst. cbn in Ev. destruct wr; cbn in Ev; injection Ev as <- <-; cbn in *; congruence. }
  assert (fst (vstep P Saved w (Reset p)) = mk_world (Some (p, empty_vault)) true (Some (p, empty_vault))) as E1 by reflexivity.
  assert (fst (vrun P (Saved :: wrs2) w (Reset p :: l2)) = fst (vrun P wrs2 (mk_world (Some (p, empty_vault)) true (Some (p, empty_vault))) l2)) as E2.
  { cbn [vrun]. destruct (vstep P Saved w (Reset p)) as [w1 r1]. cbn [fst] in E1. subst w1.
    destruct (vrun P wrs2 _ l2). reflexivity. }
  rewrite E2 in R. clear E1 E2 Ha2. set (w0 := mk_world _ _ _) in *. set (wE := fst (vrun P wrs2 w0 l2)) in *.
  rewrite List.Forall_forall in Hl.
  assert (has_pw p (w_mem wE) /\ has_pw p (w_file wE)) as [Hpw _].
  { apply (vrun_inv P (fun w => has_pw p (w_mem w) /\ has_pw p (w_file w))).
    - intros o wr w' Ho Hw'. apply vstep_keeps; [apply Hl, Ho|exact Hw'].
    - split; intros q' v' [= <- _]; reflexivity. }
  pose proof (init_rep P sc _ s0 So _ _ R) as Hi.
  destruct (sound_step P sc _ s0 So (Unlock q) _ _ R Hc eq_refl) as (wr & _ & _ & Hu).
  split; [|split].
  - intros Hcase. rewrite Hi.
    assert (w_mem wE <> None) as Hn.
    { destruct Hcase as [Hr|Hs].
      - apply (vrun_inv P (fun w => w_mem w <> None)); [|discriminate].
        intros o wr' w' Ho Hw'. apply vstep_init; [apply Hl, Ho|intros ->; contradiction|exact Hw'].
      - assert (forall l2 wrs2 s w, (forall o, In o l2 -> is_reset o = false) -> writes_ok P l2 wrs2 s -> w_mem w <> None /\ w_file w <> None ->
          w_mem (fst (vrun P wrs2 w l2)) <> None /\ w_file (fst (vrun P wrs2 w l2)) <> None) as K.
        { clear -Hs. induction l2 as [|o l2 IH]; intros [|wr wrs2] s w Hl Hw H; try exact H; try (destruct Hw; fail).
          destruct Hw as [Hw1 Hw2]. cbn [vrun].
          assert (wr <> Torn) as Hnt.
          { intros ->. cbn in Hw1. destruct (p_write P (s_flushes s)) eqn:E; cbn in Hw1; try discriminate. exact (Hs _ _ E). }
          pose proof (vstep_init_safe P o wr w (Hl o (or_introl eq_refl)) Hnt H) as H1. destruct (vstep P wr w o) as [w1 r].
          specialize (IH wrs2 _ w1 (fun o' Ho => Hl o' (or_intror Ho)) Hw2 H1). destruct (vrun P wrs2 w1 l2). exact IH. }
        apply (K l2 wrs2 (snd (exec P (Reset p) s1)) w0); [exact Hl|exact Hw2|]. split; discriminate. }
    destruct (w_mem wE); [reflexivity|congruence].
  - intros HI. rewrite Hi in HI. destruct (w_mem wE) as [[p' v]|] eqn:Em; [|discriminate HI].
    rewrite (Hpw p' v eq_refl) in Em. cbn [vstep] in Hu. rewrite Em in Hu. split.
    + intros ->. rewrite bytes_eqb_refl in Hu. exact Hu.
    + intros Hq. destruct (bytes_eqb q p) eqn:Eb; [apply bytes_eqb_eq in Eb; contradiction|]. cbn [snd agrees] in Hu.
      destruct (unlock_cases P q (snd (run P (l ++ Reset p :: l2) s0))) as [[H _]|[_ H]].
      * rewrite H in Hu. discriminate Hu.
      * rewrite (surjective_pairing (exec P (Unlock q) _)), H. f_equal. exact Hu.
  - intros HI. rewrite Hi in HI. destruct (w_mem wE) as [[p' v]|] eqn:Em; [discriminate HI|].
    cbn [vstep] in Hu. rewrite Em in Hu. cbn [snd agrees] in Hu.
    destruct (unlock_cases P q (snd (run P (l ++ Reset p :: l2) s0))) as [[H _]|[_ H]].
    + rewrite H in Hu. discriminate Hu.
    + rewrite (surjective_pairing (exec P (Unlock q) _)), H. f_equal. exact Hu.
Qed.
