(** Several processes. *)
From stdpp Require Import gmap.
From Coq Require Import Permutation ZArith ZifyBool ZifyNat ZifyN.
From Verif Require Import M_Base M_Base64 M_Utf8 M_Prims M_Types M_Crypto M_Recovery M_Json M_Serde M_Storage
  M_Passwords M_History S_Json S_Serde S_Vault S_Api S_History M_Processes S_Processes P_Base P_File P_Storage P_Api P_Vault
  P_History P_Calls P_Sound.

Lemma update_same {A} p (x : A) f : update p x f p = x.
Proof. unfold update. rewrite Nat.eqb_refl. reflexivity. Qed.
Lemma update_other {A} p q (x : A) f : q <> p -> update p x f q = f q.
Proof. intros H. unfold update. destruct (q =? p) eqn:E; [|reflexivity]. apply Nat.eqb_eq in E. contradiction. Qed.

Lemma seen_left p s m : seen_by p (left_by p s m) = s.
Proof. unfold seen_by, left_by. cbn. rewrite update_same. destruct s. reflexivity. Qed.
Lemma seen_act P p o m : seen_by p (snd (act P p o m)) = snd (exec P o (seen_by p m)).
Proof. unfold act. destruct (exec P o (seen_by p m)) as [r s]. apply seen_left. Qed.
Lemma act_out P p o m : fst (act P p o m) = fst (exec P o (seen_by p m)).
Proof. unfold act. destruct (exec P o (seen_by p m)) as [r s]. reflexivity. Qed.
Lemma procs_act P p o m q : q <> p -> ma_procs (snd (act P p o m)) q = ma_procs m q.
Proof. intros H. unfold act. destruct (exec P o (seen_by p m)) as [r s]. cbn. apply update_other, H. Qed.

Lemma interleave_app P l l' m :
  interleave P (l ++ l') m =
  (fst (interleave P l m) ++ fst (interleave P l' (snd (interleave P l m))), snd (interleave P l' (snd (interleave P l m)))).
Proof.
  revert m. induction l as [|[p o] l IH]; intros m; cbn [interleave app].
  - cbn [fst snd app]. destruct (interleave P l' m). reflexivity.
  - destruct (act P p o m) as [r m1]. rewrite IH. destruct (interleave P l m1) as [rs m2]. cbn [fst snd app]. reflexivity.
Qed.
Lemma interleave_cons P p o l m :
  interleave P ((p, o) :: l) m =
  (fst (act P p o m) :: fst (interleave P l (snd (act P p o m))), snd (interleave P l (snd (act P p o m)))).
Proof. cbn [interleave]. destruct (act P p o m) as [r m1]. cbn [fst snd]. destruct (interleave P l m1). reflexivity. Qed.
Lemma interleave_length P l m : length (fst (interleave P l m)) = length l.
Proof.
  revert m. induction l as [|[p o] l IH]; intros m; cbn [interleave]; [reflexivity|].
  destruct (act P p o m) as [r m1]. specialize (IH m1). destruct (interleave P l m1) as [rs m2]. cbn in *. lia.
Qed.

Lemma exec_rand P o s : s_rand s <= s_rand (snd (exec P o s)).
Proof.
  pose proof (run_grows P [o] s) as H. cbn [run] in H. destruct (exec P o s) as [r s1]. exact H.
Qed.
Lemma act_rand P p o m : ma_rand m <= ma_rand (snd (act P p o m)).
Proof. unfold act. pose proof (exec_rand P o (seen_by p m)) as H. destruct (exec P o (seen_by p m)) as [r s]. exact H. Qed.
Lemma interleave_rand P l m : ma_rand m <= ma_rand (snd (interleave P l m)).
Proof.
  revert m. induction l as [|[p o] l IH]; intros m; cbn [interleave]; [apply le_n|].
  pose proof (act_rand P p o m) as H. destruct (act P p o m) as [r m1]. specialize (IH m1). destruct (interleave P l m1) as [rs m2].
  cbn [snd] in *. lia.
Qed.

Lemma vact_eq P wr x p o :
  vact P wr x p o =
  let w := vstep P wr (mk_world (fst (vs_procs x p)) (snd (vs_procs x p)) (vs_file x)) o in
  (mk_vaults (fun q => if q =? p then (w_mem (fst w), w_open (fst w)) else vs_procs x q) (w_file (fst w)), snd w).
Proof. unfold vact. destruct (vs_procs x p) as [mem opened]. cbn [fst snd]. destruct (vstep P wr _ o) as [w r]. reflexivity. Qed.

Section processes.
Context (P : prims) (HP : prims_ok P).
Context (Ds : list bytes) (Ids : list (bytes * bytes)) (Qs : list bytes) (bound : nat).
Context (HDs : forall s, In s Ds -> utf8 s = true).
Context (HIds : forall n r, In (n, r) Ids -> utf8 n = true /\ utf8 r = true /\ ~ In x00 n).
Context (HA : assumptions P Ds Ids Qs bound).

Definition mrep (m : machine) (x : vaults) : Prop :=
  (forall p, mem_rep P Ds Ids Qs bound (seen_by p m) (mk_world (fst (vs_procs x p)) (snd (vs_procs x p)) (vs_file x))) /\
  file_rep P Ds Ids Qs bound (ma_disk m) (vs_file x).

(** The representation of a process does not depend on the file. *)
Lemma mem_rep_file s s' w f : s_data s' = s_data s -> s_key s' = s_key s -> s_hmac s' = s_hmac s -> s_primary s' = s_primary s ->
  mem_rep P Ds Ids Qs bound s w -> mem_rep P Ds Ids Qs bound s' (mk_world (w_mem w) (w_open w) f).
Proof.
  intros H1 H2 H3 H4. unfold mem_rep, secrets_rep. cbn [w_mem w_open]. rewrite H1, H2, H3, H4. exact (fun H => H).
Qed.

Lemma act_rep p o m x :
  mrep m x -> in_scope Ds Ids Qs o -> calm P o (seen_by p m) ->
  (forall pp, o = Reset pp -> ma_rand (snd (act P p o m)) <= bound) ->
  exists wr, allowed (p_write P (ma_flushes m)) wr /\ mrep (snd (act P p o m)) (fst (vact P wr x p o)) /\
    agrees P (fst (act P p o m)) (snd (vact P wr x p o)).
Proof.
  intros [R F] Ho Hc Hb. set (w := mk_world (fst (vs_procs x p)) (snd (vs_procs x p)) (vs_file x)).
  assert (srep P Ds Ids Qs bound (seen_by p m) w) as S by (split; [apply R|exact F]).
  destruct (step_any P HP Ds Ids Qs bound HDs HIds HA o (seen_by p m) w S Ho Hc) as (wr & Hwr & [R1 F1] & Ha).
  { intros pp ->. pose proof (reset_draws P pp (seen_by p m) HP) as H. specialize (Hb pp eq_refl). unfold act in Hb.
    destruct (exec P (Reset pp) (seen_by p m)) as [r s]. cbn [snd left_by ma_rand] in *. lia. }
  exists wr. split; [exact Hwr|]. rewrite vact_eq. cbv zeta. fold w. destruct (vstep P wr w o) as [w1 r1]. cbn [fst snd] in *.
  rewrite act_out. split; [|exact Ha]. split.
  - intros q. cbn [vs_procs vs_file]. destruct (q =? p) eqn:Eq.
    + apply Nat.eqb_eq in Eq. subst q. rewrite seen_act. cbn [fst snd]. destruct w1. exact R1.
    + apply Nat.eqb_neq in Eq. pose proof (procs_act P p o m q Eq) as Hq.
      apply (mem_rep_file (seen_by q m) (seen_by q (snd (act P p o m)))
        (mk_world (fst (vs_procs x q)) (snd (vs_procs x q)) (vs_file x)) (w_file w1));
        try (unfold seen_by; cbn; rewrite Hq; reflexivity). apply R.
  - cbn [vs_file]. replace (ma_disk (snd (act P p o m))) with (s_disk (snd (exec P o (seen_by p m)))); [exact F1|].
    unfold act. destruct (exec P o (seen_by p m)). reflexivity.
Qed.

Lemma interleave_rep l : forall m x,
  mrep m x -> Forall (fun '(_, o) => in_scope Ds Ids Qs o) l -> calm_all P l m -> ma_rand (snd (interleave P l m)) <= bound ->
  exists wrs, all_writes_ok P l wrs m /\ mrep (snd (interleave P l m)) (fst (vinterleave P wrs x l)) /\
    Forall2 (agrees P) (fst (interleave P l m)) (snd (vinterleave P wrs x l)).
Proof.
  induction l as [|[p o] l IH]; intros m x R Hs Hc Hb.
  - exists []. split; [exact I|]. split; [exact R|constructor].
  - pose proof (List.Forall_inv Hs) as Ho. apply List.Forall_inv_tail in Hs. destruct Hc as [Hc1 Hc2].
    assert (ma_rand (snd (act P p o m)) <= bound) as Hb1.
    { cbn [interleave] in Hb. destruct (act P p o m) as [r m1]. pose proof (interleave_rand P l m1) as H.
      destruct (interleave P l m1) as [rs m2]. cbn [snd] in *. lia. }
    destruct (act_rep p o m x R Ho) as (wr & Hwr & R1 & Ha); [|intros; exact Hb1|].
    { unfold calm. destruct o; try exact I. rewrite <- act_out. exact Hc1. }
    destruct (IH (snd (act P p o m)) (fst (vact P wr x p o)) R1 Hs Hc2) as (wrs & H1 & H2 & H3).
    { rewrite interleave_cons in Hb. exact Hb. }
    exists (wr :: wrs). rewrite interleave_cons. cbn [all_writes_ok vinterleave fst snd].
    destruct (vact P wr x p o) as [x1 r1]. cbn [fst snd] in *.
    destruct (vinterleave P wrs x1 l) as [x2 rs2]. cbn [fst snd] in *. split; [auto|]. split; [exact H2|]. constructor; assumption.
Qed.
End processes.

Lemma unused_mrep P Ds Ids Qs bound m : unused P m -> mrep P Ds Ids Qs bound m no_vaults.
Proof.
  intros [H1 H2]. split; [|exact H2]. intros p. unfold mem_rep, seen_by. cbn. rewrite H1. cbn. auto.
Qed.

Section sound.
Context (P : prims) (sc : scope) (l : list (nat * op)) (m : machine) (So : sound_all P sc l m).
Notation bound := (ma_rand (snd (interleave P l m))).
Notation Mrep := (mrep P (sc_sites sc) (sc_ids sc) (sc_pws sc) bound).
Notation scoped := (in_scope (sc_sites sc) (sc_ids sc) (sc_pws sc)).

Lemma all_scoped l' : Forall (fun '(_, o) => covered sc o) l' -> Forall (fun '((_, o) : nat * op) => scoped o) l'.
Proof. apply List.Forall_impl. intros [p o]. apply covered_scope. Qed.

Lemma all_rep : exists wrs, all_writes_ok P l wrs m /\ Mrep (snd (interleave P l m)) (fst (vinterleave P wrs no_vaults l)) /\
  Forall2 (agrees P) (fst (interleave P l m)) (snd (vinterleave P wrs no_vaults l)).
Proof.
  apply interleave_rep; try exact (sa_calm _ _ _ _ So); try exact (sa_prims _ _ _ _ So).
  - exact (sa_sites _ _ _ _ So).
  - exact (sa_ids _ _ _ _ So).
  - exact (sa_assumptions _ _ _ _ So).
  - apply unused_mrep, (sa_unused _ _ _ _ So).
  - apply all_scoped, (sa_covered _ _ _ _ So).
  - apply le_n.
Qed.
End sound.

(** C59 *)
Lemma processes_vaults P sc l m : sound_all P sc l m ->
  exists wrs, all_writes_ok P l wrs m /\ Forall2 (agrees P) (fst (interleave P l m)) (snd (vinterleave P wrs no_vaults l)).
Proof. intros So. destruct (all_rep P sc l m So) as (wrs & H1 & _ & H3). eauto. Qed.

Lemma saved_all P l : (forall n, p_write P n = WriteOk) -> forall wrs m, all_writes_ok P l wrs m -> wrs = repeat Saved (length l).
Proof.
  intros Hw. induction l as [|[p o] l IH]; intros [|wr wrs] m H; cbn in H; try contradiction; [reflexivity|].
  destruct H as [H1 H2]. rewrite Hw in H1. cbn in H1. subst. cbn. f_equal. eapply IH, H2.
Qed.

(** * One process at a time *)

Lemma sequential P l : forall p m, one_at_a_time p l ->
  exists q, fst (interleave P l m) = fst (run P (map snd l) (seen_by p m)) /\
            seen_by q (snd (interleave P l m)) = snd (run P (map snd l) (seen_by p m)).
Proof.
  induction l as [|[q o] l IH]; intros p m H; [exists p; split; reflexivity|].
  destruct H as [H1 H2]. cbn [interleave map run snd].
  assert (exec P o (seen_by q m) = exec P o (seen_by p m)) as E.
  { destruct H1 as [-> | ->]; reflexivity. }
  destruct (IH q (snd (act P q o m)) H2) as (q' & H3 & H4). rewrite seen_act, E in H3, H4.
  pose proof (act_out P q o m) as Ho. rewrite E in Ho.
  destruct (act P q o m) as [r m1]. destruct (exec P o (seen_by p m)) as [r' s1]. cbn [fst snd] in *. subst r'.
  destruct (interleave P l m1) as [rs m2]. destruct (run P (map snd l) s1) as [rs' s2]. cbn [fst snd] in *.
  exists q'. subst. auto.
Qed.

(** * What the others see *)

Lemma vact_other P wr x p o q : q <> p -> vs_procs (fst (vact P wr x p o)) q = vs_procs x q.
Proof. intros H. rewrite vact_eq. cbn. apply Nat.eqb_neq in H. rewrite H. reflexivity. Qed.

(** Only saving changes the file. *)
Lemma vstep_reading P wr w o : modifies o = false -> w_file (fst (vstep P wr w o)) = w_file w.
Proof.
  intros H. destruct w as [mem opened f].
  destruct o; try discriminate H; cbn [vstep w_mem w_open w_file];
    try (destruct l; [|discriminate H]); destruct opened; try destruct mem as [[pp' v]|]; cbv beta iota zeta; try reflexivity;
    try (destruct (bytes_eqb _ _); reflexivity); try (destruct (v_pw _ !! _); reflexivity).
Qed.

Lemma commit_done wr w pp v : snd (commit wr w pp v) = ODone ->
  w_file (fst (commit wr w pp v)) = w_mem (fst (commit wr w pp v)) /\ w_open (fst (commit wr w pp v)) = w_open w /\
  w_mem (fst (commit wr w pp v)) = Some (pp, v).
Proof. destruct wr; try discriminate. cbn. auto. Qed.

(** After a change was acknowledged, the file is what the process has in memory, and the process is open. *)
Lemma vstep_saved P wr w o : modifies o = true -> snd (vstep P wr w o) = ODone ->
  w_file (fst (vstep P wr w o)) = w_mem (fst (vstep P wr w o)) /\ w_open (fst (vstep P wr w o)) = true /\
  is_Some (w_mem (fst (vstep P wr w o))).
Proof.
  intros H. destruct w as [mem opened f]. destruct o; try discriminate H; cbn [vstep w_mem w_open w_file].
  { intros E. destruct (commit wr _ pp empty_vault) as [w' r] eqn:Ec. cbn [fst snd w_mem w_open w_file] in *. subst r.
    pose proof (commit_done wr (mk_world mem opened f) pp empty_vault) as H'. rewrite Ec in H'. destruct (H' eq_refl) as (H1 & H2 & H3).
    cbn [fst] in *. rewrite H1, H3. eauto. }
  all: try (destruct l as [|? ?]; [discriminate H|]).
  all: destruct opened; [|discriminate]; destruct mem as [[pp' v]|]; [|discriminate]; cbv beta iota zeta.
  all: repeat match goal with
       | |- snd (commit _ _ _ _) = ODone -> _ =>
           intros E; destruct (commit_done _ _ _ _ E) as (H1 & H2 & H3); rewrite H1, H2, H3; eauto
       | |- context [has_passwords ?a ?b] => destruct (has_passwords a b); [discriminate|]
       | |- context [bytes_eqb ?a ?b] => destruct (bytes_eqb a b); [discriminate|]
       | |- context [v_sites ?a !! ?b] => destruct (v_sites a !! b) as [[?|]|]; try discriminate
       | |- context [v_pw ?a !! ?b] => destruct (v_pw a !! b); try discriminate
       | |- context [drop_sites ?a ?b] => destruct (drop_sites a b) as [? []]; try discriminate
       end.
Qed.

(** Results do not depend on the file, and reading changes nothing. *)
Lemma vstep_file P wr mem opened f f' o : o <> Restart ->
  snd (vstep P wr (mk_world mem opened f') o) = snd (vstep P wr (mk_world mem opened f) o) /\
  w_mem (fst (vstep P wr (mk_world mem opened f') o)) = w_mem (fst (vstep P wr (mk_world mem opened f) o)) /\
  w_open (fst (vstep P wr (mk_world mem opened f') o)) = w_open (fst (vstep P wr (mk_world mem opened f) o)).
Proof.
  intros H. destruct o; try contradiction; cbn [vstep w_mem w_open w_file]; try (destruct l as [|? ?]);
    destruct opened, mem as [[pp' v]|], wr; cbv beta iota zeta; cbn [commit fst snd w_mem w_open w_file];
    repeat match goal with
       | |- context [has_passwords ?a ?b] => destruct (has_passwords a b)
       | |- context [bytes_eqb ?a ?b] => destruct (bytes_eqb a b)
       | |- context [match v_sites ?a !! ?b with _ => _ end] => destruct (v_sites a !! b) as [[?|]|]
       | |- context [v_pw ?a !! ?b] => destruct (v_pw a !! b)
       | |- context [drop_sites ?a ?b] => destruct (drop_sites a b) as [? []]
       end; auto.
Qed.
Lemma vstep_read P wr wr' mem opened f f' o : reading o = true ->
  snd (vstep P wr (mk_world mem opened f) o) = snd (vstep P wr' (mk_world mem opened f') o).
Proof.
  intros H. destruct o; try discriminate H; cbn [vstep w_mem w_open w_file]; try (destruct l as [|? ?]; [|discriminate H]);
    destruct opened, mem as [[pp' v]|]; cbv beta iota zeta; try reflexivity;
    repeat match goal with
       | |- context [match v_pw ?a !! ?b with _ => _ end] => destruct (v_pw a !! b)
       end; reflexivity.
Qed.

Lemma vinterleave_quiet P l : Forall (fun '(_, o) => modifies o = false) l -> forall wrs x,
  vs_file (fst (vinterleave P wrs x l)) = vs_file x.
Proof.
  induction l as [|[p o] l IH]; intros H [|wr wrs] x; try reflexivity. pose proof (List.Forall_inv H) as Ho. cbn in Ho.
  cbn [vinterleave]. specialize (IH (List.Forall_inv_tail H) wrs (fst (vact P wr x p o))).
  destruct (vact P wr x p o) as [x1 r] eqn:E. cbn [fst] in IH. destruct (vinterleave P wrs x1 l) as [x2 rs]. cbn [fst] in *.
  rewrite IH. rewrite vact_eq in E. injection E as <- _. cbn. apply vstep_reading, Ho.
Qed.

Lemma sound_all_app P sc l l' m : sound_all P sc (l ++ l') m ->
  Forall (fun '(_, o) => covered sc o) l /\ Forall (fun '(_, o) => covered sc o) l' /\ calm_all P l m /\
  calm_all P l' (snd (interleave P l m)).
Proof.
  intros So. pose proof (sa_covered _ _ _ _ So) as H. apply List.Forall_app in H. destruct H as [H1 H2].
  split; [exact H1|]. split; [exact H2|]. pose proof (sa_calm _ _ _ _ So) as Hc. clear -Hc. revert m Hc.
  induction l as [|[p o] l IH]; intros m Hc; [split; [exact I|exact Hc]|]. cbn [app calm_all] in Hc. destruct Hc as [Hc1 Hc2].
  destruct (IH _ Hc2) as [H1 H2]. rewrite interleave_cons. cbn [calm_all snd]. auto.
Qed.

Lemma agrees_done P e : agrees P ODone e -> e = ODone.
Proof.
  destruct e; cbn; intros H; try discriminate H; try reflexivity.
  - destruct H as (? & H & _). discriminate H.
  - destruct H as (? & H & _). discriminate H.
  - destruct H as [(? & H & _)|(H & _)]; discriminate H.
Qed.

(** A process started later sees what the last process that saved had. *)
Lemma writer_seen P sc l p o l2 m pp q :
  sound_all P sc (l ++ (p, o) :: l2) m -> modifies o = true -> fst (act P p o (snd (interleave P l m))) = ODone ->
  Forall (fun '(_, o') => modifies o' = false) l2 ->
  let m1 := snd (act P p o (snd (interleave P l m))) in
  let m2 := snd (interleave P l2 m1) in
  m_primary (ma_procs m1 p) = Some pp ->
  let m3 := snd (act P q Restart m2) in
  let m4 := snd (act P q (Unlock pp) m3) in
  fst (act P q (Unlock pp) m3) = ODone /\
  forall o', covered sc o' -> reading o' = true -> same_result P (fst (act P p o' m1)) (fst (act P q o' m4)).
Proof.
  intros So Hm Ho Hl m1 m2 Hpp m3 m4.
  pose proof (sa_prims _ _ _ _ So) as HP.
  pose proof (sa_assumptions _ _ _ _ So) as HA. set (bound := ma_rand _) in HA.
  destruct (sound_all_app _ _ _ _ _ So) as (C1 & C2 & K1 & K2).
  pose proof (all_scoped sc _ C1) as S1. pose proof (all_scoped sc _ C2) as S2.
  assert (ma_rand m2 = bound) as Hb.
  { unfold bound. rewrite interleave_app. cbn [snd]. rewrite interleave_cons. reflexivity. }
  pose proof (interleave_rand P l2 m1) as Hb1. fold m2 in Hb1.
  pose proof (act_rand P p o (snd (interleave P l m))) as Hb0. fold m1 in Hb0.
  pose proof (interleave_rep P HP _ _ _ bound (sa_sites _ _ _ _ So) (sa_ids _ _ _ _ So) HA) as Rep.
  pose proof (act_rep P HP _ _ _ bound (sa_sites _ _ _ _ So) (sa_ids _ _ _ _ So) HA) as Act.
  destruct (Rep l m no_vaults (unused_mrep _ _ _ _ _ _ (sa_unused _ _ _ _ So)) S1 K1) as (wrs & _ & R0 & _); [lia|].
  set (x0 := fst (vinterleave P wrs no_vaults l)) in *.
  destruct K2 as [K2 K3]. fold m1 in K3.
  destruct (Act p o _ x0 R0 (List.Forall_inv S2)) as (wr & _ & R1 & A1).
  { unfold calm. destruct o; try exact I. rewrite <- act_out. exact K2. }
  { intros. fold m1. lia. }
  fold m1 in R1. rewrite Ho in A1. apply agrees_done in A1.
  set (x1 := fst (vact P wr x0 p o)) in *.
  assert (vs_file x1 = fst (vs_procs x1 p) /\ snd (vs_procs x1 p) = true /\ is_Some (fst (vs_procs x1 p))) as (F1 & F2 & F3).
  { unfold x1. rewrite vact_eq in *. cbn [fst snd vs_file vs_procs] in *. rewrite Nat.eqb_refl. cbn [fst snd].
    apply vstep_saved; assumption. }
  destruct (Rep l2 m1 x1 R1 (List.Forall_inv_tail S2) K3) as (wrs2 & _ & R2 & _); [fold m2; lia|]. fold m2 in R2.
  pose proof (vinterleave_quiet P l2 Hl wrs2 x1) as F4. set (x2 := fst (vinterleave P wrs2 x1 l2)) in *.
  assert (in_scope (sc_sites sc) (sc_ids sc) (sc_pws sc) Restart) as Sr by (repeat split; intros; contradiction).
  destruct (Act q Restart m2 x2 R2 Sr I) as (wr3 & _ & R3 & _); [intros ? H; discriminate H|]. fold m3 in R3.
  set (x3 := fst (vact P wr3 x2 q Restart)) in *.
  assert (fst (vs_procs x3 q) = fst (vs_procs x1 p)) as G3.
  { unfold x3. rewrite vact_eq. cbn. rewrite Nat.eqb_refl. cbn. congruence. }
  destruct F3 as [[pp' v] F3].
  (* the primary password is the one of the file *)
  destruct R1 as [R1 RF]. pose proof (R1 p) as Rp. unfold mem_rep in Rp. cbn [w_mem w_open] in Rp. rewrite F3, F2 in Rp.
  destruct Rp as (i & D & _ & _ & Hprim). cbn [secrets_rep] in Hprim.
  assert (pp' = pp) as ->. { unfold seen_by in Hprim. cbn in Hprim. congruence. }
  assert (in_scope (sc_sites sc) (sc_ids sc) (sc_pws sc) (Unlock pp)) as Su.
  { split; [exact I|]. split; [intros ? []|]. split; [intros ? ? []|]. intros x [<-|[]]. exact (dr_pp _ _ _ _ _ _ _ _ _ D). }
  destruct (Act q (Unlock pp) m3 x3 R3 Su I) as (wr4 & _ & R4 & A4); [intros ? H; discriminate H|]. fold m4 in R4.
  rewrite vact_eq in A4. cbn [snd vstep w_mem] in A4. rewrite G3, F3, bytes_eqb_refl in A4. cbn [snd agrees] in A4.
  split; [exact A4|]. intros o' Co Hr.
  assert (forall p' m' x', mrep P (sc_sites sc) (sc_ids sc) (sc_pws sc) bound m' x' ->
    vs_procs x' p' = (Some (pp, v), true) ->
    agrees P (fst (act P p' o' m')) (snd (vstep P Saved (mk_world (Some (pp, v)) true None) o'))) as Look.
  { intros p' m' x' R' E'. destruct (Act p' o' m' x' R' (covered_scope sc o' Co)) as (wr' & _ & _ & A').
    - unfold calm. destruct o'; try exact I. discriminate Hr.
    - intros pp' ->. discriminate Hr.
    - rewrite vact_eq, E' in A'. cbn [fst snd] in A'. rewrite (vstep_read P wr' Saved _ _ _ None o' Hr) in A'. exact A'. }
  eexists. split; [apply (Look p m1 x1); [split; assumption|]|apply (Look q m4 _ R4)].
  - destruct (vs_procs x1 p) as [a b]. cbn in F2, F3. subst. reflexivity.
  - rewrite vact_eq. cbn. rewrite Nat.eqb_refl, G3, F3, bytes_eqb_refl. reflexivity.
Qed.

(** * Isolation *)

Lemma vinterleave_app P l l' wrs wrs' x : length wrs = length l ->
  vinterleave P (wrs ++ wrs') x (l ++ l') =
  (fst (vinterleave P wrs' (fst (vinterleave P wrs x l)) l'),
   snd (vinterleave P wrs x l) ++ snd (vinterleave P wrs' (fst (vinterleave P wrs x l)) l')).
Proof.
  revert wrs x. induction l as [|[p o] l IH]; intros [|wr wrs] x H; try discriminate H; cbn [app vinterleave].
  - cbn [fst snd app]. destruct (vinterleave P wrs' x l'). reflexivity.
  - destruct (vact P wr x p o) as [x1 r]. rewrite IH by (cbn in H; lia). destruct (vinterleave P wrs x1 l) as [x2 rs].
    cbn [fst snd app]. reflexivity.
Qed.

Lemma vinterleave_cons P wr wrs x p o l :
  vinterleave P (wr :: wrs) x ((p, o) :: l) =
  (fst (vinterleave P wrs (fst (vact P wr x p o)) l),
   snd (vact P wr x p o) :: snd (vinterleave P wrs (fst (vact P wr x p o)) l)).
Proof. cbn [vinterleave]. destruct (vact P wr x p o) as [x1 r]. cbn [fst snd]. destruct (vinterleave P wrs x1 l). reflexivity. Qed.

Lemma vinterleave_alone P p l : Forall (fun '(_, o) => o <> Restart) (calls_of p l) -> forall x x',
  vs_procs x' p = vs_procs x p ->
  outs_of p l (snd (vinterleave P (repeat Saved (length l)) x l)) =
  snd (vinterleave P (repeat Saved (length (calls_of p l))) x' (calls_of p l)).
Proof.
  induction l as [|[q o] l IH]; intros H x x' E; [reflexivity|]. cbn [length repeat]. rewrite vinterleave_cons.
  cbn [snd outs_of]. unfold calls_of in *. cbn [List.filter] in *. destruct (q =? p) eqn:Eq.
  - apply Nat.eqb_eq in Eq. subst q. cbn [length repeat]. rewrite vinterleave_cons. cbn [snd].
    pose proof (List.Forall_inv H) as Ho. cbn in Ho. apply List.Forall_inv_tail in H.
    destruct (vstep_file P Saved (fst (vs_procs x p)) (snd (vs_procs x p)) (vs_file x) (vs_file x') o Ho) as (H1 & H2 & H3).
    f_equal.
    + rewrite !vact_eq. cbn [snd]. rewrite E. symmetry. exact H1.
    + apply (IH H). rewrite !vact_eq. cbn [fst vs_procs]. rewrite Nat.eqb_refl, E, H2, H3. reflexivity.
  - apply (IH H). rewrite vact_other; [exact E|]. apply Nat.eqb_neq in Eq. congruence.
Qed.

Lemma outs_of_agree P p l : forall rs es, Forall2 (agrees P) rs es -> Forall2 (agrees P) (outs_of p l rs) (outs_of p l es).
Proof.
  induction l as [|[q o] l IH]; intros rs es H; [constructor|]. destruct H; cbn [outs_of]; [constructor|].
  destruct (q =? p); [constructor; auto|auto].
Qed.

Lemma same_results P rs rs' es : Forall2 (agrees P) rs es -> Forall2 (agrees P) rs' es -> Forall2 (same_result P) rs rs'.
Proof.
  intros H. revert rs'. induction H as [|r e rs es H1 H2 IH]; intros rs' H'; inversion H'; subst; constructor; auto.
  exists e. auto.
Qed.

Lemma isolated P sc l0 l p m : (forall n, p_write P n = WriteOk) ->
  sound_all P sc (l0 ++ l) m -> sound_all P sc (l0 ++ calls_of p l) m ->
  Forall (fun '(_, o) => o <> Restart) (calls_of p l) ->
  let m0 := snd (interleave P l0 m) in
  Forall2 (same_result P) (outs_of p l (fst (interleave P l m0))) (fst (interleave P (calls_of p l) m0)).
Proof.
  intros Hw So So' Hr m0.
  destruct (processes_vaults _ _ _ _ So) as (wrs & W & A). destruct (processes_vaults _ _ _ _ So') as (wrs' & W' & A').
  apply (saved_all P _ Hw) in W. apply (saved_all P _ Hw) in W'. subst.
  rewrite app_length, repeat_app, vinterleave_app, interleave_app in A, A' by apply repeat_length. cbn [fst snd] in A, A'.
  assert (forall b c d, Forall2 (agrees P) (fst (interleave P l0 m) ++ b) (c ++ d) ->
    length c = length (fst (interleave P l0 m)) -> Forall2 (agrees P) b d) as Split.
  { intros b c d H Hc. apply Forall2_app_inv in H; [apply H|]. symmetry. exact Hc. }
  assert (length (snd (vinterleave P (repeat Saved (length l0)) no_vaults l0)) = length (fst (interleave P l0 m))) as L.
  { rewrite interleave_length. generalize no_vaults. clear. induction l0 as [|[q o] l0 IH]; intros x; [reflexivity|]. cbn [length repeat vinterleave].
    destruct (vact P Saved x q o) as [x1 r]. specialize (IH x1). destruct (vinterleave P _ x1 l0). cbn in *. lia. }
  apply Split in A; [|exact L]. apply Split in A'; [|exact L].
  eapply same_results; [apply outs_of_agree, A|]. rewrite (vinterleave_alone P p l Hr _ _ eq_refl). exact A'.
Qed.
