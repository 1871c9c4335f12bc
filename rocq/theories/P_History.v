(** Histories of calls. *)
From stdpp Require Import gmap.
From Coq Require Import Permutation ZArith ZifyBool ZifyNat ZifyN.
From Verif Require Import M_Base M_Base64 M_Utf8 M_Prims M_Types M_Crypto M_Recovery M_Json M_Serde M_Storage
  M_Passwords M_History S_Json S_Serde S_Vault P_Base P_Base64 P_Crypto P_Recovery P_Json P_Serde P_Utf8
  P_File P_Storage P_Api P_Vault.

(** * Histories *)

Section history.
Context (P : prims) (HP : prims_ok P).
Context (Ds : list bytes) (Ids : list (bytes * bytes)) (Qs : list bytes) (bound : nat).
Context (HDs : forall s, In s Ds -> utf8 s = true).
Context (HIds : forall n r, In (n, r) Ids -> utf8 n = true /\ utf8 r = true /\ ~ In x00 n).
Context (HA : assumptions P Ds Ids Qs bound).

Lemma run_rep l : forall s w,
  srep P Ds Ids Qs bound s w -> Forall (in_scope Ds Ids Qs) l -> calm_run P l s -> s_rand (snd (run P l s)) <= bound ->
  exists wrs, writes_ok P l wrs s /\ srep P Ds Ids Qs bound (snd (run P l s)) (fst (vrun P wrs w l)) /\
    Forall2 (agrees P) (fst (run P l s)) (snd (vrun P wrs w l)).
Proof.
  induction l as [|o l IH]; intros s w R Hs Hc Hb.
  - exists []. split; [exact I|]. split; [exact R|constructor].
  - rewrite List.Forall_cons_iff in Hs. destruct Hs as [Ho Hs]. destruct Hc as [Hc1 Hc2].
    cbn [run] in Hb. destruct (exec P o s) as [r s1] eqn:Ee.
    destruct (run P l s1) as [rs s2] eqn:Er. cbn [snd] in Hb, Hc2.
    destruct (step_any P HP Ds Ids Qs bound HDs HIds HA o s w R Ho) as (wr & Hwr & R1 & Ha).
    { unfold calm. destruct o; try exact I. rewrite Ee. exact Hc1. }
    { intros pp ->. pose proof (reset_draws P pp s HP) as H. rewrite Ee in H. cbn [snd] in H.
      pose proof (run_grows P l s1) as H'. rewrite Er in H'. cbn [snd] in H'. lia. }
    rewrite Ee in R1, Ha. cbn [fst snd] in R1, Ha.
    destruct (IH s1 (fst (vstep P wr w o)) R1 Hs Hc2) as (wrs & H1 & H2 & H3).
    { rewrite Er. exact Hb. }
    exists (wr :: wrs). cbn [run writes_ok vrun]. rewrite Ee, Er. cbn [fst snd].
    rewrite Er in H2, H3. destruct (vstep P wr w o) as [w1 r1]. cbn [fst snd] in *.
    destruct (vrun P wrs w1 l) as [w2 rs2]. cbn [fst snd] in *.
    split; [split; [exact Hwr|exact H1]|]. split; [exact H2|]. constructor; [exact Ha|exact H3].
Qed.
End history.

Lemma fresh_srep P Ds Ids Qs bound s : fresh P s -> srep P Ds Ids Qs bound s nothing.
Proof. intros (H1 & H2 & H3 & H4 & H5). split; [|exact H5]. unfold mem_rep. cbn. auto. Qed.

Lemma op_sites_utf8 o s : op_valid o -> In s (op_sites o) -> utf8 s = true.
Proof.
  intros H Hs. destruct o; cbn in *; try contradiction;
    repeat match goal with H : _ /\ _ |- _ => destruct H end;
    repeat match goal with H : _ \/ _ |- _ => destruct H as [<-|H] end; try contradiction; try (apply utf8_host; assumption).
  rewrite List.Forall_forall in H. apply H, Hs.
Qed.

Lemma op_ids_utf8 o n r : op_valid o -> In (n, r) (op_ids o) -> utf8 n = true /\ utf8 r = true.
Proof.
  intros H Hs. destruct o; cbn in *; try contradiction;
    repeat match goal with H : _ /\ _ |- _ => destruct H end;
    destruct Hs as [[= <- <-]|[]]; split; try apply utf8_rev; assumption.
Qed.

Lemma in_scope_all l l0 : Forall op_valid l -> (forall o, In o l -> In o l0) ->
  Forall (in_scope (flat_map op_sites l0) (flat_map op_ids l0) (flat_map op_passwords l0)) l.
Proof.
  intros H Hl. rewrite List.Forall_forall in *. intros o Ho. split; [apply H, Ho|].
  repeat split; intros; apply in_flat_map; exists o; split; auto.
Qed.

Theorem history_ok P l s :
  prims_ok P -> fresh P s -> Forall op_valid l -> names_ok l -> calm_run P l s ->
  assumptions P (flat_map op_sites l) (flat_map op_ids l) (flat_map op_passwords l) (s_rand (snd (run P l s))) ->
  exists wrs, writes_ok P l wrs s /\
    srep P (flat_map op_sites l) (flat_map op_ids l) (flat_map op_passwords l) (s_rand (snd (run P l s)))
      (snd (run P l s)) (fst (vrun P wrs nothing l)) /\
    Forall2 (agrees P) (fst (run P l s)) (snd (vrun P wrs nothing l)).
Proof.
  intros HP Hf Hv Hn Hc HA. apply run_rep; auto.
  - intros x Hx. apply in_flat_map in Hx. destruct Hx as (o & Ho & Hx). rewrite List.Forall_forall in Hv.
    apply (op_sites_utf8 o); auto.
  - intros n r Hx. pose proof Hx as Hx'. apply in_flat_map in Hx. destruct Hx as (o & Ho & Hx).
    rewrite List.Forall_forall in Hv. destruct (op_ids_utf8 o n r (Hv o Ho) Hx). repeat split; try assumption.
    unfold names_ok in Hn. rewrite List.Forall_forall in Hn. apply (Hn _ Hx').
  - apply fresh_srep, Hf.
  - apply in_scope_all; auto.
Qed.
