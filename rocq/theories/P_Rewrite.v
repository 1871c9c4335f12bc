(** Which values in the file are replaced by a call. *)
From stdpp Require Import gmap.
From Coq Require Import ZArith ZifyBool ZifyNat ZifyN.
From Verif Require Import M_Base M_Base64 M_Utf8 M_Prims M_Types M_Crypto M_Recovery M_Json M_Serde M_Storage M_Passwords M_History.
From Verif Require Import S_Json S_Serde S_Vault S_Api S_History S_Watch S_Rewrite P_Base P_Base64 P_Crypto P_Json P_Serde P_Utf8 P_File P_Storage P_Vault P_Api P_History P_Calls P_Sound P_Props P_CliLives P_Size P_Watch.

(** * One call on the data in memory *)

Section vals.
Context (P : prims) (ek : bytes).
Definition vals (R : bytes -> Prop) (s s' : st) : Prop :=
  s_rand s <= s_rand s' /\
  forall k, (R k /\ exists j m, s_rand s <= j < s_rand s' /\ s_data s' !! k = Some (sealed P ek j m)) \/
            (~ R k /\ (s_data s' !! k = s_data s !! k \/ s_data s' !! k = None)).

Lemma vals_refl s : vals (fun _ => False) s s.
Proof. split; [lia|]. intros k. right. auto. Qed.
Lemma vals_ext R R' s s' : (forall k, R k <-> R' k) -> vals R s s' -> vals R' s s'.
Proof. intros H [H1 H2]. split; [exact H1|]. intros k. destruct (H2 k) as [[H3 H4]|[H3 H4]]; [left|right]; split; auto; [apply H, H3|rewrite <- H; exact H3]. Qed.
Lemma vals_put R s s1 s2 key m : vals R s s1 -> s_rand s2 = S (s_rand s1) -> s_data s2 = <[key := sealed P ek (s_rand s1) m]> (s_data s1) ->
  vals (fun k => k = key \/ R k) s s2.
Proof.
  intros [H1 H2] Hr Hd. split; [lia|]. intros k. rewrite Hd. destruct (decide (k = key)) as [->|Hne].
  - left. split; [left; reflexivity|]. exists (s_rand s1), m. rewrite lookup_insert. split; [lia|reflexivity].
  - rewrite lookup_insert_ne by congruence. destruct (H2 k) as [[H3 (j & m' & H4 & H5)]|[H3 H4]].
    + left. split; [right; exact H3|]. exists j, m'. split; [lia|exact H5].
    + right. split; [tauto|exact H4].
Qed.
Lemma vals_delete s s1 s2 key : vals (fun _ => False) s s1 -> s_rand s1 <= s_rand s2 -> s_data s2 = delete key (s_data s1) -> vals (fun _ => False) s s2.
Proof.
  intros [H1 H2] Hr Hd. split; [lia|]. intros k. right. split; [tauto|]. rewrite Hd. destruct (decide (k = key)) as [->|Hne]; [right; apply lookup_delete|].
  rewrite lookup_delete_ne by congruence. destruct (H2 k) as [[[] _]|[_ H]]. exact H.
Qed.
Lemma vals_same R s s1 s2 : vals R s s1 -> s_data s2 = s_data s1 -> s_rand s1 <= s_rand s2 -> vals R s s2.
Proof.
  intros [H1 H2] Hd Hr. split; [lia|]. intros k. rewrite Hd. destruct (H2 k) as [[H3 (j & m & H4 & H5)]|H3]; [left|right; exact H3].
  split; [exact H3|]. exists j, m. split; [lia|exact H5].
Qed.
End vals.

Section step.
Context (P : prims) (HP : prims_ok P).
Context (Ds : list bytes) (Ids : list (bytes * bytes)) (Qs : list bytes) (bound : nat).
Context (HDs : forall s, In s Ds -> utf8 s = true).
Context (HIds : forall n r, In (n, r) Ids -> utf8 n = true /\ utf8 r = true /\ ~ In x00 n).
Context (HA : assumptions P Ds Ids Qs bound).
Notation Rep := (data_rep P Ds Ids Qs bound).
Notation Srep := (srep P Ds Ids Qs bound).
Notation scoped := (in_scope Ds Ids Qs).

Definition slot_key (i : nat) (y : slot) : bytes := match y with inl x => skey P i x | inr z => pkey P i z end.
Definition new_keys (i : nat) (w : world) (v : vault) (o : op) (k : bytes) : Prop := w_open w = true /\ exists y, rewrites v o y /\ k = slot_key i y.

(** Nothing is written and memory at most loses entries, or the data is saved. *)
Definition effect (pp : bytes) (i : nat) (v : vault) (w : world) (o : op) (s : st) : Prop :=
  (s_disk (snd (exec P o s)) = s_disk s /\ (forall k, ~ new_keys i w v o k) /\ s_data (snd (exec P o s)) ⊆ s_data s) \/
  (exists s2, vals P (ekey P pp i) (new_keys i w v o) s s2 /\ s_flushes s2 = s_flushes s /\ exec P o s = as_out (fun _ => ODone) (flush P s2)).

Ltac unfold_model := cbv [exec as_out get_alias set_alias remove_alias remove_sites set_generated set_stored has get
  get_notes set_notes remove get_recovery_code decode_recovery_code bindM the_hmac the_key the_primary reads lift ret].

Lemma effect_none pp i v w o s : s_disk (snd (exec P o s)) = s_disk s -> s_data (snd (exec P o s)) = s_data s ->
  (w_open w = true -> forall y, ~ rewrites v o y) -> effect pp i v w o s.
Proof.
  intros H1 H2 H3. left. split; [exact H1|]. split; [|rewrite H2; reflexivity]. intros k (Ho & y & Hy & _). exact (H3 Ho y Hy).
Qed.

Lemma ensure_vals R i pp v t s0 s : Rep i pp (s_data s) v -> In t Ds -> vals P (ekey P pp i) R s0 s ->
  exists s', ensure_site_data P t (hsec P i) (ekey P pp i) s = (Ok tt, s') /\ frame s s' /\
    vals P (ekey P pp i) (fun k => (k = skey P i t /\ v_sites v !! t = None) \/ R k) s0 s'.
Proof.
  intros D Ht Hv. unfold ensure_site_data. fold (skey P i t). rewrite (read_site P HP Ds Ids Qs bound HDs HIds HA _ _ _ _ _ D Ht).
  destruct (v_sites v !! t) as [o|].
  - exists s. split; [reflexivity|]. split; [apply frame_refl|]. eapply vals_ext; [|exact Hv]. intros k. split; [tauto|]. intros [[_ H]|H]; [discriminate H|exact H].
  - unfold storage_set. destruct (set_encrypted_eq P (skey P i t) (site_to_vec (mk_site t None)) (ekey P pp i) s (ekey_len P HP _ _)) as (s' & E & F & Hr & Hd).
    exists s'. split; [exact E|]. split; [exact F|]. eapply vals_ext; [|eapply vals_put; [exact Hv|exact Hr|exact Hd]]. intros k. tauto.
Qed.
Lemma set_password_vals R i pp x e s0 s : vals P (ekey P pp i) R s0 s ->
  exists s', set_password P (to_password x e) (hsec P i) (ekey P pp i) s = (Ok tt, s') /\ frame s s' /\
    vals P (ekey P pp i) (fun k => k = pkey P i x \/ R k) s0 s'.
Proof.
  intros Hv. unfold set_password, storage_set. rewrite pass_id_to_password. fold (pkey P i x).
  destruct (set_encrypted_eq P (pkey P i x) (password_to_vec (to_password x e)) (ekey P pp i) s (ekey_len P HP _ _)) as (s' & E & F & Hr & Hd).
  exists s'. split; [exact E|]. split; [exact F|]. eapply vals_put; eassumption.
Qed.

Lemma effect_set o i pp v w s x n r e : w_open w = true -> Rep i pp (s_data s) v -> In (host x) Ds ->
  (forall y, rewrites v o y <-> y = inr (target v x, n, rev_of r) \/ (y = inl (target v x) /\ v_sites v !! target v x = None)) ->
  (forall s1 s2, ensure_site_data P (target v x) (hsec P i) (ekey P pp i) s = (Ok tt, s1) ->
     set_password P (to_password (target v x, n, rev_of r) e) (hsec P i) (ekey P pp i) s1 = (Ok tt, s2) ->
     exec P o s = as_out (fun _ => ODone) (flush P s2)) -> effect pp i v w o s.
Proof.
  intros Ho D Hx Hr He. right.
  destruct (ensure_vals (fun _ => False) i pp v (target v x) s s D) as (s1 & E1 & F1 & V1); [eapply target_in; eassumption|apply vals_refl|].
  destruct (set_password_vals _ i pp (target v x, n, rev_of r) e s s1 V1) as (s2 & E2 & F2 & V2).
  exists s2. split; [|split].
  - eapply vals_ext; [|exact V2]. intros k. unfold new_keys. split.
    + intros [-> |[[-> H]|[]]]; (split; [exact Ho|]).
      * exists (inr (target v x, n, rev_of r)). split; [apply Hr; auto|reflexivity].
      * exists (inl (target v x)). split; [apply Hr; auto|reflexivity].
    + intros (_ & y & Hy & ->). apply Hr in Hy. destruct Hy as [-> |[-> H]]; cbn; auto.
  - destruct F1 as (_ & _ & _ & _ & F1), F2 as (_ & _ & _ & _ & F2). congruence.
  - exact (He s1 s2 E1 E2).
Qed.

Lemma exec_effect o i pp v w s : Rep i pp (s_data s) v ->
  secrets_rep P s (w_open w) pp i -> Srep s w -> w_mem w = Some (pp, v) -> scoped o -> is_reset o = false -> o <> Restart -> effect pp i v w o s.
Proof.
  intros D Hsec R Hm (HV & HD & HI & _) Hreset Hrestart.
  destruct (reading o) eqn:Er.
  { destruct (exec_reading P o s Er) as ((E1 & _ & E2 & _) & _). apply effect_none; [exact E2|exact E1|].
    intros _ y. destruct o; try discriminate Er; cbn; tauto. }
  unfold secrets_rep in Hsec. destruct (w_open w) eqn:Ho.
  2:{ destruct Hsec as (Hk & Hh & Hp). destruct o; try discriminate Er; try discriminate Hreset; try congruence;
      try (apply effect_none; [| |rewrite Ho; discriminate]; unfold_model; rewrite ?Hk, ?Hh, ?Hp; reflexivity).
      - destruct (unlock_cases P pp0 s) as [(_ & key & h & _ & H & H')|(_ & H)].
        + apply effect_none; [exact H'|exact H|rewrite Ho; discriminate].
        + apply effect_none; rewrite ?H; [reflexivity|reflexivity|rewrite Ho; discriminate].
      - destruct l as [|x l]; [discriminate Er|]. apply effect_none; [| |rewrite Ho; discriminate]; unfold_model; rewrite ?Hk, ?Hh, ?Hp; reflexivity. }
  destruct Hsec as (Hk & Hh & Hp).
  destruct o as [q|q| | | | |x|x a|x|l|x n r len cs|x n r t|x n r|x n r|x n r|x n r t|x n r|x pat|pat|x n r t|c]; try discriminate Er; try discriminate Hreset; try congruence.
  - (* Unlock *) destruct (unlock_cases P q s) as [(_ & key & h & _ & H & H')|(_ & H)].
    + apply effect_none; [exact H'|exact H|intros _ y []].
    + apply effect_none; rewrite ?H; [reflexivity|reflexivity|intros _ y []].
  - (* Lock *) apply effect_none; [reflexivity|reflexivity|intros _ y []].
  - (* SetAlias *)
    assert (In (host x) Ds) as Hx by (apply HD; left; reflexivity). assert (In (host a) Ds) as Ha by (apply HD; right; left; reflexivity).
    pose proof (any_rep P HP Ds Ids Qs bound HDs HIds HA _ _ _ _ _ D Hx) as Hany.
    pose proof (resolve_rep P HP Ds Ids Qs bound HDs HIds HA _ _ _ _ _ D Ha) as Hres.
    destruct (has_passwords v (host x)) eqn:Ep.
    { apply effect_none; [unfold_model; rewrite Hh, Hk; cbn [ok_or]; rewrite Hres, normalize_host, Hany; reflexivity..|].
      cbn. intros _ y (_ & H & _). congruence. }
    destruct (bytes_eqb (host x) (target v a)) eqn:Es.
    { apply effect_none; [unfold_model; rewrite Hh, Hk; cbn [ok_or]; rewrite Hres, normalize_host, Hany; unfold storage_set_alias; rewrite Es; reflexivity..|].
      cbn. intros _ y (_ & _ & H). apply bytes_eqb_eq in Es. contradiction. }
    destruct (set_encrypted_eq P (skey P i (host x)) (site_to_vec (mk_site (host x) (Some (target v a)))) (ekey P pp i) s (ekey_len P HP _ _)) as (s2 & E2 & F & Hr & D2).
    right. exists s2. split; [|split].
    + eapply vals_ext; [|eapply vals_put; [apply vals_refl|exact Hr|exact D2]]. intros k. unfold new_keys. split.
      * intros [-> |[]]. split; [exact Ho|]. exists (inl (host x)). split; [|reflexivity]. cbn. repeat split; auto. apply bytes_eqb_neq in Es. exact Es.
      * intros (_ & y & (-> & _) & ->). left. reflexivity.
    + apply F.
    + unfold_model. rewrite Hh, Hk. cbn [ok_or]. rewrite Hres, normalize_host, Hany. unfold storage_set_alias. rewrite Es. unfold storage_set. fold (skey P i (host x)). rewrite E2. reflexivity.
  - (* RemoveAlias *)
    assert (In (host x) Ds) as Hx by (apply HD; left; reflexivity).
    pose proof (site_lookup P Ds Ids Qs bound HDs HIds HA _ _ _ _ _ D Hx) as Hl. pose proof (read_site P HP Ds Ids Qs bound HDs HIds HA _ _ _ _ _ D Hx) as Hr.
    destruct (v_sites v !! host x) as [[a|]|] eqn:Ee.
    + destruct Hl as [rnd Hl]. assert (exists s2, io_remove (skey P i (host x)) s = (Ok tt, s2) /\ s_rand s2 = s_rand s /\ s_flushes s2 = s_flushes s /\ s_data s2 = delete (skey P i (host x)) (s_data s)) as (s2 & E2 & Hs & Hf & D2).
      { unfold io_remove. rewrite Hl. eexists. repeat split; reflexivity. }
      right. exists s2. split; [|split; [exact Hf|]].
      * eapply vals_ext; [|eapply vals_delete; [apply vals_refl| |exact D2]]; [|lia]. intros k. split; [intros []|]. intros (_ & y & [] & _).
      * unfold_model. rewrite Hh, Hk. cbn [ok_or]. unfold storage_remove_alias, bindM, reads. rewrite normalize_host. fold (skey P i (host x)). rewrite Hr. cbn [map_err site_alias]. rewrite E2. reflexivity.
    + apply effect_none; [unfold_model; rewrite Hh, Hk; cbn [ok_or]; unfold storage_remove_alias, bindM, reads; rewrite normalize_host; fold (skey P i (host x)); rewrite Hr; reflexivity..|intros _ y []].
    + apply effect_none; [unfold_model; rewrite Hh, Hk; cbn [ok_or]; unfold storage_remove_alias, bindM, reads; rewrite normalize_host; fold (skey P i (host x)); rewrite Hr; reflexivity..|intros _ y []].
  - (* RemoveSites *)
    destruct l as [|x l]; [discriminate Er|].
    assert (forall l s0, exists b s', remove_sites_loop P l (hsec P i) s0 = (b, s') /\ frame s0 s' /\ s_data s' ⊆ s_data s0 /\ s_rand s' = s_rand s0 /\
       (b = Ok tt \/ b = Err KeyMissing)) as Hloop.
    { clear. induction l as [|y l IH]; intros s0.
      - exists (Ok tt), s0. repeat split; auto.
      - cbn [remove_sites_loop]. unfold bindM, storage_remove_site, io_remove. destruct (s_data s0 !! _) as [c|].
        + cbn [put_data]. match goal with |- context [remove_sites_loop P l _ ?s1] => destruct (IH s1) as (b & s' & E & F & Hs & Hr & Hb); set (s1' := s1) in * end.
          exists b, s'. split; [exact E|]. split; [|split; [|split; [exact Hr|exact Hb]]].
          * eapply frame_trans; [|exact F]. repeat split.
          * etransitivity; [exact Hs|]. cbn. apply delete_subseteq.
        + exists (Err KeyMissing), s0. repeat split; auto. }
    destruct (Hloop (x :: l) s) as (b & s2 & E2 & F & Hs & Hr & Hb).
    assert (exec P (RemoveSites (x :: l)) s = as_out (fun _ => ODone) ((let! _ := remove_sites_loop P (x :: l) (hsec P i) in flush P) s)) as He.
    { unfold exec. f_equal. unfold remove_sites, the_hmac, reads. unfold bindM at 1. rewrite Hh. reflexivity. }
    unfold bindM in He. rewrite E2 in He. destruct Hb as [-> | ->].
    + right. exists s2. split; [|split; [apply F|exact He]]. split; [lia|]. intros k. right. split; [intros (_ & y & [] & _)|].
      destruct (s_data s2 !! k) as [c|] eqn:Ec; [left|right; reflexivity]. symmetry. eapply lookup_weaken; eassumption.
    + left. rewrite He. cbn [as_out snd]. split; [apply F|]. split; [intros k (_ & y & [] & _)|exact Hs].
  - (* SetGenerated *)
    assert (In (host x) Ds) as Hx by (apply HD; left; reflexivity).
    apply (effect_set _ i pp v w s x n r (mk_entry (SGenerated len cs) []) Ho D Hx); [intros y; reflexivity|].
    intros s1 s2 E1 E2. unfold_model. rewrite Hh, Hk. cbn [ok_or]. rewrite (resolve_rep P HP Ds Ids Qs bound HDs HIds HA _ _ _ _ _ D Hx), E1.
    unfold generated_password_new. rewrite to_id_new.
    change (Generated (mk_generated (to_id (target v x, n, rev_of r)) len cs [])) with (to_password (target v x, n, rev_of r) (mk_entry (SGenerated len cs) [])).
    rewrite E2. reflexivity.
  - (* SetStored *)
    assert (In (host x) Ds) as Hx by (apply HD; left; reflexivity).
    apply (effect_set _ i pp v w s x n r (mk_entry (SFixed t) []) Ho D Hx); [intros y; reflexivity|].
    intros s1 s2 E1 E2. unfold_model. rewrite Hh, Hk. cbn [ok_or]. rewrite (resolve_rep P HP Ds Ids Qs bound HDs HIds HA _ _ _ _ _ D Hx), E1.
    unfold stored_password_new. rewrite to_id_new.
    change (Stored (mk_stored (to_id (target v x, n, rev_of r)) t [])) with (to_password (target v x, n, rev_of r) (mk_entry (SFixed t) [])).
    rewrite E2. reflexivity.
  - (* SetNotes *)
    assert (In (host x) Ds) as Hx by (apply HD; left; reflexivity). assert (In (n, rev_of r) Ids) as Hn by (apply HI; left; reflexivity).
    pose proof (id_in P Ds Ids Qs bound _ _ _ _ _ _ _ D Hx Hn) as Hid.
    assert (get_password P (s_data s) (password_id_new (target v x) n r) (hsec P i) (ekey P pp i) =
      match v_pw v !! (target v x, n, rev_of r) with Some e => Ok (to_password (target v x, n, rev_of r) e) | None => Err KeyMissing end) as Hg.
    { unfold get_password. rewrite to_id_new. apply (read_password P HP Ds Ids Qs bound HDs HIds HA _ _ _ _ _ D Hid). }
    destruct (v_pw v !! (target v x, n, rev_of r)) as [e|] eqn:Ee.
    + destruct (set_password_vals (fun _ => False) i pp (target v x, n, rev_of r) (mk_entry (e_secret e) t) s s) as (s2 & E2 & F & V2); [apply vals_refl|].
      right. exists s2. split; [|split; [apply F|]].
      * eapply vals_ext; [|exact V2]. intros k. unfold new_keys. split.
        -- intros [-> |[]]. split; [exact Ho|]. exists (inr (target v x, n, rev_of r)). split; [|reflexivity]. cbn. rewrite Ee. eauto.
        -- intros (_ & y & (-> & _) & ->). left. reflexivity.
      * unfold_model. rewrite Hh, Hk. cbn [ok_or]. rewrite (resolve_rep P HP Ds Ids Qs bound HDs HIds HA _ _ _ _ _ D Hx), Hg, set_notes_password, E2. reflexivity.
    + apply effect_none; [unfold_model; rewrite Hh, Hk; cbn [ok_or]; rewrite (resolve_rep P HP Ds Ids Qs bound HDs HIds HA _ _ _ _ _ D Hx), Hg; reflexivity..|].
      cbn. intros _ y (_ & [e He]). congruence.
  - (* Remove *)
    assert (In (host x) Ds) as Hx by (apply HD; left; reflexivity). assert (In (n, rev_of r) Ids) as Hn by (apply HI; left; reflexivity).
    pose proof (resolve_rep P HP Ds Ids Qs bound HDs HIds HA _ _ _ _ _ D Hx) as Hres.
    destruct (s_data s !! pkey P i (target v x, n, rev_of r)) as [c|] eqn:Ec.
    + right. assert (exists s2, io_remove (pkey P i (target v x, n, rev_of r)) s = (Ok tt, s2) /\ s_rand s2 = s_rand s /\ s_flushes s2 = s_flushes s /\ s_data s2 = delete (pkey P i (target v x, n, rev_of r)) (s_data s)) as (s2 & E2 & Hs & Hf & D2).
      { unfold io_remove. rewrite Ec. eexists. repeat split; reflexivity. }
      exists s2. split; [|split; [exact Hf|]].
      * eapply vals_ext; [|eapply vals_delete; [apply vals_refl| |exact D2]]; [|lia]. intros k. split; [intros []|]. intros (_ & y & [] & _).
      * unfold_model. rewrite Hh, Hk. cbn [ok_or]. rewrite Hres. unfold remove_password. rewrite to_id_new. fold (pkey P i (target v x, n, rev_of r)). rewrite E2. reflexivity.
    + assert (io_remove (pkey P i (target v x, n, rev_of r)) s = (Err KeyMissing, s)) as E2 by (unfold io_remove; rewrite Ec; reflexivity).
      apply effect_none; [unfold_model; rewrite Hh, Hk; cbn [ok_or]; rewrite Hres; unfold remove_password; rewrite to_id_new; fold (pkey P i (target v x, n, rev_of r)); rewrite E2; reflexivity..|intros _ y []].
Qed.

(** * One call on the file *)

Lemma locked_effect o s : locked s -> is_reset o = false ->
  s_disk (snd (exec P o s)) = s_disk s /\ (o <> Restart -> s_data (snd (exec P o s)) = s_data s).
Proof.
  intros (Hk & Hh & Hp) Hr. destruct (reading o) eqn:Er.
  { destruct (exec_reading P o s Er) as ((E1 & _ & E2 & _) & _). auto. }
  destruct o; try discriminate Er; try discriminate Hr;
    try (split; [|intros _]; unfold_model; rewrite ?Hk, ?Hh, ?Hp; reflexivity).
  - destruct (unlock_cases P pp s) as [(_ & key & h & _ & H & H')|(_ & H)]; rewrite ?H; auto.
  - split; [reflexivity|]. intros []. reflexivity.
  - destruct l as [|x l]; [discriminate Er|]. split; [|intros _]; unfold_model; rewrite ?Hk, ?Hh, ?Hp; reflexivity.
Qed.

(** Memory has no entries that the file does not have. *)
Definition within (s : st) : Prop := texts (s_data s) /\ forall d, load P (s_disk s) = Ok d -> s_data s ⊆ d.

Lemma texts_text d : texts d -> text_ok d.
Proof. intros H k c Hk. exact (H k c Hk). Qed.

Lemma saved_within s2 : (forall n, p_write P n = WriteOk) -> texts (s_data s2) ->
  let s' := snd (as_out (fun _ => ODone) (flush P s2)) in s_data s' = s_data s2 /\ load P (s_disk s') = Ok (s_data s2).
Proof.
  intros Hw Ht. destruct (flush_facts P s2) as (H1 & _ & _ & _ & _ & H2 & H3 & _). cbv zeta.
  assert (fst (flush P s2) = Ok tt) as E by (apply H3, Hw). specialize (H2 E).
  assert (snd (as_out (fun _ : unit => ODone) (flush P s2)) = snd (flush P s2)) as -> by (destruct (flush P s2) as [[]]; reflexivity).
  split; [exact H1|]. rewrite H2. apply load_flush; [exact HP|apply texts_text, Ht].
Qed.

Definition fresh_value (s s' : st) (c : bytes) : Prop := exists ek j m, s_rand s <= j < s_rand s' /\ c = sealed P ek j m.

Lemma file_step o i s w : (forall n, p_write P n = WriteOk) -> Srep s w -> scoped o -> is_reset o = false -> within s ->
  (forall pp v j, w_mem w = Some (pp, v) -> Rep j pp (s_data s) v -> p_random P (j + 1) 32 = p_random P (i + 1) 32) ->
  within (snd (exec P o s)) /\
  forall d d', load P (s_disk s) = Ok d -> load P (s_disk (snd (exec P o s))) = Ok d' ->
    forall k, ((exists y, replaces w o y /\ k = slot_key i y) /\ exists c, d' !! k = Some c /\ fresh_value s (snd (exec P o s)) c) \/
              (~ (exists y, replaces w o y /\ k = slot_key i y) /\ (d' !! k = d !! k \/ d' !! k = None)).
Proof.
  intros Hw R Hsc Hr [Ht Hin] Hi. pose proof (exec_disk P o s HP) as (_ & Hte & _). specialize (Hte Ht).
  assert (o = Restart \/ o <> Restart) as [-> |Hre] by (destruct o; try (left; reflexivity); right; discriminate).
  { split.
    - split; [exact Hte|]. intros d Hd. change (s_disk (snd (exec P Restart s))) with (s_disk s) in Hd. cbn [exec snd]. rewrite Hd. reflexivity.
    - intros d d' Hd Hd' k. change (s_disk (snd (exec P Restart s))) with (s_disk s) in Hd'. rewrite Hd in Hd'. injection Hd' as <-.
      right. split; [|left; reflexivity]. intros (y & (_ & p & v & _ & []) & _). }
  destruct (w_mem w) as [[pp v]|] eqn:Em.
  - pose proof R as [M _]. unfold mem_rep in M. rewrite Em in M. destruct M as (j & D & Hsec).
    assert (forall y, slot_key j y = slot_key i y) as Hk.
    { specialize (Hi pp v j eq_refl D). intros [x|x]; cbn; [apply same_secret_site|apply same_secret_password]; exact Hi. }
    assert (forall k, new_keys j w v o k <-> exists y, replaces w o y /\ k = slot_key i y) as Hnew.
    { intros k. unfold new_keys, replaces. split.
      - intros (Ho & y & Hy & ->). exists y. split; [|apply Hk]. split; [exact Ho|]. exists pp, v. auto.
      - intros (y & (Ho & p & v' & E & Hy) & ->). rewrite Em in E. injection E as <- <-. split; [exact Ho|]. exists y. split; [exact Hy|symmetry; apply Hk]. }
    destruct (exec_effect o j pp v w s D Hsec R Em Hsc Hr Hre) as [(E1 & E2 & E3)|(s2 & [V1 V2] & E2 & E3)].
    + split.
      * split; [exact Hte|]. intros d Hd. rewrite E1 in Hd. etransitivity; [exact E3|apply Hin, Hd].
      * intros d d' Hd Hd' k. rewrite E1, Hd in Hd'. injection Hd' as <-. right. split; [rewrite <- Hnew; apply E2|left; reflexivity].
    + rewrite E3 in Hte |- *.
      assert (texts (s_data s2)) as Ht2.
      { destruct (flush_facts P s2) as (H1 & _). assert (snd (as_out (fun _ : unit => ODone) (flush P s2)) = snd (flush P s2)) as E by (destruct (flush P s2) as [[]]; reflexivity).
        rewrite E, H1 in Hte. exact Hte. }
      destruct (saved_within s2 Hw Ht2) as [F1 F2]. cbv zeta in F1, F2. destruct (flush_facts P s2) as (_ & _ & _ & F3 & _). split.
      * split; [exact Hte|]. intros d Hd. rewrite F2 in Hd. injection Hd as <-. rewrite F1. reflexivity.
      * intros d d' Hd Hd' k. rewrite F2 in Hd'. injection Hd' as <-. destruct (V2 k) as [[H (q & m & Hq & Hv)]|[H Hv]].
        -- left. split; [apply Hnew, H|]. eexists. split; [exact Hv|]. exists (ekey P pp j), q, m. split; [rewrite as_out_snd, F3; lia|reflexivity].
        -- right. split; [rewrite <- Hnew; exact H|]. destruct Hv as [Hv|Hv]; [|right; exact Hv].
           destruct (s_data s !! k) as [c|] eqn:Ec; [left|right; exact Hv]. rewrite Hv. symmetry. eapply lookup_weaken; [exact Ec|apply Hin, Hd].
  - destruct R as [M _]. unfold mem_rep in M. rewrite Em in M. destruct M as (_ & _ & Hl).
    destruct (locked_effect o s Hl Hr) as [L1 L2]. specialize (L2 Hre). split.
    + split; [exact Hte|]. intros d Hd. rewrite L1 in Hd. rewrite L2. apply Hin, Hd.
    + intros d d' Hd Hd' k. rewrite L1, Hd in Hd'. injection Hd' as <-. right. split; [|left; reflexivity].
      intros (y & (_ & p & v & E & _) & _). congruence.
Qed.

Lemma reset_within pp s : (forall n, p_write P n = WriteOk) -> within s -> within (snd (exec P (Reset pp) s)).
Proof.
  intros Hw [Ht _]. destruct (exec_disk P (Reset pp) s HP) as (_ & Htx & Hdone & _). specialize (Htx Ht).
  split; [exact Htx|]. intros d Hd. assert (fst (exec P (Reset pp) s) = ODone) as Ho.
  { destruct (reset_cases P pp s HP) as (s1 & _ & _ & _ & _ & _ & _ & _ & H). destruct H as [(_ & H & _)|(H & E)]; [exact H|].
    destruct H. rewrite E. destruct (flush_facts P s1) as (_ & _ & _ & _ & _ & _ & F & _). unfold done_out.
    destruct (flush P s1) as [r u]. cbn [fst] in F. rewrite (proj2 F (Hw _)). reflexivity. }
  specialize (Hdone Ho eq_refl). rewrite Hdone, (load_flush P _ HP Htx) in Hd. injection Hd as <-. reflexivity.
Qed.

Lemma scoped_slot o i pp d v y : Rep i pp d v -> scoped o -> rewrites v o y ->
  match y with inl x => In x Ds | inr z => in_ids Ds Ids z end.
Proof.
  intros D (HV & HD & HI & _). destruct o as [q|q| | | | |x|x a|x|l|x n r len cs|x n r t|x n r|x n r|x n r|x n r t|x n r|x pat|pat|x n r t|c]; cbn [rewrites]; try contradiction.
  - intros (-> & _). apply HD. left. reflexivity.
  - assert (In (host x) Ds) as Hx by (apply HD; left; reflexivity). intros [-> |[-> _]].
    + eapply id_in; [exact D|exact Hx|]. apply HI. left. reflexivity.
    + eapply target_in; [exact D|exact Hx].
  - assert (In (host x) Ds) as Hx by (apply HD; left; reflexivity). intros [-> |[-> _]].
    + eapply id_in; [exact D|exact Hx|]. apply HI. left. reflexivity.
    + eapply target_in; [exact D|exact Hx].
  - assert (In (host x) Ds) as Hx by (apply HD; left; reflexivity). intros (-> & _).
    eapply id_in; [exact D|exact Hx|]. apply HI. left. reflexivity.
Qed.

Lemma same_place i j pp d e v w : Rep i pp d v -> Rep j pp e w -> e !! SALT_KEY = d !! SALT_KEY -> e !! HMAC_SECRET_KEY = d !! HMAC_SECRET_KEY ->
  p_random P (j + 1) 32 = p_random P (i + 1) 32.
Proof.
  intros R S E1 E2.
  rewrite (dr_salt _ _ _ _ _ _ _ _ _ R), (dr_salt _ _ _ _ _ _ _ _ _ S) in E1. rewrite (dr_hmac _ _ _ _ _ _ _ _ _ R), (dr_hmac _ _ _ _ _ _ _ _ _ S) in E2.
  injection E1 as E1. apply b64_encode_inj in E1. injection E2 as E2.
  assert (ekey P pp j = ekey P pp i) as Ek by (unfold ekey, key_for; rewrite E1; reflexivity). rewrite Ek in E2.
  apply (f_equal (fun c => decrypt_data P c (ekey P pp i))) in E2. rewrite !decrypt_sealed in E2 by (try exact HP; apply (ekey_len P HP)).
  apply (f_equal (fun r => match r with Ok x => x | _ => [] end)) in E2. cbv beta iota in E2.
  unfold string_to_vec in E2. cbn [write_json] in E2. rewrite !(plain_write _ (plain_b64 _)) in E2. apply (f_equal (skipn 1)) in E2. cbn [skipn] in E2.
  apply app_inv_tail in E2. apply b64_encode_inj in E2. exact E2.
Qed.

Lemma within_step o s w : (forall n, p_write P n = WriteOk) -> Srep s w -> scoped o -> within s -> within (snd (exec P o s)).
Proof.
  intros Hw R Hsc H. destruct (is_reset o) eqn:Hr.
  - destruct o; try discriminate Hr. apply reset_within; assumption.
  - assert (exists i, forall pp v j, w_mem w = Some (pp, v) -> Rep j pp (s_data s) v -> p_random P (j + 1) 32 = p_random P (i + 1) 32) as [i Hi].
    { pose proof R as [M _]. unfold mem_rep in M. destruct (w_mem w) as [[pp v]|]; [|exists 0; discriminate].
      destruct M as (i & D & _). exists i. intros q u j E D'. injection E as <- <-. eapply same_place; [exact D|exact D'|reflexivity|reflexivity]. }
    apply (file_step o i s w Hw R Hsc Hr H Hi).
Qed.

Lemma slot_key_fixed i y : slot_key i y <> SALT_KEY /\ slot_key i y <> HMAC_SECRET_KEY.
Proof. destruct y; cbn; split; intros E; first [exact (skey_salt _ _ _ E)|exact (skey_hmac _ _ _ E)|exact (pkey_salt _ _ _ E)|exact (pkey_hmac _ _ _ E)]. Qed.
Definition in_slot (y : slot) : Prop := match y with inl x => In x Ds | inr z => in_ids Ds Ids z end.
Lemma slot_key_inj i y z : i + 2 < bound -> in_slot y -> in_slot z -> slot_key i y = slot_key i z -> y = z.
Proof.
  intros Hb. destruct y as [x|x], z as [z|z]; cbn; intros H1 H2 E.
  - f_equal. eapply skey_inj; eassumption.
  - exfalso. exact (skey_pkey _ _ _ _ E).
  - exfalso. exact (skey_pkey _ _ _ _ (eq_sym E)).
  - f_equal. eapply pkey_inj; eassumption.
Qed.
End step.

(** * A history *)

Section segment.
Context (P : prims) (sc : scope) (l0 l1 : list op) (s0 : st) (Hw : forall n, p_write P n = WriteOk).
Context (So : sound P sc (l0 ++ l1) s0) (Hn : Forall (fun o => is_reset o = false) l1).
Notation HP := (so_prims _ _ _ _ So).
Notation bound := (s_rand (snd (run P (l0 ++ l1) s0))).
Notation Rep := (data_rep P (sc_sites sc) (sc_ids sc) (sc_pws sc) bound).
Notation Srep := (srep P (sc_sites sc) (sc_ids sc) (sc_pws sc) bound).
Notation at_ k := (l0 ++ firstn k l1).
Notation St k := (snd (run P (at_ k) s0)).
Notation W k := (world_after P (at_ k)).

Lemma prefix_srep m r : l0 ++ l1 = m ++ r -> Srep (snd (run P m s0)) (world_after P m).
Proof.
  intros E. pose proof So as So'. rewrite E in So'.
  destruct (run_rep P HP _ _ _ bound (so_sites _ _ _ _ So) (so_ids _ _ _ _ So) (so_assumptions _ _ _ _ So) m s0 nothing) as (wrs & H1 & H2 & _).
  - apply fresh_srep, (so_fresh _ _ _ _ So).
  - pose proof (so_covered _ _ _ _ So') as Hc. apply List.Forall_app in Hc. destruct Hc as [Hc _].
    eapply List.Forall_impl; [apply covered_scope|exact Hc].
  - eapply calm_app, (so_calm _ _ _ _ So').
  - rewrite E, (run_app P m r). cbn [snd]. apply run_grows.
  - rewrite (saved_writes P _ Hw wrs s0 H1) in H2. exact H2.
Qed.
Lemma at_split k : l0 ++ l1 = at_ k ++ skipn k l1.
Proof. rewrite <- app_assoc, firstn_skipn. reflexivity. Qed.
Lemma at_srep k : Srep (St k) (W k).
Proof. apply (prefix_srep _ _ (at_split k)). Qed.

Lemma prefix_within m r : l0 ++ l1 = m ++ r -> within P (snd (run P m s0)).
Proof.
  revert r. induction m as [|o m IH] using rev_ind; intros r E.
  - destruct (so_fresh _ _ _ _ So) as (Hd & _ & _ & _ & Hl). split; [cbn; rewrite Hd; apply texts_empty|].
    intros d E'. cbn in E'. rewrite E' in Hl. discriminate Hl.
  - rewrite <- app_assoc in E. rewrite run_app, run_one. cbn [snd].
    eapply (within_step P HP _ _ _ _ (so_sites _ _ _ _ So) (so_ids _ _ _ _ So) (so_assumptions _ _ _ _ So) o _ _ Hw (prefix_srep _ _ E)); [|exact (IH _ E)].
    pose proof (so_covered _ _ _ _ So) as Hc. rewrite E in Hc. apply List.Forall_app in Hc. destruct Hc as [_ Hc]. apply Forall_cons_1 in Hc.
    eapply covered_scope, Hc.
Qed.

Context (pp : bytes) (v0 : vault) (i : nat) (d0 : kvmap).
Context (E0 : w_file (W 0) = Some (pp, v0)) (Ed0 : load P (s_disk (St 0)) = Ok d0) (R0 : Rep i pp d0 v0).

Lemma at_settled k : settled (W k).
Proof. apply (settled_run P (at_ k) nothing eq_refl). Qed.
Lemma at_file k : exists v, w_file (W k) = Some (pp, v).
Proof.
  pose proof (at_primary P l0 l1 Hn k) as H. change (primary_of (w_file (W k)) = primary_of (w_file (W 0))) in H. rewrite E0 in H.
  destruct (w_file (W k)) as [[q v]|]; [|discriminate H]. injection H as ->. eauto.
Qed.
Lemma at_load k : exists d, load P (s_disk (St k)) = Ok d.
Proof.
  destruct (at_file k) as [v Hv]. destruct (at_srep k) as [_ F]. unfold file_rep in F. rewrite Hv in F. destruct F as (j & d & H & _). eauto.
Qed.

Lemma at_memory k q v j : w_mem (W k) = Some (q, v) -> Rep j q (s_data (St k)) v -> p_random P (j + 1) 32 = p_random P (i + 1) 32.
Proof.
  intros Em D. assert (q = pp) as ->.
  { pose proof (at_settled k) as H. unfold settled in H. destruct (at_file k) as [u Hu]. rewrite Em, Hu in H. injection H as ->. reflexivity. }
  assert (forall slot, slot = bs "salt" \/ slot = bs "hmac-secret" -> s_data (St k) !! slot = d0 !! slot) as Hst.
  { intros slot Hs. destruct (steady_reached P l0 s0 slot HP Hw (so_fresh _ _ _ _ So) Hs) as [x Hx].
    assert (Forall (fun o => is_reset o = false) (firstn k l1)) as Hk by (rewrite <- (firstn_skipn k l1) in Hn; apply Forall_app in Hn; apply Hn).
    pose proof (steady_run P (firstn k l1) slot x HP Hs Hk _ Hx) as Hx'.
    pose proof Ed0 as Hd. cbn [firstn] in Hd. rewrite app_nil_r in Hd.
    assert (St k = snd (run P (firstn k l1) (snd (run P l0 s0)))) as Es by (rewrite (run_app P l0 (firstn k l1)); reflexivity). rewrite <- Es in Hx'.
    destruct Hx as (_ & _ & Hx & _), Hx' as (_ & _ & _ & [Hx'|[Hx' _]]).
    - rewrite (Hx _ Hd), Hx'. reflexivity.
    - pose proof (dr_salt _ _ _ _ _ _ _ _ _ D) as H. rewrite Hx', lookup_empty in H. discriminate H. }
  eapply (same_place P HP); [exact R0|exact D|apply (Hst (bs "salt")); left; reflexivity|apply (Hst (bs "hmac-secret")); right; reflexivity].
Qed.

Definition replaced (k : nat) (K : bytes) : Prop := exists o y, l1 !! k = Some o /\ replaces (W k) o y /\ K = slot_key P i y.

Lemma at_next k o : l1 !! k = Some o -> at_ (S k) = at_ k ++ [o].
Proof. intros H. rewrite (take_S_r _ _ _ H), app_assoc. reflexivity. Qed.
Lemma at_scoped k o : l1 !! k = Some o -> in_scope (sc_sites sc) (sc_ids sc) (sc_pws sc) o.
Proof.
  intros H. apply (covered_scope sc). pose proof (so_covered _ _ _ _ So) as Hc. rewrite List.Forall_forall in Hc. apply Hc.
  apply in_or_app. right. apply elem_of_list_In. eapply elem_of_list_lookup_2, H.
Qed.

Lemma at_step k d d' K : load P (s_disk (St k)) = Ok d -> load P (s_disk (St (S k))) = Ok d' ->
  (replaced k K /\ exists c, d' !! K = Some c /\ fresh_value P (St k) (St (S k)) c) \/ (~ replaced k K /\ (d' !! K = d !! K \/ d' !! K = None)).
Proof.
  intros Hd Hd'. destruct (l1 !! k) as [o|] eqn:Eo.
  - assert (is_reset o = false) as Hr.
    { rewrite List.Forall_forall in Hn. apply Hn, elem_of_list_In. eapply elem_of_list_lookup_2, Eo. }
    destruct (file_step P HP _ _ _ _ (so_sites _ _ _ _ So) (so_ids _ _ _ _ So) (so_assumptions _ _ _ _ So) o i (St k) (W k) Hw (at_srep k) (at_scoped k o Eo) Hr
      (prefix_within _ _ (at_split k)) (at_memory k)) as [_ H].
    assert (snd (exec P o (St k)) = St (S k)) as Es by (rewrite (at_next k o Eo), (run_app P (at_ k) [o]), run_one; reflexivity).
    rewrite Es in H. destruct (H d d' Hd Hd' K) as [[(y & H1 & H2) H3]|[H1 H2]]; [left|right]; (split; [|assumption]).
    + exists o, y. auto.
    + intros (o' & y & E' & H3 & H4). rewrite Eo in E'. injection E' as <-. apply H1. exists y. auto.
  - assert (firstn (S k) l1 = firstn k l1) as E.
    { apply lookup_ge_None in Eo. rewrite !firstn_all2 by lia. reflexivity. }
    rewrite E, Hd in Hd'. injection Hd' as <-. right. split; [|left; reflexivity]. intros (o' & y & E' & _). congruence.
Qed.

Lemma at_grows k1 k2 : k1 <= k2 -> s_rand (St k1) <= s_rand (St k2).
Proof.
  intros H. assert (at_ k2 = at_ k1 ++ skipn k1 (firstn k2 l1)) as E.
  { rewrite <- app_assoc. f_equal. rewrite <- (firstn_skipn k1 (firstn k2 l1)) at 1. f_equal. rewrite firstn_firstn. f_equal. lia. }
  rewrite E, (run_app P (at_ k1)). cbn [snd]. apply run_grows.
Qed.

Lemma at_value k1 k2 d1 d2 K c : k1 <= k2 -> load P (s_disk (St k1)) = Ok d1 -> load P (s_disk (St k2)) = Ok d2 -> d2 !! K = Some c ->
  ((exists k, k1 <= k < k2 /\ replaced k K) /\ fresh_value P (St k1) (St k2) c) \/ ((forall k, k1 <= k < k2 -> ~ replaced k K) /\ d1 !! K = Some c).
Proof.
  intros H. revert d2 c. induction H as [|k2 H IH]; intros d2 c Hd1 Hd2 Hc.
  - rewrite Hd1 in Hd2. injection Hd2 as <-. right. split; [lia|exact Hc].
  - destruct (at_load k2) as [d Hd]. destruct (at_step k2 d d2 K Hd Hd2) as [[H1 (c' & H2 & (ek & j & m & H3 & H4))]|[H1 H2]].
    + left. split; [exists k2; split; [lia|exact H1]|]. rewrite H2 in Hc. injection Hc as ->. exists ek, j, m. split; [|exact H4].
      pose proof (at_grows k1 k2 H). lia.
    + assert (d !! K = Some c) as Hk by (destruct H2 as [H2|H2]; congruence).
      destruct (IH d c Hd1 Hd Hk) as [[(k & X1 & X2) (ek & j & m & X3 & X4)]|[X1 X2]]; [left|right; split; [|assumption]].
      * split; [exists k; split; [lia|exact X2]|]. exists ek, j, m. split; [|exact X4]. pose proof (at_grows k2 (S k2) ltac:(lia)). lia.
      * intros k Hr. destruct (decide (k = k2)) as [->|Hne]; [exact H1|]. apply X1. lia.
Qed.

Lemma at_sealed k d K c : load P (s_disk (St k)) = Ok d -> d !! K = Some c -> K <> SALT_KEY -> exists ek j m, j < s_rand (St k) /\ c = sealed P ek j m.
Proof.
  intros Hd Hc Hs. assert (all_logged P [] s0) as H0.
  { destruct (so_fresh _ _ _ _ So) as (Hd0 & _ & _ & _ & Hld). split; [split|split].
    - constructor.
    - intros ? ? [].
    - rewrite Hd0. intros q v E. rewrite lookup_empty in E. discriminate.
    - rewrite Hd0. apply texts_empty.
    - intros q E. rewrite E in Hld. discriminate. }
  destruct (trace_logged P (at_ k) [] s0 HP H0) as (log & ([L1 L2 _] & _ & L3) & _).
  destruct (L3 d Hd K c Hc Hs) as [j Hj]. destruct (L2 _ _ Hj) as [Hb (ek & m & _ & E)]. eauto.
Qed.

Context (Hnon : forall a b, a < bound -> b < bound -> p_random P a 12 = p_random P b 12 -> a = b).

Lemma at_equal k1 k2 d1 d2 K c1 c2 : k1 <= k2 -> load P (s_disk (St k1)) = Ok d1 -> load P (s_disk (St k2)) = Ok d2 ->
  d1 !! K = Some c1 -> d2 !! K = Some c2 -> (c1 = c2 <-> forall k, k1 <= k < k2 -> ~ replaced k K).
Proof.
  intros Hk Hd1 Hd2 Hc1 Hc2. destruct (at_value k1 k2 d1 d2 K c2 Hk Hd1 Hd2 Hc2) as [[(k & X1 & X2) (ek & j & m & X3 & X4)]|[X1 X2]].
  - assert (K <> SALT_KEY) as Hs by (destruct X2 as (o & y & _ & _ & ->); apply (slot_key_fixed P)).
    split; [|intros H; destruct (H k X1 X2)]. intros E. exfalso.
    destruct (at_sealed k1 d1 K c1 Hd1 Hc1 Hs) as (ek1 & j1 & m1 & B1 & Y1).
    assert (forall a b ek m ek' m', sealed P ek a m = sealed P ek' b m' -> p_random P a 12 = p_random P b 12) as Hnn.
    { intros a b e q e' q' Eq. apply (sealed_nonce P e' b q'). rewrite <- Eq. eexists. reflexivity. }
    assert (p_random P j1 12 = p_random P j 12) as E12 by (eapply Hnn; rewrite <- Y1, <- X4; exact E).
    pose proof (at_bound P l0 l1 s0 k1) as Hb1. pose proof (at_bound P l0 l1 s0 k2) as Hb2.
    apply Hnon in E12; lia.
  - split; [intros _; exact X1|]. intros _. congruence.
Qed.
End segment.

Section segment2.
Context (P : prims) (sc : scope) (l0 l1 : list op) (s0 : st) (Hw : forall n, p_write P n = WriteOk).
Context (So : sound P sc (l0 ++ l1) s0) (Hn : Forall (fun o => is_reset o = false) l1).
Notation HP := (so_prims _ _ _ _ So).
Notation bound := (s_rand (snd (run P (l0 ++ l1) s0))).
Notation Rep := (data_rep P (sc_sites sc) (sc_ids sc) (sc_pws sc) bound).
Notation at_ k := (l0 ++ firstn k l1).
Notation St k := (snd (run P (at_ k) s0)).
Notation W k := (world_after P (at_ k)).
Notation in_slot := (in_slot (sc_sites sc) (sc_ids sc)).
Context (pp : bytes) (v0 : vault) (i : nat) (d0 : kvmap).
Context (E0 : w_file (W 0) = Some (pp, v0)) (Ed0 : load P (s_disk (St 0)) = Ok d0) (R0 : Rep i pp d0 v0).

Lemma replaces_in k o y : l1 !! k = Some o -> replaces (W k) o y -> in_slot y.
Proof.
  intros Ho (_ & p & v & Hm & Hr). destruct (at_srep P sc l0 l1 s0 Hw So k) as [M _]. unfold mem_rep in M. rewrite Hm in M. destruct M as (j & D & _).
  exact (scoped_slot P _ _ _ _ o j p _ v y D (at_scoped P sc l0 l1 s0 So k o Ho) Hr).
Qed.
Lemma replaced_slot k y : in_slot y -> replaced P l0 l1 i k (slot_key P i y) <-> exists o, l1 !! k = Some o /\ replaces (W k) o y.
Proof.
  intros Hy. split.
  - intros (o & z & Ho & Hz & E). exists o. split; [exact Ho|].
    apply (slot_key_inj P _ _ _ _ (so_sites _ _ _ _ So) (so_ids _ _ _ _ So) (so_assumptions _ _ _ _ So) i y z (dr_bound _ _ _ _ _ _ _ _ _ R0) Hy (replaces_in k o z Ho Hz)) in E.
    subst z. exact Hz.
  - intros (o & Ho & Hr). exists o, y. auto.
Qed.
Lemma not_replaced k K : K = SALT_KEY \/ K = HMAC_SECRET_KEY -> ~ replaced P l0 l1 i k K.
Proof. intros H (o & y & _ & _ & ->). destruct (slot_key_fixed P i y). tauto. Qed.

Lemma file_at k : exists v d j, w_file (W k) = Some (pp, v) /\ load P (s_disk (St k)) = Ok d /\ Rep j pp d v /\ forall y, slot_key P j y = slot_key P i y.
Proof.
  destruct (at_file P l0 l1 Hn pp v0 E0 k) as [v Hv]. destruct (at_srep P sc l0 l1 s0 Hw So k) as [_ F]. unfold file_rep in F. rewrite Hv in F.
  destruct F as (j & d & Hd & R). exists v, d, j. split; [exact Hv|]. split; [exact Hd|]. split; [exact R|].
  assert (p_random P (j + 1) 32 = p_random P (i + 1) 32) as E.
  { exact (at_secret P sc l0 l1 s0 Hw So Hn k pp v0 i d0 j v d E0 Ed0 R0 Hv Hd R). }
  intros [x|x]; cbn; [apply same_secret_site|apply same_secret_password]; exact E.
Qed.
Lemma present_in v d j y : Rep j pp d v -> present v y -> in_slot y.
Proof.
  intros R. destruct y as [x|x]; cbn; intros [o Ho]; [exact (proj1 (dr_site _ _ _ _ _ _ _ _ _ R _ _ Ho))|exact (proj1 (dr_pw _ _ _ _ _ _ _ _ _ R _ _ Ho))].
Qed.
End segment2.

Lemma values_change P sc l0 l1 s0 pp v0 : (forall n, p_write P n = WriteOk) -> sound P sc (l0 ++ l1) s0 -> Forall (fun o => is_reset o = false) l1 ->
  (forall a b, a < s_rand (snd (run P (l0 ++ l1) s0)) -> b < s_rand (snd (run P (l0 ++ l1) s0)) -> p_random P a 12 = p_random P b 12 -> a = b) ->
  w_file (world_after P l0) = Some (pp, v0) ->
  exists key : slot -> bytes,
    (forall k, exists v d, w_file (world_after P (l0 ++ firstn k l1)) = Some (pp, v) /\ load P (s_disk (snd (run P (l0 ++ firstn k l1) s0))) = Ok d /\
       (forall y, present v y -> is_Some (d !! key y)) /\
       (forall K, is_Some (d !! K) -> K = bs "salt" \/ K = bs "hmac-secret" \/ exists y, present v y /\ K = key y)) /\
    (forall k k' v v' y y', w_file (world_after P (l0 ++ firstn k l1)) = Some (pp, v) -> w_file (world_after P (l0 ++ firstn k' l1)) = Some (pp, v') ->
       present v y -> present v' y' -> key y = key y' -> y = y') /\
    (forall k1 k2 d1 d2, k1 <= k2 -> load P (s_disk (snd (run P (l0 ++ firstn k1 l1) s0))) = Ok d1 -> load P (s_disk (snd (run P (l0 ++ firstn k2 l1) s0))) = Ok d2 ->
       d1 !! bs "salt" = d2 !! bs "salt" /\ d1 !! bs "hmac-secret" = d2 !! bs "hmac-secret" /\
       forall y v c1 c2, w_file (world_after P (l0 ++ firstn k1 l1)) = Some (pp, v) -> present v y -> d1 !! key y = Some c1 -> d2 !! key y = Some c2 ->
         (c1 = c2 <-> forall k o, k1 <= k < k2 -> l1 !! k = Some o -> ~ replaces (world_after P (l0 ++ firstn k l1)) o y)).
Proof.
  intros Hw So Hn Hnon E0. assert (w_file (world_after P (l0 ++ firstn 0 l1)) = Some (pp, v0)) as E0' by (cbn [firstn]; rewrite app_nil_r; exact E0).
  destruct (at_srep P sc l0 l1 s0 Hw So 0) as [_ F]. unfold file_rep in F. rewrite E0' in F. destruct F as (i & d0 & Ed0 & R0).
  pose proof (file_at P sc l0 l1 s0 Hw So Hn pp v0 i d0 E0' Ed0 R0) as FA.
  exists (slot_key P i). split; [|split].
  - intros k. destruct (FA k) as (v & d & j & H1 & H2 & H3 & H4). exists v, d. split; [exact H1|]. split; [exact H2|]. split.
    + intros y Hy. rewrite <- H4. destruct y as [x|x]; cbn [present slot_key] in Hy |- *; destruct Hy as [o Ho].
      * destruct (dr_site _ _ _ _ _ _ _ _ _ H3 _ _ Ho) as (_ & _ & rnd & ->). eauto.
      * destruct (dr_pw _ _ _ _ _ _ _ _ _ H3 _ _ Ho) as (_ & _ & rnd & ->). eauto.
    + intros K HK. destruct (dr_dom _ _ _ _ _ _ _ _ _ H3 K HK) as [->|[->|[(x & Hx & ->)|(x & Hx & ->)]]]; [auto|auto| |]; right; right.
      * exists (inl x). split; [exact Hx|apply (H4 (inl x))].
      * exists (inr x). split; [exact Hx|apply (H4 (inr x))].
  - intros k k' v v' y y' Hv Hv' Hy Hy' E. destruct (FA k) as (u & d & j & H1 & H2 & H3 & _), (FA k') as (u' & d' & j' & H1' & H2' & H3' & _).
    rewrite Hv in H1. rewrite Hv' in H1'. injection H1 as <-. injection H1' as <-.
    refine (slot_key_inj P _ _ _ _ (so_sites _ _ _ _ So) (so_ids _ _ _ _ So) (so_assumptions _ _ _ _ So) i y y' (dr_bound _ _ _ _ _ _ _ _ _ R0) _ _ E).
    + eapply present_in; [exact H3|exact Hy].
    + eapply present_in; [exact H3'|exact Hy'].
  - intros k1 k2 d1 d2 Hk Hd1 Hd2.
    pose proof (at_value P sc l0 l1 s0 Hw So Hn pp v0 i d0 E0' Ed0 R0 k1 k2 d1 d2) as AV.
    pose proof (at_equal P sc l0 l1 s0 Hw So Hn pp v0 i d0 E0' Ed0 R0 Hnon k1 k2 d1 d2) as AE.
    destruct (FA k2) as (v2 & d2' & j2 & _ & H2 & R2 & _). rewrite Hd2 in H2. injection H2 as <-.
    assert (forall K c, K = SALT_KEY \/ K = HMAC_SECRET_KEY -> d2 !! K = Some c -> d1 !! K = d2 !! K) as Hfix.
    { intros K c HK Hc. destruct (AV K c Hk Hd1 Hd2 Hc) as [[(k & _ & H) _]|[_ H]]; [destruct (not_replaced P l0 l1 i k K HK H)|congruence]. }
    split; [exact (Hfix _ _ (or_introl eq_refl) (dr_salt _ _ _ _ _ _ _ _ _ R2))|].
    split; [exact (Hfix _ _ (or_intror eq_refl) (dr_hmac _ _ _ _ _ _ _ _ _ R2))|].
    intros y v c1 c2 Hv Hy Hc1 Hc2. rewrite (AE _ _ _ Hk Hd1 Hd2 Hc1 Hc2).
    destruct (FA k1) as (v1 & d1' & j1 & H1 & _ & R1 & _). rewrite Hv in H1. injection H1 as <-.
    pose proof (present_in P sc l0 l1 s0 pp v d1' j1 y R1 Hy) as Iy.
    split; intros H.
    + intros k o Hr Ho Hrep. apply (H k Hr). apply (replaced_slot P sc l0 l1 s0 Hw So pp v0 i d0 R0 k y Iy). eauto.
    + intros k Hr Hrep. apply (replaced_slot P sc l0 l1 s0 Hw So pp v0 i d0 R0 k y Iy) in Hrep. destruct Hrep as (o & Ho & Hrep). exact (H k o Hr Ho Hrep).
Qed.

(** * Two histories *)

Section rewriting.
Context (f : renaming) (Ff : fair f).
Definition rslot (y : slot) : slot := match y with inl x => inl (on_site f x) | inr z => inr (rid f z) end.
Lemma rslot_inj y z : rslot y = rslot z -> y = z.
Proof.
  destruct y, z; cbn [rslot]; intros E; try discriminate E; f_equal.
  - injection E as E. apply (fa_site f Ff), E.
  - apply (f_equal (fun x : slot => match x with inr q => q | inl _ => p end)) in E. apply (rid_inj f Ff), E.
Qed.
Lemma rslot_iff y z : rslot y = rslot z <-> y = z.
Proof. split; [apply rslot_inj|intros ->; reflexivity]. Qed.

Lemma like_rewrites v v' o o' y : like_vault f v v' -> corresponds f o o' -> rewrites v o y <-> rewrites v' o' (rslot y).
Proof.
  intros L H.
  assert (forall s n r s' n' r', site_for f s s' -> id_for f n r n' r' ->
    (y = inr (target v s, n, rev_of r) \/ y = inl (target v s) /\ v_sites v !! target v s = None) <->
    (rslot y = inr (target v' s', n', rev_of r') \/ rslot y = inl (target v' s') /\ v_sites v' !! target v' s' = None)) as Hset.
  { intros s n r s' n' r' Hs Hi. rewrite (like_id f v v' s s' n r n' r' L Hs Hi), (like_target f v v' s s' L Hs), (lv_site _ _ _ L).
    change (inr (rid f (target v s, n, rev_of r))) with (rslot (inr (target v s, n, rev_of r))).
    change (inl (on_site f (target v s))) with (rslot (inl (target v s))). rewrite !rslot_iff.
    destruct (v_sites v !! target v s); cbn [option_map]; intuition discriminate. }
  destruct H as [o o' Hr Hr'|p|p| | |s a s' a' Hs Ha|s s' Hs|l|s n r len cs s' n' r' len' cs' Hs Hi _ _|s n r t s' n' r' t' Hs Hi _|s n r t s' n' r' t' Hs Hi _|s n r s' n' r' Hs Hi]; cbn [rewrites]; try tauto.
  - destruct o; try discriminate Hr; destruct o'; try discriminate Hr'; cbn; tauto.
  - pose proof (like_target f v v' a a' L Ha) as Et. unfold site_for in Hs. rewrite Et, Hs, (like_has_passwords f Ff v v' _ L).
    change (inl (on_site f (host s))) with (rslot (inl (host s))). rewrite rslot_iff.
    assert (on_site f (host s) = on_site f (target v a) <-> host s = target v a) as -> by (split; [apply (fa_site f Ff)|intros ->; reflexivity]). tauto.
  - apply Hset; assumption.
  - apply Hset; assumption.
  - rewrite (like_id f v v' s s' n r n' r' L Hs Hi), <- (like_some f v v' _ L).
    change (inr (rid f (target v s, n, rev_of r))) with (rslot (inr (target v s, n, rev_of r))). rewrite rslot_iff. tauto.
Qed.

Lemma like_replaces w w' o o' y : like_world f w w' -> corresponds f o o' -> replaces w o y <-> replaces w' o' (rslot y).
Proof.
  intros (L1 & L2 & _) H. unfold replaces. rewrite L2. apply and_iff_compat_l. split.
  - intros (p & v & E & Hr). rewrite E in L1. unfold like_saved in L1. destruct (w_mem w') as [[p' v']|]; [|destruct L1]. destruct L1 as [_ L].
    exists p', v'. split; [reflexivity|]. apply (like_rewrites v v' o o' y L H), Hr.
  - intros (p' & v' & E & Hr). rewrite E in L1. unfold like_saved in L1. destruct (w_mem w) as [[p v]|]; [|destruct L1]. destruct L1 as [_ L].
    exists p, v. split; [reflexivity|]. apply (like_rewrites v v' o o' y L H), Hr.
Qed.
End rewriting.

Section two.
Context (P P' : prims) (sc sc' : scope) (f : renaming) (l0 l1 l0' l1' : list op) (s0 s0' : st).
Context (Ff : fair f) (Hw : forall n, p_write P n = WriteOk) (Hw' : forall n, p_write P' n = WriteOk).
Context (So : sound P sc (l0 ++ l1) s0) (So' : sound P' sc' (l0' ++ l1') s0').
Context (H0 : Forall2 (corresponds f) l0 l0') (H1 : Forall2 (corresponds f) l1 l1') (Hn : Forall (fun o => is_reset o = false) l1).
Context (Hnon : forall a b, a < s_rand (snd (run P (l0 ++ l1) s0)) -> b < s_rand (snd (run P (l0 ++ l1) s0)) -> p_random P a 12 = p_random P b 12 -> a = b).
Context (Hnon' : forall a b, a < s_rand (snd (run P' (l0' ++ l1') s0')) -> b < s_rand (snd (run P' (l0' ++ l1') s0')) -> p_random P' a 12 = p_random P' b 12 -> a = b).
Notation W k := (world_after P (l0 ++ firstn k l1)).
Notation W' k := (world_after P' (l0' ++ firstn k l1')).
Notation look k := (load P (s_disk (snd (run P (l0 ++ firstn k l1) s0)))).
Notation look' k := (load P' (s_disk (snd (run P' (l0' ++ firstn k l1') s0')))).

Lemma worlds_alike k : like_world f (W k) (W' k).
Proof.
  apply (like_run f Ff P P' (l0 ++ firstn k l1) (l0' ++ firstn k l1')).
  - apply Forall2_app; [exact H0|]. apply Forall2_take, H1.
  - repeat split.
Qed.

Lemma rewritten_alike : exists b, pairing b /\ (forall k, look_alike b (look k) (look' k)) /\
  forall k1 k2, same_equalities b (look k1) (look k2) (look' k1) (look' k2).
Proof.
  pose proof (corresponds_reset f _ _ H1 Hn) as Hn'. pose proof (worlds_alike 0) as (_ & _ & F0).
  destruct (at_srep P sc l0 l1 s0 Hw So 0) as [_ G0]. destruct (at_srep P' sc' l0' l1' s0' Hw' So' 0) as [_ G0']. unfold file_rep in G0, G0'.
  destruct (w_file (W 0)) as [[pp v]|] eqn:E0.
  - unfold like_saved in F0. destruct (w_file (W' 0)) as [[pp' v']|] eqn:E0'; [|destruct F0]. destruct F0 as [-> L0].
    destruct G0 as (i & d & Ed & R), G0' as (i' & d' & Ed' & R').
    assert (pairing (paired f P P' sc sc' i i')) as Hp.
    { eapply (paired_pairing f Ff P P' (so_prims _ _ _ _ So) (so_prims _ _ _ _ So') sc sc').
      * apply (so_sites _ _ _ _ So).
      * apply (so_ids _ _ _ _ So).
      * apply (so_sites _ _ _ _ So').
      * apply (so_ids _ _ _ _ So').
      * apply (so_assumptions _ _ _ _ So).
      * apply (so_assumptions _ _ _ _ So').
      * apply (dr_bound _ _ _ _ _ _ _ _ _ R).
      * apply (dr_bound _ _ _ _ _ _ _ _ _ R'). }
    exists (paired f P P' sc sc' i i'). split; [exact Hp|].
    assert (forall k k' n, paired f P P' sc sc' i i' k k' -> replaced P l0 l1 i n k <-> replaced P' l0' l1' i' n k') as Hrep.
    { intros k k' n Hk.
      assert ((k = SALT_KEY \/ k = HMAC_SECRET_KEY) /\ (k' = SALT_KEY \/ k' = HMAC_SECRET_KEY) \/
        exists y, in_slot (sc_sites sc) (sc_ids sc) y /\ in_slot (sc_sites sc') (sc_ids sc') (rslot f y) /\ k = slot_key P i y /\ k' = slot_key P' i' (rslot f y)) as Hc.
      { destruct Hk as [[-> ->]|[[-> ->]|[(x & X1 & X2 & -> & ->)|(y & X1 & X2 & -> & ->)]]]; [tauto|tauto| |]; right.
        - exists (inl x). auto.
        - exists (inr y). auto. }
      destruct Hc as [[X1 X2]|(y & X1 & X2 & -> & ->)].
      - split; intros H; [destruct (not_replaced P l0 l1 i n k X1 H)|destruct (not_replaced P' l0' l1' i' n k' X2 H)].
      - rewrite (replaced_slot P sc l0 l1 s0 Hw So pp v i d R n y X1), (replaced_slot P' sc' l0' l1' s0' Hw' So' _ v' i' d' R' n _ X2).
        split.
        + intros (o & Ho & Hr). destruct (Forall2_lookup_l _ _ _ _ _ H1 Ho) as (o' & Ho' & Hc). exists o'. split; [exact Ho'|].
          apply (like_replaces f Ff _ _ o o' y (worlds_alike n) Hc), Hr.
        + intros (o' & Ho' & Hr). destruct (Forall2_lookup_r _ _ _ _ _ H1 Ho') as (o & Ho & Hc). exists o. split; [exact Ho|].
          apply (like_replaces f Ff _ _ o o' y (worlds_alike n) Hc), Hr. }
    assert (forall k1 k2, k1 <= k2 -> same_equalities (paired f P P' sc sc' i i') (look k1) (look k2) (look' k1) (look' k2)) as Heq.
    { intros k1 k2 Hk. unfold same_equalities.
      destruct (look k1) as [d1| |] eqn:D1; [|exact I..]. destruct (look k2) as [d2| |] eqn:D2; [|exact I..].
      destruct (look' k1) as [d1'| |] eqn:D1'; [|exact I..]. destruct (look' k2) as [d2'| |] eqn:D2'; [|exact I..].
      intros k k' c1 c2 c1' c2' Hb C1 C2 C1' C2'.
      rewrite (at_equal P sc l0 l1 s0 Hw So Hn pp v i d E0 Ed R Hnon k1 k2 d1 d2 k c1 c2 Hk D1 D2 C1 C2).
      rewrite (at_equal P' sc' l0' l1' s0' Hw' So' Hn' _ v' i' d' E0' Ed' R' Hnon' k1 k2 d1' d2' k' c1' c2' Hk D1' D2' C1' C2').
      split; intros H n Hr Hx; apply (H n Hr), (Hrep k k' n Hb), Hx. }
    split.
    + intros k. pose proof (worlds_alike k) as (_ & _ & FA).
      destruct (file_at P sc l0 l1 s0 Hw So Hn pp v i d E0 Ed R k) as (w & e & j & A1 & A2 & A3 & _).
      destruct (file_at P' sc' l0' l1' s0' Hw' So' Hn' _ v' i' d' E0' Ed' R' k) as (w' & e' & j' & A1' & A2' & A3' & _).
      rewrite A1, A1' in FA. destruct FA as [_ L]. rewrite A2, A2'. cbn [look_alike].
      eapply (rep_matched f Ff P P' (so_prims _ _ _ _ So) (so_prims _ _ _ _ So') sc sc'); [| |exact A3|exact A3'|exact L].
      * exact (at_secret P sc l0 l1 s0 Hw So Hn k pp v i d j w e E0 Ed R A1 A2 A3).
      * exact (at_secret P' sc' l0' l1' s0' Hw' So' Hn' k _ v' i' d' j' w' e' E0' Ed' R' A1' A2' A3').
    + intros k1 k2. destruct (le_lt_dec k1 k2) as [Hk|Hk]; [apply Heq, Hk|].
      assert (k2 <= k1) as Hk' by lia. specialize (Heq k2 k1 Hk'). unfold same_equalities in *.
      destruct (look k1) as [d1| |]; [|exact I..]. destruct (look k2) as [d2| |]; [|exact I..].
      destruct (look' k1) as [d1'| |]; [|exact I..]. destruct (look' k2) as [d2'| |]; [|exact I..].
      intros k k' c1 c2 c1' c2' Hb C1 C2 C1' C2'. specialize (Heq k k' c2 c1 c2' c1' Hb C2 C1 C2' C1'). split; intros E; symmetry; apply Heq; symmetry; exact E.
  - exists only_fixed. split; [apply only_fixed_pairing|].
    assert (forall k, is_ok (look k) = false) as Hno.
    { intros k. pose proof (at_primary P l0 l1 Hn k) as AP. change (primary_of (w_file (W k)) = primary_of (w_file (W 0))) in AP. rewrite E0 in AP.
      destruct (at_srep P sc l0 l1 s0 Hw So k) as [_ G]. unfold file_rep in G. destruct (w_file (W k)) as [[q w]|]; [discriminate AP|exact G]. }
    assert (forall k, is_ok (look' k) = false) as Hno'.
    { intros k. unfold like_saved in F0. destruct (w_file (W' 0)) as [[q w]|] eqn:E0'; [destruct F0|].
      pose proof (at_primary P' l0' l1' Hn' k) as AP. change (primary_of (w_file (W' k)) = primary_of (w_file (W' 0))) in AP. rewrite E0' in AP.
      destruct (at_srep P' sc' l0' l1' s0' Hw' So' k) as [_ G]. unfold file_rep in G. destruct (w_file (W' k)) as [[q w]|]; [discriminate AP|exact G]. }
    split.
    + intros k. specialize (Hno k). specialize (Hno' k). destruct (look k); [discriminate Hno| |]; (destruct (look' k); [discriminate Hno'| |]; exact I).
    + intros k1 k2. specialize (Hno k1). destruct (look k1); [discriminate Hno|exact I|exact I].
Qed.
End two.
