(** Facts about calls in reachable states. *)
From stdpp Require Import gmap.
From Coq Require Import Permutation ZArith ZifyBool ZifyNat ZifyN.
From Verif Require Import M_Base M_Base64 M_Utf8 M_Prims M_Types M_Crypto M_Recovery M_Json M_Serde M_Storage
  M_Passwords M_History S_Json S_Serde S_Vault S_Api P_Base P_Base64 P_Crypto P_Recovery P_Json P_Serde P_Utf8
  P_File P_Storage P_Api.

(** * Invariants *)

Lemma run_inv P (I : st -> Prop) : (forall o s, I s -> I (snd (exec P o s))) -> forall l s, I s -> I (snd (run P l s)).
Proof.
  intros H. induction l as [|o l IH]; intros s Hs; [exact Hs|]. cbn [run]. specialize (H o s Hs).
  destruct (exec P o s) as [r s1]. specialize (IH s1 H). destruct (run P l s1) as [rs s2]. exact IH.
Qed.

Lemma run_app P l1 l2 s :
  run P (l1 ++ l2) s = (fst (run P l1 s) ++ fst (run P l2 (snd (run P l1 s))), snd (run P l2 (snd (run P l1 s)))).
Proof.
  revert s; induction l1 as [|o l1 IH]; intros s; cbn [app run fst snd].
  - destruct (run P l2 s); reflexivity.
  - destruct (exec P o s) as [r s1]. rewrite IH. destruct (run P l1 s1) as [rs s2]. cbn [fst snd]. reflexivity.
Qed.

Lemma run_one P o s : run P [o] s = ([fst (exec P o s)], snd (exec P o s)).
Proof. cbn [run]. destruct (exec P o s). reflexivity. Qed.

Lemma reachable_step P o s : reachable P s -> reachable P (snd (exec P o s)).
Proof.
  intros (l & s0 & H0 & ->). exists (l ++ [o]), s0. split; [exact H0|]. rewrite run_app, run_one. reflexivity.
Qed.

Definition good_secrets (s : st) : Prop :=
  locked s \/ exists k h p, unlocked_with s k h p /\ length k = 32.

Lemma good_secrets_same s s' : secrets s' = secrets s -> good_secrets s -> good_secrets s'.
Proof.
  unfold good_secrets, unlocked_with, locked, secrets. intros H [W|W].
  - left. injection H as -> -> ->. exact W.
  - right. rewrite H. exact W.
Qed.

Lemma good_whole s : good_secrets s -> whole s.
Proof. intros [H|(k & h & p & H & _)]; [left; exact H|right; exists k, h, p; exact H]. Qed.

Lemma good_step P o s : prims_ok P -> good_secrets s -> good_secrets (snd (exec P o s)).
Proof.
  intros HP G. pose proof (good_whole s G) as W. destruct (modifies o) eqn:Em.
  - destruct (is_reset o) eqn:Er.
    + destruct (not_reset o Er) as [pp ->].
      destruct (reset_cases P pp s HP) as (s1 & Hs & _ & _ & _ & _ & _ & _ & [(_ & _ & ->)|(_ & ->)]).
      * right. repeat eexists. apply (ok_scrypt_len P HP).
      * rewrite done_out_snd. destruct (flush_facts P s1) as (_ & F2 & _). eapply good_secrets_same; [|exact G]. congruence.
    + eapply good_secrets_same; [|exact G]. apply exec_secrets; assumption.
  - destruct (reading o) eqn:Er.
    + destruct (exec_reading P o s Er) as ((_ & E & _) & _). eapply good_secrets_same; [exact E|exact G].
    + destruct o; try discriminate Em; try discriminate Er; [|left; repeat split|left; repeat split|destruct l; discriminate].
      cbn [exec]. rewrite as_out_snd. unfold unlock, bindM, reads, lift.
      destruct (get_salt (s_data s)) as [salt|e|]; [|exact G..]. rewrite get_encryption_key_eq.
      destruct (get_hmac_secret P (s_data s) _) as [x|e|]; [|exact G..]. right. repeat eexists. apply (ok_scrypt_len P HP).
Qed.

Lemma reachable_good P s : prims_ok P -> reachable P s -> good_secrets s.
Proof.
  intros HP (l & s0 & [H0 _] & ->). apply (run_inv P good_secrets); [intros; apply good_step; assumption|left; exact H0].
Qed.

Lemma reachable_texts P s : prims_ok P -> reachable P s -> texts (s_data s).
Proof. intros HP (l & s0 & H0 & ->). apply run_texts; [exact HP|exact (started_texts P s0 H0)]. Qed.

Lemma reachable_key P s k h p : prims_ok P -> reachable P s -> unlocked_with s k h p -> length k = 32.
Proof.
  intros HP R H. destruct (reachable_good P s HP R) as [(Hk & _)|(k' & h' & p' & H' & Hl)];
    unfold unlocked_with, secrets in *; congruence.
Qed.

(** * The secrets fit the data *)

Definition in_sync (P : prims) (s : st) : Prop :=
  locked s \/ exists pp, s_primary s = Some pp /\ unlock P pp s = (Ok tt, s).

(** [unlock] looks at two entries only. *)
Lemma unlock_data P pp s s' :
  s_data s' !! SALT_KEY = s_data s !! SALT_KEY -> s_data s' !! HMAC_SECRET_KEY = s_data s !! HMAC_SECRET_KEY ->
  match unlock P pp s with
  | (Ok _, s1) => exists k h, secrets s1 = (Some k, Some h, Some pp) /\
                  unlock P pp s' = set_secrets (Some k) (Some h) (Some pp) s'
  | (r, _) => unlock P pp s' = (r, s')
  end.
Proof.
  intros H1 H2. unfold unlock, bindM, reads, lift, get_salt, get_hmac_secret. rewrite H1, H2.
  destruct (s_data s !! SALT_KEY) as [c|]; cbn [ok_or bind]; [|reflexivity].
  destruct (b64_decode c) as [salt|]; cbn [ok_or bind]; [|reflexivity].
  destruct (get_encryption_key P pp salt) as [key|e|]; [|reflexivity..].
  destruct (s_data s !! HMAC_SECRET_KEY) as [c'|]; cbn [ok_or bind]; [|reflexivity].
  match goal with |- context [bind ?x ?f] => destruct (bind x f) as [h|e|] end; [|reflexivity..].
  exists key, h. split; reflexivity.
Qed.

Lemma st_eta s : mk_st (s_data s) (s_key s) (s_hmac s) (s_primary s) (s_disk s) (s_tick s) (s_flushes s) (s_rand s) = s.
Proof. destruct s; reflexivity. Qed.

Lemma set_secrets_same s k h p : secrets s = (k, h, p) -> set_secrets k h p s = (Ok tt, s).
Proof. unfold secrets, set_secrets. intros [= <- <- <-]. rewrite st_eta. reflexivity. Qed.

Lemma sync_same P s s' :
  s_data s' !! SALT_KEY = s_data s !! SALT_KEY -> s_data s' !! HMAC_SECRET_KEY = s_data s !! HMAC_SECRET_KEY ->
  secrets s' = secrets s -> in_sync P s -> in_sync P s'.
Proof.
  intros H1 H2 Hs [L|(pp & Hp & Hu)].
  - left. unfold locked, secrets in *. injection Hs as -> -> ->. exact L.
  - right. exists pp. split; [unfold secrets in Hs; congruence|]. pose proof (unlock_data P pp s s' H1 H2) as H. rewrite Hu in H.
    destruct H as (k & h & Hk & ->). apply set_secrets_same. congruence.
Qed.

Lemma touched_not_reserved P o s slot : touched P o s slot -> slot <> SALT_KEY /\ slot <> HMAC_SECRET_KEY.
Proof.
  intros (h & _ & H). cbv zeta in H. destruct o; cbv beta iota in H; try contradiction;
    repeat match goal with H : exists _, _ |- _ => destruct H | H : _ /\ _ |- _ => destruct H
                         | H : _ \/ _ |- _ => destruct H end; subst;
    first [apply site_key_not_reserved|apply password_key_not_reserved].
Qed.

(** Reserved entries survive all changes but [reset]. *)
Lemma exec_frame P o s slot : modifies o = true -> is_reset o = false -> ~ touched P o s slot ->
  s_data (snd (exec P o s)) !! slot = s_data s !! slot.
Proof.
  intros Em Er Hs. destruct (exec_shaped P o s Em Er) as [[(_ & _ & H & _) _]|(s1 & (_ & _ & H & _) & ->)]; [apply H, Hs|].
  rewrite done_out_snd. destruct (flush_facts P s1) as (-> & _). apply H, Hs.
Qed.

Lemma sync_step P o s : prims_ok P -> whole s -> in_sync P s ->
  (forall pp, o = Reset pp -> unlocked s = true -> fst (exec P o s) = ODone) -> in_sync P (snd (exec P o s)).
Proof.
  intros HP W HS Hc. destruct (modifies o) eqn:Em.
  - destruct (is_reset o) eqn:Er.
    + destruct (not_reset o Er) as [pp ->]. specialize (Hc pp eq_refl).
      revert Hc. cbn [exec]. rewrite (reset_eq P pp s HP). cbv zeta.
      match goal with |- context [bindM (flush P) _ ?x] => set (s1 := x) end.
      unfold bindM. destruct (flush_facts P s1) as (F1 & F2 & _).
      destruct (flush P s1) as [[[]|e|] s2]; cbn [fst snd as_out] in *; intros Hc.
      * right. exists pp. split; [reflexivity|]. unfold unlock, bindM, reads, lift, set_secrets. cbn [s_data fst snd].
        assert (get_salt (s_data s2) = Ok (p_random P (s_rand s) 16)) as ->.
        { rewrite F1. unfold get_salt, s1. cbn [s_data]. rewrite lookup_insert_ne by discriminate.
          rewrite lookup_insert. cbn [ok_or bind]. rewrite b64_roundtrip. reflexivity. }
        rewrite get_encryption_key_eq.
        assert (get_hmac_secret P (s_data s2) (key_for P pp (s_rand s)) = Ok (p_random P (S (s_rand s)) 32)) as Hh.
        { rewrite F1. unfold get_hmac_secret, s1. cbn [s_data]. rewrite lookup_insert. cbn [ok_or bind].
          rewrite decrypt_sealed by (exact HP || apply (ok_scrypt_len P HP)). cbn [bind].
          rewrite string_roundtrip by apply utf8_b64. cbn [bind]. rewrite b64_roundtrip. reflexivity. }
        unfold key_for in Hh. unfold latin1. rewrite Hh. reflexivity.
      * left. assert (unlocked s = false) as Hu by (destruct (unlocked s); [discriminate (Hc eq_refl)|reflexivity]).
        assert (locked s) as L.
        { destruct W as [L|(k & h & p & H)]; [exact L|]. unfold unlocked in Hu. unfold secrets in H. injection H as H _ _.
          rewrite H in Hu. discriminate. }
        unfold locked, secrets in *. injection F2 as -> -> ->. exact L.
      * left. assert (unlocked s = false) as Hu by (destruct (unlocked s); [discriminate (Hc eq_refl)|reflexivity]).
        assert (locked s) as L.
        { destruct W as [L|(k & h & p & H)]; [exact L|]. unfold unlocked in Hu. unfold secrets in H. injection H as H _ _.
          rewrite H in Hu. discriminate. }
        unfold locked, secrets in *. injection F2 as -> -> ->. exact L.
    + eapply sync_same; [| |apply exec_secrets; assumption|exact HS]; apply exec_frame; try assumption;
        intros H; apply touched_not_reserved in H; destruct H; congruence.
  - destruct (reading o) eqn:Er.
    + destruct (exec_reading P o s Er) as ((E1 & E2 & _) & _). eapply sync_same; [rewrite E1; reflexivity..|exact E2|exact HS].
    + destruct o; try discriminate Em; try discriminate Er; [|left; repeat split|left; repeat split|destruct l; discriminate].
      cbn [exec]. rewrite as_out_snd.
      assert (s_data (snd (unlock P pp s)) = s_data s) as Hd.
      { unfold unlock, bindM, reads, lift. destruct (get_salt (s_data s)) as [salt|e|]; [|reflexivity..].
        destruct (get_encryption_key P pp salt) as [key|e|]; [|reflexivity..].
        destruct (get_hmac_secret P (s_data s) _) as [x|e|]; reflexivity. }
      pose proof (unlock_data P pp s (snd (unlock P pp s))) as H. rewrite Hd in H. specialize (H eq_refl eq_refl).
      pose proof (unlock_cases P pp s) as Hcs. cbn [exec] in Hcs.
      destruct (unlock P pp s) as [[[]|e|] s1] eqn:Eu; cbn [fst snd as_out] in *.
      * right. exists pp. destruct H as (k & h & Hk & H). split; [unfold secrets in Hk; congruence|].
        rewrite H. apply set_secrets_same, Hk.
      * destruct Hcs as [[Hx _]|[_ ->]]; [discriminate|exact HS].
      * destruct Hcs as [[Hx _]|[_ ->]]; [discriminate|exact HS].
Qed.

Lemma run_sync P l : prims_ok P -> forall s, whole s -> in_sync P s -> calm_run P l s -> in_sync P (snd (run P l s)).
Proof.
  intros HP. induction l as [|o l IH]; intros s W S C; [exact S|]. destruct C as [C1 C2]. cbn [run].
  assert (in_sync P (snd (exec P o s))) as S1.
  { apply sync_step; try assumption. intros pp ->. exact C1. }
  assert (whole (snd (exec P o s))) as W1 by (apply exec_secrets; assumption).
  destruct (exec P o s) as [r s1]. specialize (IH s1 W1 S1 C2). destruct (run P l s1) as [rs s2]. exact IH.
Qed.

Lemma calm_sync P s : prims_ok P -> calmly_reachable P s -> in_sync P s.
Proof. intros HP (l & s0 & [H0 _] & C & ->). apply run_sync; [exact HP|left; exact H0|left; exact H0|exact C]. Qed.

(** Locking and unlocking again gives back exactly the same instance. *)
Lemma lock_unlock P s pp : prims_ok P -> calmly_reachable P s -> s_primary s = Some pp ->
  exec P (Unlock pp) (snd (exec P Lock s)) = (ODone, s).
Proof.
  intros HP R Hp. destruct (calm_sync P s HP R) as [(_ & _ & L)|(pp' & Hp' & Hu)]; [congruence|].
  assert (pp' = pp) as -> by congruence.
  pose proof (unlock_data P pp s (snd (exec P Lock s)) eq_refl eq_refl) as H. rewrite Hu in H.
  destruct H as (k & h & Hk & H). cbn [exec]. rewrite as_out_snd in *. cbn [exec] in H. rewrite as_out_snd in H. rewrite H.
  unfold set_secrets, lock. cbn [snd as_out fst s_data s_disk s_tick s_flushes s_rand].
  unfold secrets in Hk. injection Hk as H1 H2 H3. rewrite <- H1, <- H2, <- H3. destruct s; reflexivity.
Qed.

(** * Durability *)

Lemma load_after P o s : prims_ok P -> reachable P s ->
  modifies o = true -> fst (exec P o s) = ODone ->
  load P (s_disk (snd (exec P o s))) = Ok (s_data (snd (exec P o s))).
Proof.
  intros HP R Hm Hd. rewrite (proj1 (proj2 (proj2 (exec_disk P o s HP))) Hd Hm).
  apply load_flush; [exact HP|]. apply (reachable_texts P), reachable_step; assumption.
Qed.

Lemma restart_unlock P o s pp : prims_ok P -> calmly_reachable P s -> calmly_reachable P (snd (exec P o s)) ->
  modifies o = true -> fst (exec P o s) = ODone -> let s' := snd (exec P o s) in s_primary s' = Some pp ->
  let s2 := snd (exec P (Unlock pp) (snd (exec P Restart s'))) in
  fst (exec P (Unlock pp) (snd (exec P Restart s'))) = ODone /\
  s_data s2 = s_data s' /\ secrets s2 = secrets s' /\ s_disk s2 = s_disk s'.
Proof.
  intros HP R R' Hm Hd s' Hp.
  assert (reachable P s) as R0 by (destruct R as (l & s0 & H & _ & E); exists l, s0; auto).
  pose proof (load_after P o s HP R0 Hm Hd) as Hl. fold s' in Hl.
  destruct (calm_sync P s' HP R') as [(_ & _ & L)|(pp' & Hp' & Hu)]; [congruence|].
  assert (pp' = pp) as -> by congruence.
  set (s3 := snd (exec P Restart s')).
  assert (s_data s3 = s_data s') as H3 by (unfold s3; cbn [exec snd passwords_new s_data]; rewrite Hl; reflexivity).
  pose proof (unlock_data P pp s' s3) as H. rewrite H3 in H. specialize (H eq_refl eq_refl). rewrite Hu in H.
  destruct H as (k & h & Hk & H). cbn [exec]. rewrite H. unfold set_secrets. cbn [fst snd as_out s_data s_disk].
  split; [reflexivity|]. split; [exact H3|]. split; [|reflexivity]. rewrite Hk. reflexivity.
Qed.

(** * What is read back consists of texts *)

Definition leaf_ok (j : json) : Prop :=
  match j with JStr x => utf8 x = true | JPos n => (n <= u64_max)%N | _ => True end.

Lemma value_leaf fo d j t : value fo d j t -> leaf_ok j.
Proof.
  intros H. inversion H; subst; cbn; try exact I; try assumption.
  match goal with H : string_text _ _ _ |- _ => destruct H as (? & _ & _ & ? & _); assumption end.
Qed.

Lemma parsed_leaves fo t j : parse_json fo t = Some j -> leaf_ok j /\
  match j with
  | JObj ms => forall e k j', In (e, k, j') ms -> leaf_ok j'
  | JArr l => forall j', In j' l -> leaf_ok j'
  | _ => True
  end.
Proof.
  intros H. apply parse_json_iff in H. destruct H as (w1 & t' & w2 & _ & _ & Hv & _). revert Hv. generalize 127. intros d Hv.
  split; [exact (value_leaf _ _ _ _ Hv)|]. destruct j; try exact I.
  - intros j' Hin. inversion Hv; subst; [destruct Hin|].
    match goal with H : elements _ _ _ _ |- _ => destruct (elements_values _ _ _ _ H _ Hin) as [t2 H2] end.
    exact (value_leaf _ _ _ _ H2).
  - intros e k j' Hin. inversion Hv; subst; [destruct Hin|].
    match goal with H : members _ _ _ _ |- _ => destruct (members_values _ _ _ _ H _ _ _ Hin) as [t2 H2] end.
    exact (value_leaf _ _ _ _ H2).
Qed.

Definition leaves (ms : list (bool * bytes * json)) : Prop := forall e k j, In (e, k, j) ms -> leaf_ok j.

Lemma leaves_filter f ms : leaves ms -> leaves (List.filter f ms).
Proof. intros H e k j Hin. apply filter_In in Hin. exact (H _ _ _ (proj1 Hin)). Qed.

Lemma lookup_leaves k ms j : leaves ms -> In j (M_Serde.lookup k ms) -> leaf_ok j.
Proof.
  intros H Hin. unfold M_Serde.lookup in Hin. apply in_map_iff in Hin. destruct Hin as ([[e k'] j'] & <- & Hin).
  apply filter_In in Hin. exact (H _ _ _ (proj1 Hin)).
Qed.

Lemma required_str k ms x : leaves ms -> required k as_str ms = Some x -> utf8 x = true.
Proof.
  intros H. unfold required. pose proof (lookup_leaves k ms) as Hl. destruct (M_Serde.lookup k ms) as [|j [|]]; try discriminate.
  destruct j; try discriminate. intros [= <-]. exact (Hl _ H (or_introl eq_refl)).
Qed.
Lemma required_pos k ms x : leaves ms -> required k as_pos ms = Some x -> (x <= u64_max)%N.
Proof.
  intros H. unfold required. pose proof (lookup_leaves k ms) as Hl. destruct (M_Serde.lookup k ms) as [|j [|]]; try discriminate.
  destruct j; try discriminate. intros [= <-]. exact (Hl _ H (or_introl eq_refl)).
Qed.
Lemma optional_str k ms x : leaves ms -> optional k as_str [] ms = Some x -> utf8 x = true.
Proof.
  intros H. unfold optional. pose proof (lookup_leaves k ms) as Hl.
  destruct (M_Serde.lookup k ms) as [|j [|]]; try discriminate; [intros [= <-]; reflexivity|].
  destruct j; try discriminate. intros [= <-]. exact (Hl _ H (or_introl eq_refl)).
Qed.

Lemma from_slice_ok {A} fo (conv : json -> option A) t x : from_slice fo conv t = Ok x ->
  exists j, parse_json fo t = Some j /\ conv j = Some x.
Proof.
  unfold from_slice. destruct (parse_json fo t) as [j|]; [|discriminate]. intros H. exists j. split; [reflexivity|].
  destruct (conv j); cbn [ok_or] in H; congruence.
Qed.

Lemma site_read_valid fo t x : from_slice fo site_of_json t = Ok x -> site_valid x.
Proof.
  intros H. apply from_slice_ok in H. destruct H as (j & Hj & H). apply parsed_leaves in Hj. destruct Hj as [_ Hj].
  destruct j as [| | | | |l|ms]; try discriminate; cbn [site_of_json] in H.
  - destruct l as [|a [|b [|]]]; try discriminate.
    destruct a as [| | | |a| |]; try discriminate. cbn [as_str] in H. pose proof (Hj _ (or_introl eq_refl)) as Ha.
    pose proof (Hj b (or_intror (or_introl eq_refl))) as Hb.
    destruct b as [| | | |b| |]; try discriminate; cbn [as_opt_str] in H; injection H as <-; split; cbn in *; try exact Ha;
      intros x [= <-]. exact Hb.
  - destruct (forallb _ ms); [|discriminate].
    destruct (required (bs "site") as_str ms) as [n|] eqn:En; [|discriminate].
    destruct (optional (bs "alias") as_opt_str None ms) as [a|] eqn:Ea; [|discriminate]. injection H as <-.
    split; cbn [site_name site_alias]; [exact (required_str _ _ _ Hj En)|]. intros y ->. unfold optional in Ea.
    pose proof (lookup_leaves (bs "alias") ms) as Hl. destruct (M_Serde.lookup _ ms) as [|j [|]]; try discriminate.
    destruct j; try discriminate. injection Ea as <-. exact (Hl _ Hj (or_introl eq_refl)).
Qed.

Lemma id_read_valid ms i : leaves ms -> id_of_members ms = Some i -> id_valid i.
Proof.
  intros Hl. unfold id_of_members.
  destruct (required (bs "site") as_str ms) as [a|] eqn:E1; [|discriminate].
  destruct (required (bs "name") as_str ms) as [b|] eqn:E2; [|discriminate].
  destruct (required (bs "revision") as_str ms) as [c|] eqn:E3; [|discriminate].
  intros [= <-]. repeat split; cbn; eapply required_str; eassumption.
Qed.

Lemma password_read_valid fo t p : from_slice fo password_of_json t = Ok p -> password_valid p.
Proof.
  intros H. apply from_slice_ok in H. destruct H as (j & Hj & H). apply parsed_leaves in Hj. destruct Hj as [_ Hj].
  destruct j as [| | | | | |ms]; try discriminate. cbn [password_of_json] in H. change (leaves ms) in Hj.
  destruct (required (bs "type") as_str ms) as [tag|] eqn:Et; [|discriminate].
  pose proof (leaves_filter (fun m => negb (key_in [bs "type"] m)) ms Hj) as Hl.
  set (ms1 := List.filter _ ms) in *.
  destruct (bytes_eqb tag (bs "generated2")).
  - destruct (required (bs "length") as_pos ms1) as [len|] eqn:E1; [|discriminate].
    destruct (optional (bs "notes") as_str [] ms1) as [notes|] eqn:E2; [|discriminate].
    destruct (id_of_members _) as [i|] eqn:E3; [|discriminate].
    destruct (charset_of_members _ _) as [cs|]; [|discriminate]. injection H as <-.
    split; [exact (id_read_valid _ _ (leaves_filter _ _ Hl) E3)|]. split; [exact (required_pos _ _ _ Hl E1)|exact (optional_str _ _ _ Hl E2)].
  - destruct (bytes_eqb tag (bs "stored")); [|discriminate].
    destruct (required (bs "password") as_str ms1) as [len|] eqn:E1; [|discriminate].
    destruct (optional (bs "notes") as_str [] ms1) as [notes|] eqn:E2; [|discriminate].
    destruct (id_of_members _) as [i|] eqn:E3; [|discriminate]. injection H as <-.
    split; [exact (id_read_valid _ _ (leaves_filter _ _ Hl) E3)|]. split; [exact (required_str _ _ _ Hl E1)|exact (optional_str _ _ _ Hl E2)].
Qed.

Lemma storage_get_text {A} (P : prims) (conv : json -> option A) (d : kvmap) (k key : bytes) (x : A) :
  storage_get P conv d k key = Ok x -> exists t, from_slice (p_float_ok P) conv t = Ok x.
Proof.
  unfold storage_get. destruct (io_get d k) as [v|e|]; cbn [bind]; try discriminate.
  destruct (decrypt_data P v key) as [m|e|]; cbn [bind]; try discriminate. intros H. exists m. exact H.
Qed.

Lemma resolve_utf8 P d x h k y : utf8 x = true -> resolve_site P d x h k = Ok y -> utf8 y = true.
Proof.
  intros Hx. unfold resolve_site. rewrite normalize_host. destruct (storage_get_alias P d (host x) h k) as [a|e|] eqn:E; try discriminate.
  - intros [= <-]. unfold storage_get_alias, get_site in E.
    destruct (storage_get P site_of_json d _ k) as [z|e|] eqn:G; try discriminate. cbn [map_err bind] in E.
    apply storage_get_text in G. destruct G as [t G]. apply site_read_valid in G. destruct G as [_ G].
    destruct (site_alias z) as [b|] eqn:Eb; try discriminate. injection E as <-. apply G. reflexivity.
  - intros [= <-]. apply utf8_host, Hx.
Qed.

(** * Storing a password *)

Section unlocked.
Context (P : prims) (HP : prims_ok P) (s : st) (k h p : bytes).
Context (Hs : unlocked_with s k h p) (Hk : length k = 32).

Lemma hs_key : s_key s = Some k.
Proof. unfold unlocked_with, secrets in Hs. congruence. Qed.
Lemma hs_hmac : s_hmac s = Some h.
Proof. unfold unlocked_with, secrets in Hs. congruence. Qed.
Lemma hs_primary : s_primary s = Some p.
Proof. unfold unlocked_with, secrets in Hs. congruence. Qed.

(** The data with password [q] stored under site [y]. *)
Definition stores (y : bytes) (q : password) (d' : kvmap) : Prop :=
  exists d1 rnd,
    ((exists x, storage_get P site_of_json (s_data s) (get_site_key P y h) k = Ok x) /\ d1 = s_data s \/
     exists e rnd0, storage_get P site_of_json (s_data s) (get_site_key P y h) k = Err e /\
       d1 = <[get_site_key P y h := sealed P k rnd0 (site_to_vec (mk_site y None))]> (s_data s)) /\
    d' = <[get_password_key P (pass_id q) h := sealed P k rnd (password_to_vec q)]> d1.

Definition setter (o : op) (x : bytes) (y : bytes) (q : password) : Prop :=
  match o with
  | SetGenerated x' n r len cs => x' = x /\ q = Generated (generated_password_new y n r len cs)
  | SetStored x' n r t => x' = x /\ q = Stored (stored_password_new y n r t)
  | _ => False
  end.

Lemma set_encrypted_ok key m s0 : set_encrypted P key m k s0 =
  (Ok tt, mk_st (<[key := sealed P k (s_rand s0) m]> (s_data s0)) (s_key s0) (s_hmac s0) (s_primary s0) (s_disk s0)
                (S (s_tick s0)) (s_flushes s0) (S (s_rand s0))).
Proof. unfold set_encrypted. rewrite encrypt_sealed by exact Hk. reflexivity. Qed.

Lemma setter_cases o x y0 q0 : setter o x y0 q0 ->
  exec P o s = (OPanic, s) \/
  exists y q s2, resolve_site P (s_data s) x h k = Ok y /\ setter o x y q /\
    stores y q (s_data s2) /\ secrets s2 = secrets s /\ exec P o s = done_out (flush P s2).
Proof.
  assert (forall y q, 
    let m := bindM (ensure_site_data P y h k) (fun _ => bindM (set_password P q h k) (fun _ => flush P)) in
    m s = (Panic, s) \/ exists s2, stores y q (s_data s2) /\ secrets s2 = secrets s /\ m s = flush P s2) as Hm.
  { intros y q m. unfold m, bindM, ensure_site_data, set_password, storage_set. cbv zeta. clear m.
    destruct (storage_get P site_of_json (s_data s) (get_site_key P y h) k) as [z|e|] eqn:E.
    - right. rewrite set_encrypted_ok.
      eexists. split; [|split; [|reflexivity]].
      + exists (s_data s), (s_rand s). split; [left; split; [exists z; exact E|reflexivity]|reflexivity].
      + reflexivity.
    - right. rewrite set_encrypted_ok. rewrite set_encrypted_ok.
      eexists. split; [|split; [|reflexivity]].
      + eexists _, _. split; [right; exists e, (s_rand s); split; [exact E|reflexivity]|reflexivity].
      + reflexivity.
    - left. reflexivity. }
  intros Ho.
  assert (exec P o s = match resolve_site P (s_data s) x h k with
    | Ok y => done_out (bindM (ensure_site_data P y h k)
                (fun _ => bindM (set_password P (match o with
                  | SetGenerated _ n r len cs => Generated (generated_password_new y n r len cs)
                  | SetStored _ n r t => Stored (stored_password_new y n r t)
                  | _ => q0 end) h k) (fun _ => flush P)) s)
    | Err e => (OErr e, s)
    | Panic => (OPanic, s)
    end) as ->.
  { destruct o; try contradiction; destruct Ho as [-> _]; cbn [exec];
    unfold set_generated, set_stored, the_hmac, the_key; unfold bindM at 1; unfold reads at 1; rewrite hs_hmac; cbn [ok_or];
    unfold bindM at 1; unfold reads at 1; rewrite hs_key; cbn [ok_or];
    unfold bindM at 1; unfold reads at 1; destruct (resolve_site P (s_data s) x h k); reflexivity. }
  destruct (resolve_site P (s_data s) x h k) as [y|e|] eqn:Er;
    [|exfalso; unfold resolve_site in Er; destruct (storage_get_alias _ _ _ _ _); discriminate|left; reflexivity].
  match goal with |- context [set_password P ?q h k] => destruct (Hm y q) as [H|(s2 & H1 & H2 & H3)]; cbv zeta in *; [left|right; exists y, q, s2] end.
  - rewrite H. reflexivity.
  - rewrite H3. split; [reflexivity|]. split; [|auto].
    destruct o; try contradiction; destruct Ho as [-> _]; split; reflexivity.
Qed.

Lemma storage_get_ext {A} (conv : json -> option A) (d d' : kvmap) key :
  d' !! key = d !! key -> storage_get P conv d' key k = storage_get P conv d key k.
Proof. intros H. unfold storage_get, io_get. rewrite H. reflexivity. Qed.

Lemma stores_alias y q d' x : stores y q d' -> utf8 y = true ->
  storage_get_alias P d' x h k = storage_get_alias P (s_data s) x h k.
Proof.
  intros (d1 & rnd & H1 & ->) Hy. unfold storage_get_alias, get_site.
  rewrite (storage_get_ext site_of_json d1)
    by (apply lookup_insert_ne; intros E; symmetry in E; exact (site_key_not_password P _ _ _ _ E)).
  destruct H1 as [[_ ->]|(e & rnd0 & He & ->)]; [reflexivity|].
  destruct (decide (get_site_key P x h = get_site_key P y h)) as [->|Hn].
  - rewrite He. rewrite (storage_get_sealed P site_of_json _ _ k rnd0 _ HP Hk (lookup_insert _ _ _)).
    rewrite site_roundtrip; [reflexivity|]. split; [exact Hy|discriminate].
  - rewrite (storage_get_ext site_of_json (s_data s)); [reflexivity|]. apply lookup_insert_ne. congruence.
Qed.

Lemma stores_resolve y q d' x : stores y q d' -> utf8 y = true ->
  resolve_site P d' x h k = resolve_site P (s_data s) x h k.
Proof. intros H Hy. unfold resolve_site. rewrite (stores_alias y q d' _ H Hy). reflexivity. Qed.

Lemma stores_lookup y q d' : stores y q d' -> password_valid q -> get_password P d' (pass_id q) h k = Ok q.
Proof.
  intros (d1 & rnd & _ & ->) Hq. unfold get_password.
  rewrite (storage_get_sealed P password_of_json _ _ k rnd _ HP Hk (lookup_insert _ _ _)). apply password_roundtrip, Hq.
Qed.

Lemma stores_other y q d' i : stores y q d' -> get_password_key P i h <> get_password_key P (pass_id q) h ->
  d' !! get_password_key P i h = s_data s !! get_password_key P i h.
Proof.
  intros (d1 & rnd & H & ->) Hn. rewrite lookup_insert_ne by congruence.
  destruct H as [[_ ->]|(e & rnd0 & _ & ->)]; [reflexivity|]. apply lookup_insert_ne. apply site_key_not_password.
Qed.

Lemma get_eq x n r : fst (exec P (Get x n r) s) =
  match resolve_site P (s_data s) x h k with
  | Ok y => match get_password P (s_data s) (mk_id y n (rev_of r)) h k with
            | Ok q => text_out (password_value P p q)
            | Err e => OErr e
            | Panic => OPanic
            end
  | Err e => OErr e
  | Panic => OPanic
  end.
Proof.
  cbn [exec]. unfold get, the_hmac, the_key, the_primary, bindM, reads, lift, as_out. rewrite hs_hmac, hs_key, hs_primary.
  cbn [ok_or]. destruct (resolve_site _ _ _ _ _) as [y|e|]; [|reflexivity..]. rewrite password_id_new_eq.
  destruct (get_password _ _ _ _ _) as [q|e|]; [|reflexivity..]. cbn [fst]. unfold text_out. reflexivity.
Qed.

Lemma has_eq x n r : fst (exec P (Has x n r) s) =
  match resolve_site P (s_data s) x h k with
  | Ok y => OBool (match s_data s !! get_password_key P (mk_id y n (rev_of r)) h with Some _ => true | None => false end)
  | Err e => OErr e
  | Panic => OPanic
  end.
Proof.
  cbn [exec]. unfold has, the_hmac, the_key, bindM, reads, as_out. rewrite hs_hmac, hs_key. cbn [ok_or].
  destruct (resolve_site _ _ _ _ _) as [y|e|]; [|reflexivity..]. rewrite password_id_new_eq. reflexivity.
Qed.

Lemma get_notes_eq x n r : fst (exec P (GetNotes x n r) s) =
  match resolve_site P (s_data s) x h k with
  | Ok y => match get_password P (s_data s) (mk_id y n (rev_of r)) h k with
            | Ok q => OText (pass_notes q)
            | Err e => OErr e
            | Panic => OPanic
            end
  | Err e => OErr e
  | Panic => OPanic
  end.
Proof.
  cbn [exec]. unfold get_notes, the_hmac, the_key, bindM, reads, as_out, ret. rewrite hs_hmac, hs_key. cbn [ok_or].
  destruct (resolve_site _ _ _ _ _) as [y|e|]; [|reflexivity..]. rewrite password_id_new_eq.
  destruct (get_password _ _ _ _ _) as [q|e|]; reflexivity.
Qed.

Lemma get_alias_eq x : fst (exec P (GetAlias x) s) = text_out (storage_get_alias P (s_data s) (host x) h k).
Proof.
  cbn [exec]. unfold get_alias, the_hmac, the_key, bindM, reads, as_out. rewrite hs_hmac, hs_key. cbn [ok_or].
  rewrite normalize_host. destruct (storage_get_alias _ _ _ _ _); reflexivity.
Qed.
End unlocked.

(** What a performed call leaves in memory. *)
Lemma performed_flush P s2 : performed (fst (done_out (flush P s2))) /\
  s_data (snd (done_out (flush P s2))) = s_data s2 /\ secrets (snd (done_out (flush P s2))) = secrets s2.
Proof.
  rewrite done_out_snd. destruct (flush_facts P s2) as (-> & -> & _). split; [|auto].
  unfold flush, performed. destruct (p_write P (s_flushes s2)); cbn; auto.
Qed.

Lemma setter_valid o x y q : op_valid o -> utf8 y = true -> setter o x y q -> password_valid q.
Proof.
  intros Hv Hy Ho. assert (forall n r, utf8 n = true -> utf8 r = true -> id_valid (password_id_new y n r)) as Hi.
  { intros n r Hn Hr. rewrite password_id_new_eq. repeat split; cbn; try assumption. apply utf8_rev, Hr. }
  destruct o; try contradiction; destruct Ho as [-> ->]; cbn in Hv |- *; destruct Hv as (_ & Hn & Hr & Ht).
  - split; [apply Hi; assumption|]. split; [exact Ht|reflexivity].
  - split; [apply Hi; assumption|]. split; [exact Ht|reflexivity].
Qed.

(** After storing a password. *)
Lemma setter_after P o x y0 q0 s k h p : prims_ok P -> unlocked_with s k h p -> length k = 32 ->
  setter o x y0 q0 -> op_valid o -> performed (fst (exec P o s)) ->
  exists y q, resolve_site P (s_data s) x h k = Ok y /\ setter o x y q /\
    let s' := snd (exec P o s) in
    unlocked_with s' k h p /\ utf8 y = true /\ password_valid q /\ stores P s k h y q (s_data s').
Proof.
  intros HP Hs Hk Ho Hv Hp. destruct (setter_cases P s k h p Hs Hk o x y0 q0 Ho) as [E|(y & q & s2 & H1 & H2 & H3 & H4 & H5)].
  - rewrite E in Hp. destruct Hp as [Hp|[Hp|Hp]]; discriminate.
  - exists y, q. split; [exact H1|]. split; [exact H2|]. cbv zeta. rewrite H5.
    destruct (performed_flush P s2) as (_ & -> & Hx). unfold unlocked_with. rewrite Hx, H4. split; [exact Hs|].
    assert (utf8 x = true) as Hx' by (destruct o; try contradiction; destruct Ho as [-> _]; apply Hv).
    pose proof (resolve_utf8 _ _ _ _ _ _ Hx' H1) as Hy. split; [exact Hy|]. split; [|exact H3].
    exact (setter_valid _ _ _ _ Hv Hy H2).
Qed.

Lemma set_stored_after P x n r t s k h p : prims_ok P -> unlocked_with s k h p -> length k = 32 ->
  op_valid (SetStored x n r t) -> performed (fst (exec P (SetStored x n r t) s)) ->
  let s' := snd (exec P (SetStored x n r t) s) in
  fst (exec P (Get x n r) s') = OText t /\ fst (exec P (GetNotes x n r) s') = OText [] /\
  fst (exec P (Has x n r) s') = OBool true.
Proof.
  intros HP Hs Hk Hv Hp.
  destruct (setter_after P (SetStored x n r t) x [] (Stored (stored_password_new [] n r t)) s k h p HP Hs Hk (conj eq_refl eq_refl) Hv Hp)
    as (y & q & Hr & [_ Hq] & Hs' & Hy & Hqv & Hst). cbv zeta in *.
  rewrite (get_eq P _ k h p Hs'), (has_eq P _ k h p Hs'), (get_notes_eq P _ k h p Hs').
  rewrite (stores_resolve P HP s k h Hk y q _ x Hst Hy), Hr.
  assert (pass_id q = mk_id y n (rev_of r)) as Hid by (rewrite Hq; cbn; rewrite password_id_new_eq; reflexivity).
  pose proof (stores_lookup P HP s k h Hk y q _ Hst Hqv) as Hl. rewrite Hid in Hl. rewrite Hl, Hq.
  split; [reflexivity|]. split; [reflexivity|].
  unfold get_password in Hl. unfold storage_get, io_get in Hl. destruct (s_data _ !! _); [reflexivity|discriminate].
Qed.

Lemma set_generated_after P x n r len cs s k h p : prims_ok P -> unlocked_with s k h p -> length k = 32 ->
  op_valid (SetGenerated x n r len cs) -> performed (fst (exec P (SetGenerated x n r len cs) s)) ->
  let s' := snd (exec P (SetGenerated x n r len cs) s) in
  exists y, resolve_site P (s_data s) x h k = Ok y /\
  fst (exec P (Get x n r) s') = text_out (derive_password P p (generation_input (y, n, rev_of r)) len cs) /\
  fst (exec P (GetNotes x n r) s') = OText [] /\ fst (exec P (Has x n r) s') = OBool true.
Proof.
  intros HP Hs Hk Hv Hp.
  destruct (setter_after P (SetGenerated x n r len cs) x [] (Generated (generated_password_new [] n r len cs)) s k h p HP Hs Hk (conj eq_refl eq_refl) Hv Hp)
    as (y & q & Hr & [_ Hq] & Hs' & Hy & Hqv & Hst). cbv zeta in *. exists y. split; [exact Hr|].
  rewrite (get_eq P _ k h p Hs'), (has_eq P _ k h p Hs'), (get_notes_eq P _ k h p Hs').
  rewrite (stores_resolve P HP s k h Hk y q _ x Hst Hy), Hr.
  assert (pass_id q = mk_id y n (rev_of r)) as Hid by (rewrite Hq; cbn; rewrite password_id_new_eq; reflexivity).
  pose proof (stores_lookup P HP s k h Hk y q _ Hst Hqv) as Hl. rewrite Hid in Hl. rewrite Hl, Hq.
  split; [|split; [reflexivity|]].
  - cbn [password_value gp_length gp_charset generated_password_new]. unfold generated_salt. cbn [gp_id generated_password_new].
    rewrite password_id_new_eq. cbn [id_site id_name id_revision generation_input].
    destruct (rev_of r); [reflexivity|]. do 2 f_equal. rewrite <- app_assoc. reflexivity.
  - unfold get_password in Hl. unfold storage_get, io_get in Hl. destruct (s_data _ !! _); [reflexivity|discriminate].
Qed.

(** * Other passwords *)

(** The calls that look at one password. *)
Definition looks (q : op) (x n r : bytes) : Prop := q = Get x n r \/ q = Has x n r \/ q = GetNotes x n r.

Lemma looks_same P s s' k h p q x n r : unlocked_with s k h p -> unlocked_with s' k h p -> looks q x n r ->
  resolve_site P (s_data s') x h k = resolve_site P (s_data s) x h k ->
  (forall y, resolve_site P (s_data s) x h k = Ok y ->
     s_data s' !! get_password_key P (mk_id y n (rev_of r)) h = s_data s !! get_password_key P (mk_id y n (rev_of r)) h) ->
  fst (exec P q s') = fst (exec P q s).
Proof.
  intros Hs Hs' Hq Hr Hl. destruct Hq as [->|[-> | ->]].
  - rewrite (get_eq P _ k h p Hs), (get_eq P _ k h p Hs'), Hr. destruct (resolve_site P (s_data s) x h k) as [y|e|]; [|reflexivity..].
    unfold get_password. rewrite (storage_get_ext P k password_of_json (s_data s) _ _ (Hl y eq_refl)). reflexivity.
  - rewrite (has_eq P _ k h p Hs), (has_eq P _ k h p Hs'), Hr. destruct (resolve_site P (s_data s) x h k) as [y|e|]; [|reflexivity..].
    rewrite (Hl y eq_refl). reflexivity.
  - rewrite (get_notes_eq P _ k h p Hs), (get_notes_eq P _ k h p Hs'), Hr.
    destruct (resolve_site P (s_data s) x h k) as [y|e|]; [|reflexivity..].
    unfold get_password. rewrite (storage_get_ext P k password_of_json (s_data s) _ _ (Hl y eq_refl)). reflexivity.
Qed.

(** What [remove] does. *)
Lemma remove_cases P x n r s k h p : unlocked_with s k h p ->
  snd (exec P (Remove x n r) s) = s /\ ~ performed (fst (exec P (Remove x n r) s)) \/
  exists y s2, resolve_site P (s_data s) x h k = Ok y /\
    is_Some (s_data s !! get_password_key P (mk_id y n (rev_of r)) h) /\
    s_data s2 = delete (get_password_key P (mk_id y n (rev_of r)) h) (s_data s) /\ secrets s2 = secrets s /\
    exec P (Remove x n r) s = done_out (flush P s2).
Proof.
  intros Hs. cbn [exec]. unfold remove, the_hmac, the_key, bindM, reads. rewrite (hs_hmac s k h p Hs), (hs_key s k h p Hs).
  cbn [ok_or].
  assert (forall e, e <> CreateDirFailure -> e <> FileWriteFailure -> ~ performed (OErr e)) as Hne.
  { intros e H1 H2 [H|[H|H]]; congruence. }
  destruct (resolve_site P (s_data s) x h k) as [y|e|] eqn:Er.
  - rewrite password_id_new_eq. unfold remove_password, io_remove.
    destruct (s_data s !! get_password_key P (mk_id y n (rev_of r)) h) as [c|] eqn:E.
    + right. exists y. eexists. split; [reflexivity|]. split; [rewrite E; eexists; reflexivity|].
      split; [|split; [|reflexivity]]; reflexivity.
    + left. split; [reflexivity|]. apply Hne; discriminate.
  - exfalso. unfold resolve_site in Er. destruct (storage_get_alias _ _ _ _ _); discriminate.
  - left. split; [reflexivity|]. intros [H|[H|H]]; discriminate.
Qed.

Lemma resolve_delete P d i x h k :
  resolve_site P (delete (get_password_key P i h) d) x h k = resolve_site P d x h k.
Proof.
  unfold resolve_site, storage_get_alias, get_site.
  rewrite (storage_get_ext P k site_of_json d); [reflexivity|]. apply lookup_delete_ne.
  intros E. symmetry in E. exact (site_key_not_password P _ _ _ _ E).
Qed.

Lemma remove_after P x n r s k h p : unlocked_with s k h p -> performed (fst (exec P (Remove x n r) s)) ->
  let s' := snd (exec P (Remove x n r) s) in
  fst (exec P (Has x n r) s) = OBool true /\
  fst (exec P (Has x n r) s') = OBool false /\ fst (exec P (Get x n r) s') = OErr KeyMissing.
Proof.
  intros Hs Hp. cbv zeta. destruct (remove_cases P x n r s k h p Hs) as [[_ H]|(y & s2 & Hr & [c Hc] & Hd & Hx & He)]; [contradiction|].
  rewrite (has_eq P s k h p Hs), Hr, Hc. split; [reflexivity|]. rewrite He.
  destruct (performed_flush P s2) as (_ & E1 & E2).
  assert (unlocked_with (snd (done_out (flush P s2))) k h p) as Hs' by (unfold unlocked_with; rewrite E2, Hx; exact Hs).
  rewrite (has_eq P _ k h p Hs'), (get_eq P _ k h p Hs'), E1, Hd, resolve_delete, Hr, lookup_delete. split; [reflexivity|].
  unfold get_password. rewrite (storage_get_missing P _ _ _ k (lookup_delete _ _)). reflexivity.
Qed.

(** Storing or removing a password does not change what is seen of a password in another slot. *)
Lemma others_same P o x n r q x' n' r' s k h p : prims_ok P -> unlocked_with s k h p -> length k = 32 -> op_valid o ->
  (exists len cs, o = SetGenerated x n r len cs) \/ (exists t, o = SetStored x n r t) \/ o = Remove x n r ->
  looks q x' n' r' ->
  (forall y y', resolve_site P (s_data s) x h k = Ok y -> resolve_site P (s_data s) x' h k = Ok y' ->
     get_password_key P (mk_id y n (rev_of r)) h <> get_password_key P (mk_id y' n' (rev_of r')) h) ->
  fst (exec P q (snd (exec P o s))) = fst (exec P q s).
Proof.
  intros HP Hs Hk Hv Ho Hq Hn.
  assert (forall o, op_valid o -> (exists q0, setter o x [] q0 /\ forall y q, setter o x y q -> pass_id q = mk_id y n (rev_of r)) ->
    fst (exec P q (snd (exec P o s))) = fst (exec P q s)) as Hset.
  { clear o Hv Ho. intros o Hv (q0 & Ho & Hid). destruct (setter_cases P s k h p Hs Hk o x [] q0 Ho)
      as [E|(y & q1 & s2 & H1 & H2 & H3 & H4 & H5)]; [rewrite E; reflexivity|].
    rewrite H5. destruct (performed_flush P s2) as (_ & E1 & E2).
    assert (utf8 x = true) as Hx' by (destruct o; try contradiction; destruct Ho as [-> _]; apply Hv).
    pose proof (resolve_utf8 _ _ _ _ _ _ Hx' H1) as Hy.
    apply (looks_same P s _ k h p q x' n' r' Hs); [unfold unlocked_with; rewrite E2, H4; exact Hs|exact Hq| |].
    - rewrite E1. apply (stores_resolve P HP s k h Hk y q1 _ x' H3 Hy).
    - intros y' Hy'. rewrite E1. apply (stores_other P s k h y q1); [exact H3|]. rewrite (Hid y q1 H2).
      intros E. exact (Hn y y' H1 Hy' (eq_sym E)). }
  destruct Ho as [(len & cs & ->)|[(t & ->)| ->]].
  - apply Hset; [exact Hv|]. eexists. split; [split; reflexivity|]. intros y q1 [_ ->]. cbn. apply password_id_new_eq.
  - apply Hset; [exact Hv|]. eexists. split; [split; reflexivity|]. intros y q1 [_ ->]. cbn. apply password_id_new_eq.
  - destruct (remove_cases P x n r s k h p Hs) as [[-> _]|(y & s2 & Hr & _ & Hd & Hx & He)]; [reflexivity|]. rewrite He.
    destruct (performed_flush P s2) as (_ & E1 & E2).
    apply (looks_same P s _ k h p q x' n' r' Hs); [unfold unlocked_with; rewrite E2, Hx; exact Hs|exact Hq| |].
    + rewrite E1, Hd. apply resolve_delete.
    + intros y' Hy'. rewrite E1, Hd. apply lookup_delete_ne. exact (Hn y y' Hr Hy').
Qed.

(** * Aliases *)

Lemma resolve_no_err P d x h k e : resolve_site P d x h k <> Err e.
Proof. unfold resolve_site. destruct (storage_get_alias _ _ _ _ _); discriminate. Qed.

Lemma set_alias_cases P x a s k h p : unlocked_with s k h p -> length k = 32 ->
  snd (exec P (SetAlias x a) s) = s /\ ~ performed (fst (exec P (SetAlias x a) s)) \/
  exists t rnd s2, resolve_site P (s_data s) a h k = Ok t /\ any_password P s (host x) h k = Ok false /\ t <> host x /\
    s_data s2 = <[get_site_key P (host x) h := sealed P k rnd (site_to_vec (mk_site (host x) (Some t)))]> (s_data s) /\
    secrets s2 = secrets s /\ exec P (SetAlias x a) s = done_out (flush P s2).
Proof.
  intros Hs Hk. cbn [exec]. unfold set_alias, the_hmac, the_key, bindM, reads. rewrite (hs_hmac s k h p Hs), (hs_key s k h p Hs).
  cbn [ok_or]. rewrite normalize_host.
  assert (forall e, e <> CreateDirFailure -> e <> FileWriteFailure -> ~ performed (OErr e)) as Hne.
  { intros e H1 H2 [H|[H|H]]; congruence. }
  destruct (resolve_site P (s_data s) a h k) as [t|e|] eqn:Er.
  2:{ destruct (resolve_no_err _ _ _ _ _ _ Er). }
  2:{ left. split; [reflexivity|]. intros [H|[H|H]]; discriminate. }
  destruct (any_password P s (host x) h k) as [b|e|] eqn:Ea.
  2:{ exfalso. unfold any_password in Ea. assert (forall l, find_map (password_item P (s_data s) (host x) h k) l <> Err e) as Hf.
      { induction l as [|y l IH]; cbn [find_map]; [discriminate|]. unfold password_item at 1.
        destruct (starts_with _ _); [|cbn [bind]; exact IH].
        destruct (storage_get _ _ _ _ _); cbn [res_ok bind]; [discriminate|exact IH|discriminate]. }
      specialize (Hf (io_keys P s)). destruct (find_map _ _) as [[?|]|e'|]; cbn [bind] in Ea; try discriminate. congruence. }
  2:{ left. split; [reflexivity|]. intros [H|[H|H]]; discriminate. }
  destruct b; [left; split; [reflexivity|apply Hne; discriminate]|].
  unfold storage_set_alias. destruct (bytes_eqb (host x) t) eqn:Et.
  - left. split; [reflexivity|apply Hne; discriminate].
  - right. exists t, (s_rand s). unfold storage_set. rewrite (set_encrypted_ok P k Hk). eexists.
    split; [reflexivity|]. split; [reflexivity|]. split; [apply bytes_eqb_neq in Et; congruence|].
    split; [|split; [|reflexivity]]; reflexivity.
Qed.

Lemma set_alias_after P x a s k h p : prims_ok P -> unlocked_with s k h p -> length k = 32 ->
  op_valid (SetAlias x a) -> performed (fst (exec P (SetAlias x a) s)) ->
  let s' := snd (exec P (SetAlias x a) s) in
  exists t, fst (exec P (GetAlias x) s') = OText t /\ t <> host x /\
    (fst (exec P (GetAlias a) s) = OText t \/ (fst (exec P (GetAlias a) s) = OErr NoSuchAlias /\ t = host a)) /\
    any_password P s (host x) h k = Ok false.
Proof.
  intros HP Hs Hk [Hvx Hva] Hp. cbv zeta.
  destruct (set_alias_cases P x a s k h p Hs Hk) as [[_ H]|(t & rnd & s2 & Hr & Ha & Ht & Hd & Hx & He)]; [contradiction|].
  exists t. split; [|split; [exact Ht|split; [|exact Ha]]].
  - rewrite He. destruct (performed_flush P s2) as (_ & E1 & E2).
    assert (unlocked_with (snd (done_out (flush P s2))) k h p) as Hs' by (unfold unlocked_with; rewrite E2, Hx; exact Hs).
    rewrite (get_alias_eq P _ k h p Hs'), E1, Hd. unfold storage_get_alias, get_site.
    rewrite (storage_get_sealed P site_of_json _ _ k rnd _ HP Hk (lookup_insert _ _ _)).
    rewrite site_roundtrip; [reflexivity|]. split; [apply utf8_host, Hvx|]. intros b [= <-].
    exact (resolve_utf8 _ _ _ _ _ _ Hva Hr).
  - rewrite (get_alias_eq P _ k h p Hs). unfold resolve_site in Hr. rewrite normalize_host in Hr.
    unfold storage_get_alias in *. destruct (get_site P (s_data s) (host a) h k) as [z|e|]; cbn [map_err bind] in *; try discriminate.
    + destruct (site_alias z) as [b|]; cbn [ok_or] in *; injection Hr as ->; [left|right]; auto.
    + injection Hr as ->. right. auto.
Qed.

(** No password is filed under the site just made an alias. *)
Lemma any_password_false P s x h k i : prims_ok P -> any_password P s x h k = Ok false -> id_site i = x ->
  match get_password P (s_data s) i h k with Ok _ => False | _ => True end.
Proof.
  intros HP H Hi. unfold any_password in H. destruct (get_password P (s_data s) i h k) as [q|e|] eqn:E; try exact I.
  assert (forall l, In (get_password_key P i h) l -> match find_map (password_item P (s_data s) x h k) l with Ok None => False | _ => True end) as Hf.
  { induction l as [|y l IH]; intros Hin; [destruct Hin|]. cbn [find_map].
    destruct (password_item P (s_data s) x h k y) as [[?|]|e|] eqn:Ep; cbn [bind]; try exact I.
    destruct Hin as [->|Hin]; [|exact (IH Hin)]. unfold password_item in Ep.
    assert (starts_with (get_site_prefix P x h) (get_password_key P i h) = true) as Hst.
    { unfold get_password_key. rewrite Hi. apply starts_with_app. }
    unfold get_password in E. rewrite Hst, E in Ep. discriminate. }
  assert (In (get_password_key P i h) (io_keys P s)) as Hin.
  { unfold io_keys. apply Permutation_in with (1 := Permutation_sym (ok_order P HP _ _)).
    unfold get_password, storage_get, io_get in E. destruct (s_data s !! get_password_key P i h) as [c|] eqn:Ec; [|discriminate].
    apply in_map_iff. exists (get_password_key P i h, c). split; [reflexivity|]. apply elem_of_list_In, elem_of_map_to_list, Ec. }
  specialize (Hf _ Hin). destruct (find_map _ _) as [[?|]|e|]; cbn [bind] in H; try discriminate. contradiction.
Qed.

Lemma remove_alias_after P x s k h p : unlocked_with s k h p -> performed (fst (exec P (RemoveAlias x) s)) ->
  let s' := snd (exec P (RemoveAlias x) s) in
  (exists t, fst (exec P (GetAlias x) s) = OText t) /\ fst (exec P (GetAlias x) s') = OErr NoSuchAlias.
Proof.
  intros Hs. cbv zeta. rewrite (get_alias_eq P s k h p Hs).
  assert (forall e, e <> CreateDirFailure -> e <> FileWriteFailure -> ~ performed (OErr e)) as Hne.
  { intros e H1 H2 [H|[H|H]]; congruence. }
  assert (exec P (RemoveAlias x) s = done_out (bindM (storage_remove_alias P (host x) h k) (fun _ => flush P) s)) as ->.
  { cbn [exec]. unfold remove_alias, the_hmac, the_key. unfold bindM at 1, reads at 1. rewrite (hs_hmac s k h p Hs). cbn [ok_or].
    unfold bindM at 1, reads at 1. rewrite (hs_key s k h p Hs). cbn [ok_or]. rewrite normalize_host. reflexivity. }
  unfold storage_remove_alias. unfold bindM at 2 4. unfold reads. unfold storage_get_alias, get_site. unfold bindM.
  destruct (storage_get P site_of_json (s_data s) (get_site_key P (host x) h) k) as [z|e|] eqn:E; cbn [map_err bind].
  - destruct (site_alias z) as [t|]; [|intros H; exfalso; revert H; apply Hne; discriminate].
    unfold io_remove. destruct (s_data s !! get_site_key P (host x) h) as [c|] eqn:Ec;
      [|intros H; exfalso; revert H; apply Hne; discriminate]. cbn [put_data]. intros _.
    split; [exists t; reflexivity|]. unfold put_data.
    match goal with |- context [flush P ?s2] => destruct (performed_flush P s2) as (_ & E1 & E2);
      assert (unlocked_with (snd (done_out (flush P s2))) k h p) as Hs' by (unfold unlocked_with; rewrite E2; exact Hs) end.
    rewrite (get_alias_eq P _ k h p Hs'), E1. cbn [s_data]. unfold storage_get_alias, get_site.
    rewrite (storage_get_missing P _ _ _ k (lookup_delete _ _)). reflexivity.
  - intros H; exfalso; revert H; apply Hne; discriminate.
  - intros [H|[H|H]]; discriminate.
Qed.

(** * Listing *)

Definition same_list {A} (r r' : res (list A)) : Prop :=
  match r, r' with Ok l, Ok l' => l ≡ₚ l' | Panic, Panic => True | _, _ => False end.

Lemma same_list_trans {A} (a b c : res (list A)) : same_list a b -> same_list b c -> same_list a c.
Proof. destruct a, b, c; cbn; try tauto. intros. etransitivity; eassumption. Qed.

Lemma filter_map_perm {A B} (f : A -> res (option B)) l l' :
  (forall x e, f x <> Err e) -> l ≡ₚ l' -> same_list (filter_map f l) (filter_map f l').
Proof.
  intros Hf. assert (forall l e, filter_map f l <> Err e) as Hl.
  { induction l0 as [|x l0 IH]; intros e; cbn [filter_map]; [discriminate|]. pose proof (Hf x) as Hx.
    destruct (f x) as [o|e'|]; cbn [bind]; [|destruct (Hx e' eq_refl)|discriminate].
    destruct (filter_map f l0) as [r|e'|]; cbn [bind]; [discriminate|destruct (IH e' eq_refl)|discriminate]. }
  induction 1 as [|x l l' _ IH|x y l|l1 l2 l3 _ IH1 _ IH2].
  - cbn. reflexivity.
  - cbn [filter_map]. pose proof (Hf x) as Hx. destruct (f x) as [o|e|]; cbn [bind]; [|destruct (Hx e eq_refl)|exact I].
    destruct (filter_map f l), (filter_map f l'); cbn in *; try contradiction; try exact I.
    destruct o; [constructor|]; assumption.
  - cbn [filter_map]. pose proof (Hf x) as Hx. pose proof (Hf y) as Hy. pose proof (Hl l) as Hll.
    destruct (f x) as [o|e|]; [|destruct (Hx e eq_refl)|];
      (destruct (f y) as [o'|e'|]; [|destruct (Hy e' eq_refl)|]); cbn [bind];
      (destruct (filter_map f l) as [r|e''|]; [|destruct (Hll e'' eq_refl)|]); cbn; try exact I.
    destruct o, o'; try reflexivity. constructor.
  - eapply same_list_trans; eassumption.
Qed.

Lemma filter_map_filter {A B} (f : A -> res (option B)) (F : A -> bool) l :
  (forall x, F x = false -> f x = Ok None) -> filter_map f l = filter_map f (List.filter F l).
Proof.
  intros H. induction l as [|x l IH]; [reflexivity|]. cbn [filter_map List.filter]. destruct (F x) eqn:E.
  - cbn [filter_map]. rewrite IH. reflexivity.
  - rewrite (H x E). cbn [bind]. rewrite IH. destruct (filter_map f (List.filter F l)); reflexivity.
Qed.

Lemma filter_map_ext {A B} (f g : A -> res (option B)) l : (forall x, In x l -> f x = g x) -> filter_map f l = filter_map g l.
Proof.
  induction l as [|x l IH]; intros H; [reflexivity|]. cbn [filter_map]. rewrite (H x (or_introl eq_refl)).
  rewrite IH by (intros y Hy; apply H; right; exact Hy). reflexivity.
Qed.

(** Listing looks at entries passing the filter only. *)
Lemma listing_same {A} (P : prims) (conv : json -> option A) (F : bytes -> bool) (d d' : kvmap) (o o' : list bytes) (k : bytes) :
  o ≡ₚ (map_to_list d).*1 -> o' ≡ₚ (map_to_list d').*1 ->
  (forall key, F key = true -> d' !! key = d !! key) ->
  same_list (filter_map (fun key => if F key then res_ok (storage_get P conv d' key k) else Ok None) o')
            (filter_map (fun key => if F key then res_ok (storage_get P conv d key k) else Ok None) o).
Proof.
  intros Ho Ho' Hd.
  rewrite (filter_map_filter _ F o') by (intros x Hx; rewrite Hx; reflexivity).
  rewrite (filter_map_filter _ F o) by (intros x Hx; rewrite Hx; reflexivity).
  rewrite (filter_map_ext _ (fun key => if F key then res_ok (storage_get P conv d key k) else Ok None) (List.filter F o')).
  2:{ intros x Hx. apply filter_In in Hx. destruct Hx as [_ Hx]. rewrite Hx. f_equal. apply storage_get_ext, Hd, Hx. }
  apply filter_map_perm.
  { intros x e. destruct (F x); [|discriminate]. destruct (storage_get P conv d x k); discriminate. }
  apply list.NoDup_Permutation.
  - apply NoDup_ListNoDup, List.NoDup_filter. apply NoDup_ListNoDup. rewrite Ho'. apply NoDup_fst_map_to_list.
  - apply NoDup_ListNoDup, List.NoDup_filter. apply NoDup_ListNoDup. rewrite Ho. apply NoDup_fst_map_to_list.
  - intros x. rewrite !elem_of_list_In, !filter_In, <- !elem_of_list_In.
    assert (forall m : kvmap, x ∈ (map_to_list m).*1 <-> is_Some (m !! x)) as Hm.
    { intros m. rewrite elem_of_list_fmap. split.
      - intros ([a b] & -> & H). apply elem_of_map_to_list in H. exists b. exact H.
      - intros [b H]. exists (x, b). split; [reflexivity|]. apply elem_of_map_to_list, H. }
    rewrite Ho, Ho', !Hm. split; intros [H1 H2]; split; try exact H2.
    + rewrite <- (Hd x H2). exact H1.
    + rewrite (Hd x H2). exact H1.
Qed.

Lemma same_list_map {A B C} (f : A -> bool) (g : A -> B) (mk : list B -> C) (r r' : res (list A)) (Q : C -> C -> Prop) c :
  (forall l l', l ≡ₚ l' -> Q (mk l) (mk l')) -> Q c c -> same_list r r' ->
  match r, r' with
  | Ok l, Ok l' => Q (mk (map g (List.filter f l))) (mk (map g (List.filter f l')))
  | Panic, Panic => Q c c
  | _, _ => False
  end.
Proof.
  intros H1 Hc H. destruct r, r'; cbn in H; try contradiction; [|exact Hc]. apply H1, Permutation_map.
  revert H. clear. intros H. induction H as [|x l l' _ IH|x y l|l1 l2 l3 _ IH1 _ IH2]; cbn.
  - reflexivity.
  - destruct (f x); [constructor|]; assumption.
  - destruct (f x), (f y); try reflexivity. constructor.
  - etransitivity; eassumption.
Qed.

Lemma list_sites_same P s s' k h p pattern : prims_ok P -> unlocked_with s k h p -> unlocked_with s' k h p ->
  (forall key, s_data s' !! key <> s_data s !! key ->
     key = bs "salt" \/ key = bs "hmac-secret" \/ exists i h', key = get_password_key P i h') ->
  same_out (fst (exec P (ListSites pattern) s')) (fst (exec P (ListSites pattern) s)).
Proof.
  intros HP Hs Hs' Hd. cbn [exec]. unfold list_sites, reads, as_out, unlocked.
  rewrite (hs_key s k h p Hs), (hs_key s' k h p Hs'). cbn [negb unwrap bind fst].
  pose proof (listing_same P site_of_json site_filter (s_data s) (s_data s') (io_keys P s) (io_keys P s') k
    (ok_order P HP _ _) (ok_order P HP _ _)) as H.
  assert (forall key, site_filter key = true -> s_data s' !! key = s_data s !! key) as Hf.
  { intros key Hk. destruct (decide (s_data s' !! key = s_data s !! key)) as [E|E]; [exact E|exfalso].
    destruct (Hd key E) as [->|[->|(i & h' & ->)]]; [discriminate Hk|discriminate Hk|].
    rewrite site_filter_password in Hk. discriminate. }
  specialize (H Hf). unfold storage_list_sites. change (site_item P (s_data s) k) with
    (fun key => if site_filter key then res_ok (storage_get P site_of_json (s_data s) key k) else Ok None).
  change (site_item P (s_data s') k) with
    (fun key => if site_filter key then res_ok (storage_get P site_of_json (s_data s') key k) else Ok None).
  destruct (filter_map _ (io_keys P s')) as [l'|e|], (filter_map _ (io_keys P s)) as [l|e'|]; cbn in H; try contradiction;
    cbn [bind]; [|exact eq_refl].
  cbn [same_out]. apply (same_list_map _ show_site (fun l => l) (Ok l') (Ok l) Permutation []); auto.
Qed.

Lemma list_passwords_same P s s' k h p x y pattern : prims_ok P -> unlocked_with s k h p -> unlocked_with s' k h p ->
  resolve_site P (s_data s) x h k = Ok y ->
  (forall key, s_data s' !! key <> s_data s !! key ->
     key = bs "salt" \/ key = bs "hmac-secret" \/
     (exists z, key = get_site_key P z h /\ p_hmac P h z <> p_hmac P h (host x)) \/
     (exists i, key = get_password_key P i h /\ p_hmac P h (id_site i) <> p_hmac P h y)) ->
  same_out (fst (exec P (ListPasswords x pattern) s')) (fst (exec P (ListPasswords x pattern) s)).
Proof.
  intros HP Hs Hs' Hy Hd. cbn [exec]. unfold list_, reads, as_out, unlocked.
  rewrite (hs_key s k h p Hs), (hs_key s' k h p Hs'), (hs_hmac s k h p Hs), (hs_hmac s' k h p Hs'). cbn [negb unwrap bind fst].
  assert (resolve_site P (s_data s') x h k = Ok y) as Hy'.
  { rewrite <- Hy. unfold resolve_site, storage_get_alias, get_site. rewrite normalize_host.
    rewrite (storage_get_ext P k site_of_json (s_data s)); [reflexivity|].
    destruct (decide (s_data s' !! get_site_key P (host x) h = s_data s !! get_site_key P (host x) h)) as [E|E]; [exact E|exfalso].
    destruct (Hd _ E) as [H|[H|[(z & H & Hz)|(i & H & _)]]]; [discriminate H|discriminate H| |].
    - apply site_key_digest in H. congruence.
    - exact (site_key_not_password P _ _ _ _ H). }
  rewrite Hy, Hy'. cbn [bind].
  pose proof (listing_same P password_of_json (starts_with (get_site_prefix P y h)) (s_data s) (s_data s') (io_keys P s) (io_keys P s') k
    (ok_order P HP _ _) (ok_order P HP _ _)) as H.
  assert (forall key, starts_with (get_site_prefix P y h) key = true -> s_data s' !! key = s_data s !! key) as Hf.
  { intros key Hk. destruct (decide (s_data s' !! key = s_data s !! key)) as [E|E]; [exact E|exfalso].
    destruct (Hd key E) as [->|[->|[(z & -> & _)|(i & -> & Hi)]]]; [discriminate Hk|discriminate Hk| |].
    - rewrite password_filter_site in Hk. discriminate.
    - apply password_filter_password in Hk. congruence. }
  specialize (H Hf). unfold list_passwords. change (password_item P (s_data s) y h k) with
    (fun key => if starts_with (get_site_prefix P y h) key then res_ok (storage_get P password_of_json (s_data s) key k) else Ok None).
  change (password_item P (s_data s') y h k) with
    (fun key => if starts_with (get_site_prefix P y h) key then res_ok (storage_get P password_of_json (s_data s') key k) else Ok None).
  destruct (filter_map _ (io_keys P s')) as [l'|e|], (filter_map _ (io_keys P s)) as [l|e'|]; cbn in H; try contradiction;
    cbn [bind]; [|exact eq_refl].
  cbn [same_out]. apply (same_list_map _ show_password (fun l => l) (Ok l') (Ok l) Permutation []); auto.
Qed.
