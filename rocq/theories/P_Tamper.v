(** C52: what can be shown after somebody changed the file. *)
From stdpp Require Import gmap.
From Verif Require Import M_Base M_Base64 M_Utf8 M_Prims M_Types M_Crypto M_Json M_Serde M_Storage M_Passwords
  S_Json S_Serde S_Vault M_History S_Api S_History S_Tamper
  P_Base P_Base64 P_Json P_Serde P_Crypto P_Storage P_Api P_Calls P_Vault P_Corollary.

Lemma later_app P l1 l2 s : later P (l1 ++ l2) s = later P l2 (later P l1 s).
Proof. revert s; induction l1 as [|e l1 IH]; intros s; [reflexivity|apply IH]. Qed.

Lemma later_good P l : prims_ok P -> forall s, good_secrets s -> good_secrets (later P l s).
Proof.
  intros HP. induction l as [|e l IH]; intros s G; [exact G|]. apply IH. destruct e as [o|f]; [apply good_step; assumption|].
  exact G.
Qed.

(** * Kinds of texts cannot be confused *)

Lemma written_is fo j : writable 127 j = true -> parse_json fo (write_json j) = Some (reflag j).
Proof. intros H. apply write_parse, H. Qed.

Lemma site_writable z : site_valid z -> writable 127 (site_json z) = true.
Proof.
  intros [Hn Ha]. destruct z as [n [a|]]; cbn [site_name site_alias] in *.
  - specialize (Ha a eq_refl). unfold site_json, member. cbn [writable forallb site_name site_alias]. rewrite Hn, Ha. reflexivity.
  - unfold site_json, member. cbn [writable forallb site_name site_alias]. rewrite Hn. reflexivity.
Qed.

Lemma password_writable p : password_valid p -> writable 127 (password_json p) = true.
Proof.
  destruct p as [[[s n r] len [l u d y] notes]|[[s n r] pw notes]]; unfold password_valid.
  - intros ((Hs & Hn & Hr) & Hl & Hnotes).
    cbn [gp_id gp_length gp_notes id_site id_name id_revision] in Hs, Hn, Hr, Hl, Hnotes.
    assert ((len <=? u64_max)%N = true) as Hl' by lia.
    unfold password_json, id_members, charset_members, notes_members, member.
    cbn [gp_id gp_length gp_charset gp_notes id_site id_name id_revision].
    destruct notes as [|c notes]; cbn [app writable forallb];
      rewrite ?Hs, ?Hn, ?Hr, ?Hl', ?Hnotes; reflexivity.
  - intros ((Hs & Hn & Hr) & Hpw & Hnotes).
    cbn [sp_id sp_password sp_notes id_site id_name id_revision] in Hs, Hn, Hr, Hpw, Hnotes.
    unfold password_json, id_members, notes_members, member.
    cbn [sp_id sp_password sp_notes id_site id_name id_revision].
    destruct notes as [|c notes]; cbn [app writable forallb];
      rewrite ?Hs, ?Hn, ?Hr, ?Hpw, ?Hnotes; reflexivity.
Qed.

Lemma from_other {A} fo (conv : json -> option A) j x :
  writable 127 j = true -> conv (reflag j) = None -> from_slice fo conv (write_json j) <> Ok x.
Proof. intros Hw Hc. unfold from_slice. rewrite written_is by exact Hw. rewrite Hc. discriminate. Qed.

Lemma site_not_password fo z p : site_valid z -> from_slice fo password_of_json (site_to_vec z) <> Ok p.
Proof.
  intros H. apply from_other; [apply site_writable, H|]. destruct z as [n [a|]]; reflexivity.
Qed.
Lemma password_not_site fo p z : password_valid p -> from_slice fo site_of_json (password_to_vec p) <> Ok z.
Proof.
  intros H. apply from_other; [apply password_writable, H|].
  destruct p as [[[s n r] len [l u d y] notes]|[[s n r] pw notes]]; reflexivity.
Qed.
Lemma string_not_password fo t p : utf8 t = true -> from_slice fo password_of_json (string_to_vec t) <> Ok p.
Proof. intros H. apply from_other; [exact H|reflexivity]. Qed.
Lemma string_not_site fo t z : utf8 t = true -> from_slice fo site_of_json (string_to_vec t) <> Ok z.
Proof. intros H. apply from_other; [exact H|reflexivity]. Qed.

(** * What calls put into the data *)

(** The text of what a call puts. *)
Inductive source (P : prims) (s : st) (o : op) (key : bytes) : bytes -> Prop :=
| src_hmac t : utf8 t = true -> source P s o key (string_to_vec t)
| src_site x a : performed (fst (exec P o s)) -> site_valid (mk_site x a) -> sets_site P x a s o ->
    source P s o key (site_to_vec (mk_site x a))
| src_entry i e : performed (fst (exec P o s)) -> password_valid (to_password i e) -> sets_entry P i (e_secret e) s o -> e_notes e = [] ->
    source P s o key (password_to_vec (to_password i e))
| src_notes slot c m i e y n r t : performed (fst (exec P o s)) -> s_key s = Some key ->
    o = SetNotes y n r t -> s_data s !! slot = Some c -> decrypt_data P c key = Ok m ->
    from_slice (p_float_ok P) password_of_json m = Ok (to_password i e) ->
    password_valid (to_password i (mk_entry (e_secret e) t)) ->
    source P s o key (password_to_vec (to_password i (mk_entry (e_secret e) t))).

Lemma storage_get_inv {A} (P : prims) (conv : json -> option A) (d : kvmap) (k key : bytes) (x : A) :
  storage_get P conv d k key = Ok x ->
  exists c m, d !! k = Some c /\ decrypt_data P c key = Ok m /\ from_slice (p_float_ok P) conv m = Ok x.
Proof.
  unfold storage_get, io_get. destruct (d !! k) as [c|] eqn:E; cbn [ok_or bind]; [|discriminate].
  destruct (decrypt_data P c key) as [m|e|] eqn:D; cbn [bind]; try discriminate. intros H. exists c, m. auto.
Qed.

Lemma as_to_password p : exists i e, p = to_password i e /\ show_password p = (i, e).
Proof.
  destruct p as [[[s n r] len cs notes]|[[s n r] pw notes]].
  - exists (s, n, r), (mk_entry (SGenerated len cs) notes). split; reflexivity.
  - exists (s, n, r), (mk_entry (SFixed pw) notes). split; reflexivity.
Qed.

Lemma set_notes_to i e t : pass_set_notes (to_password i e) t = to_password i (mk_entry (e_secret e) t).
Proof. destruct i as [[? ?] ?], e as [[len cs|pw] notes]; reflexivity. Qed.

Lemma set_notes_valid p t : password_valid p -> utf8 t = true -> password_valid (pass_set_notes p t).
Proof. destruct p as [g|g]; cbn; intros (H1 & H2 & H3) Ht; repeat split; try assumption; apply H1. Qed.

Lemma set_notes_cases P x n r t s k h p : unlocked_with s k h p -> length k = 32 ->
  snd (exec P (SetNotes x n r t) s) = s \/
  exists y q rnd s2, resolve_site P (s_data s) x h k = Ok y /\
    get_password P (s_data s) (mk_id y n (rev_of r)) h k = Ok q /\
    s_data s2 = <[get_password_key P (pass_id q) h := sealed P k rnd (password_to_vec (pass_set_notes q t))]> (s_data s) /\
    secrets s2 = secrets s /\ exec P (SetNotes x n r t) s = done_out (flush P s2).
Proof.
  intros Hs Hk. cbn [exec]. unfold set_notes, the_hmac, the_key, bindM, reads. rewrite (hs_hmac s k h p Hs), (hs_key s k h p Hs).
  cbn [ok_or]. destruct (resolve_site P (s_data s) x h k) as [y|e|] eqn:Er; [|left; reflexivity..].
  rewrite password_id_new_eq. destruct (get_password P (s_data s) (mk_id y n (rev_of r)) h k) as [q|e|] eqn:Eq; [|left; reflexivity..].
  right. exists y, q, (s_rand s). unfold set_password, storage_set. rewrite (set_encrypted_ok P k Hk). eexists.
  split; [reflexivity|]. split; [exact Eq|]. split; [|split; [|reflexivity]]; [|reflexivity].
  cbn [s_data]. destruct q; reflexivity.
Qed.

Lemma decrypt_no_separator P t key m : length key = 32 -> ~ In "_"%byte t -> decrypt_data P t key <> Ok m.
Proof.
  intros Hk H D. apply decrypt_ok in D; [|exact Hk]. destruct D as (a & b & n & c & -> & _). apply H. apply in_or_app. right. left. reflexivity.
Qed.

Lemma unlocked_of s key : good_secrets s -> s_key s = Some key -> exists h p, unlocked_with s key h p /\ length key = 32.
Proof.
  intros [(H & _)|(k & h & p & H & Hl)] E; [congruence|]. exists h, p.
  assert (k = key) as -> by (unfold unlocked_with, secrets in H; congruence). auto.
Qed.

Definition less (s s' : st) : Prop := forall k v, s_data s' !! k = Some v -> s_data s !! k = Some v.
Lemma less_trans a b c : less a b -> less b c -> less a c.
Proof. intros H1 H2 k v H. apply H1, H2, H. Qed.
Lemma less_remove k : keeps less (io_remove k).
Proof.
  intros s. unfold io_remove. destruct (s_data s !! k); [|intros ? ? H; exact H].
  intros k' v H. cbn in H. apply lookup_delete_Some in H. apply H.
Qed.
Lemma less_flush P : keeps less (flush P).
Proof. intros s k v H. destruct (flush_facts P s) as (E & _). rewrite E in H. exact H. Qed.
Lemma less_reads {A} (f : st -> res A) : keeps less (reads f).
Proof. intros s k v H. exact H. Qed.
Lemma removes_alias P x s k v : s_data (snd (exec P (RemoveAlias x) s)) !! k = Some v -> s_data s !! k = Some v.
Proof.
  cbn [exec]. rewrite as_out_snd. revert s k v. change (keeps less (remove_alias P x)). unfold remove_alias, storage_remove_alias.
  repeat (apply keeps_bind; [exact less_trans|apply less_reads|intros ?]).
  apply keeps_bind; [exact less_trans| |intros _; apply less_flush].
  apply keeps_bind; [exact less_trans|apply less_reads|intros z]. destruct (site_alias z); [apply less_remove|intros ? ? ? H; exact H].
Qed.
Lemma removes_sites P l s k v : s_data (snd (exec P (RemoveSites l) s)) !! k = Some v -> s_data s !! k = Some v.
Proof.
  cbn [exec]. rewrite as_out_snd. revert s k v. change (keeps less (remove_sites P l)). unfold remove_sites.
  destruct l as [|x l]; [intros ? ? ? H; exact H|].
  apply keeps_bind; [exact less_trans|apply less_reads|intros h].
  apply keeps_bind; [exact less_trans| |intros _; apply less_flush]. generalize (x :: l) as l'. clear x l.
  induction l' as [|x l' IH]; [intros ? ? ? H; exact H|]. cbn [remove_sites_loop].
  apply keeps_bind; [exact less_trans|apply less_remove|intros _; exact IH].
Qed.

Lemma puts_source P o s key c m : prims_ok P -> good_secrets s -> op_valid o -> puts P o s key c -> decrypt_data P c key = Ok m ->
  source P s o key m.
Proof.
  intros HP G Hv (Hk & Hr & slot & Hc & Hn) Hm.
  pose proof (good_step P o s HP G) as G'. destruct (unlocked_of _ _ G' Hk) as (h' & p' & Hu' & Hl).
  assert (forall rnd t, c = sealed P key rnd t -> m = t) as Hdec.
  { intros rnd t ->. rewrite decrypt_sealed in Hm by assumption. congruence. }
  destruct (modifies o) eqn:Em.
  2:{ exfalso. apply Hn. rewrite <- Hc. destruct (reading o) eqn:Er.
      - destruct (exec_reading P o s Er) as ((E & _) & _). rewrite E. reflexivity.
      - destruct o; try discriminate Em; try discriminate Er; [|reflexivity|discriminate Hk|destruct l; discriminate].
        destruct (unlock_cases P pp s) as [(_ & k & x & _ & E & _)|[_ E]]; rewrite E; reflexivity. }
  destruct (is_reset o) eqn:Er.
  { destruct (not_reset o Er) as [pp ->]. specialize (Hr eq_refl). cbn [exec] in *. rewrite (reset_eq P pp s HP) in *.
    unfold bindM, done_out in *.
    match type of Hc with context [flush P ?x] => set (s1 := x) in * end.
    destruct (flush_facts P s1) as (F & _). destruct (flush P s1) as [[[]|e|] s2] eqn:Ef; cbn [fst snd as_out] in *; try discriminate Hr.
    unfold set_secrets in *. cbn [as_out fst snd s_data s_key] in *. rewrite F in Hc. unfold s1 in Hc. cbn [s_data] in Hc.
    assert (key_for P pp (s_rand s) = key) as Ek by congruence.
    apply lookup_insert_Some in Hc. destruct Hc as [[_ E]|[_ Hc]].
    - rewrite Ek in E. rewrite (Hdec _ _ (eq_sym E)). apply src_hmac. apply utf8_b64.
    - apply lookup_insert_Some in Hc. destruct Hc as [[_ E]|[_ Hc]]; [|rewrite lookup_empty in Hc; discriminate].
      exfalso. revert Hm. apply decrypt_no_separator; [exact Hl|]. rewrite <- E. intros Hi. eapply b64_encode_no in Hi; eauto. }
  destruct (exec_secrets P o s HP (good_whole s G)) as [_ Hsec]. specialize (Hsec Em Er).
  assert (s_key s = Some key) as Hks by (unfold secrets in Hsec; congruence).
  destruct (unlocked_of _ _ G Hks) as (h & p & Hu & _).
  assert (forall x y, resolve_site P (s_data s) x h key = Ok y -> resolved P s x = y) as Hres.
  { intros x y. apply resolve_resolved with (p := p). exact Hu. }
  assert (forall x y0 q0, setter o x y0 q0 -> source P s o key m) as Hset.
  { intros x y0 q0 Ho. destruct (setter_cases P s key h p Hu Hl o x y0 q0 Ho) as [E|(y & q & s2 & E1 & E2 & E3 & E4 & E5)].
    - exfalso. apply Hn. rewrite E in Hc. exact Hc.
    - rewrite E5 in Hc. destruct (performed_flush P s2) as (F1 & F2 & F3). rewrite F2 in Hc.
      assert (performed (fst (exec P o s))) as Hp by (rewrite E5; exact F1).
      assert (utf8 y = true) as Hy.
      { apply resolve_utf8 with (2 := E1). destruct o; try contradiction; destruct Ho as [-> _]; apply Hv. }
      pose proof (Hres _ _ E1) as Er1.
      destruct E3 as (d1 & rnd & Hd & E). rewrite E in Hc. apply lookup_insert_Some in Hc. destruct Hc as [[_ Hc]|[_ Hc]].
      + rewrite (Hdec _ _ (eq_sym Hc)). pose proof (setter_valid o x y q Hv Hy E2) as Hq.
        destruct o; try contradiction; destruct E2 as [-> ->].
        * unfold generated_password_new in *. rewrite password_id_new_eq in *.
          apply (src_entry P s _ key (y, n, rev_of r) (mk_entry (SGenerated len cs) [])); [exact Hp|exact Hq| |reflexivity].
          cbn. rewrite Er1. auto.
        * unfold stored_password_new in *. rewrite password_id_new_eq in *.
          apply (src_entry P s _ key (y, n, rev_of r) (mk_entry (SFixed text) [])); [exact Hp|exact Hq| |reflexivity].
          cbn. rewrite Er1. auto.
      + destruct Hd as [[_ ->]|(e & rnd0 & _ & ->)]; [contradiction|].
        apply lookup_insert_Some in Hc. destruct Hc as [[_ Hc]|[_ Hc]]; [|contradiction].
        rewrite (Hdec _ _ (eq_sym Hc)). apply src_site; [exact Hp|split; [exact Hy|discriminate]|].
        destruct o; try contradiction; destruct Ho as [-> _]; cbn; rewrite Er1; auto. }
  assert (forall s2, exec P o s = done_out (flush P s2) -> s_data s2 !! slot = Some c) as Hfl.
  { intros s2 E. rewrite E in Hc. destruct (performed_flush P s2) as (_ & F2 & _). rewrite F2 in Hc. exact Hc. }
  destruct o; try discriminate.
  - (* set_alias *)
    destruct (set_alias_cases P s0 a s key h p Hu Hl) as [[E _]|(t & rnd & s2 & E1 & _ & _ & E2 & E3 & E4)]; [exfalso; apply Hn; rewrite E in Hc; exact Hc|].
    pose proof (Hfl s2 E4) as Hc2. rewrite E2 in Hc2. apply lookup_insert_Some in Hc2. destruct Hc2 as [[_ Hc2]|[_ Hc2]]; [|contradiction].
    rewrite (Hdec _ _ (eq_sym Hc2)). apply src_site.
    + rewrite E4. apply performed_flush.
    + destruct Hv as [Hv1 Hv2]. split; [apply utf8_host, Hv1|]. intros b [= <-]. exact (resolve_utf8 _ _ _ _ _ _ Hv2 E1).
    + cbn. rewrite (Hres _ _ E1). auto.
  - (* remove_alias *)
    exfalso. apply Hn. apply (removes_alias P s0 s slot c). exact Hc.
  - (* remove_sites *)
    exfalso. apply Hn. apply (removes_sites P l s slot c). exact Hc.
  - exact (Hset s0 [] _ (conj eq_refl eq_refl)).
  - exact (Hset s0 [] _ (conj eq_refl eq_refl)).
  - (* set_notes *)
    destruct (set_notes_cases P s0 n r notes s key h p Hu Hl) as [E|(y & q & rnd & s2 & E1 & E2 & E3 & E4 & E5)]; [exfalso; apply Hn; rewrite E in Hc; exact Hc|].
    pose proof (Hfl s2 E5) as Hc2. rewrite E3 in Hc2. apply lookup_insert_Some in Hc2. destruct Hc2 as [[_ Hc2]|[_ Hc2]]; [|contradiction].
    rewrite (Hdec _ _ (eq_sym Hc2)). unfold get_password in E2. destruct (storage_get_inv P _ _ _ _ _ E2) as (c0 & m0 & G1 & G2 & G3).
    destruct (as_to_password q) as (i & e & -> & _). rewrite set_notes_to.
    eapply src_notes; [rewrite E5; apply performed_flush|exact Hks|reflexivity|exact G1|exact G2|exact G3|].
    rewrite <- set_notes_to. apply set_notes_valid; [exact (password_read_valid _ _ _ G3)|apply Hv].
  - (* remove *)
    exfalso. apply Hn. destruct (remove_cases P s0 n r s key h p Hu) as [[E _]|(y & s2 & _ & _ & E3 & _ & E5)].
    + rewrite E in Hc. exact Hc.
    + pose proof (Hfl s2 E5) as Hc2. rewrite E3 in Hc2. apply lookup_delete_Some in Hc2. apply Hc2.
Qed.

(** * Where everything comes from *)

Lemma once_app P l l' s0 key Q : once P l s0 key Q -> once P (l ++ l') s0 key Q.
Proof. intros (l1 & o & l2 & -> & H). exists l1, o, (l2 ++ l'). rewrite <- app_assoc. split; [reflexivity|exact H]. Qed.
Lemma genuine_app P l l' s0 key i e : genuine P l s0 key i e -> genuine P (l ++ l') s0 key i e.
Proof. intros [H1 [H2|H2]]; split; [apply once_app, H1|left; exact H2|apply once_app, H1|right; apply once_app, H2]. Qed.

Inductive known (P : prims) (l : list happening) (s0 : st) (key : bytes) : bytes -> Prop :=
| known_string t : utf8 t = true -> known P l s0 key (string_to_vec t)
| known_site x a : site_valid (mk_site x a) -> once P l s0 key (sets_site P x a) -> known P l s0 key (site_to_vec (mk_site x a))
| known_entry i e : password_valid (to_password i e) -> genuine P l s0 key i e -> known P l s0 key (password_to_vec (to_password i e)).

Lemma known_password P l s0 key m p : known P l s0 key m -> from_slice (p_float_ok P) password_of_json m = Ok p ->
  exists i e, p = to_password i e /\ genuine P l s0 key i e.
Proof.
  intros [t Ht|x a Hz H|i e Hp H] E.
  - destruct (string_not_password _ _ _ Ht E).
  - destruct (site_not_password _ _ _ Hz E).
  - rewrite password_roundtrip in E by exact Hp. injection E as <-. eauto.
Qed.
Lemma known_place P l s0 key m z : known P l s0 key m -> from_slice (p_float_ok P) site_of_json m = Ok z ->
  once P l s0 key (sets_site P (site_name z) (site_alias z)).
Proof.
  intros [t Ht|x a Hz H|i e Hp H] E.
  - destruct (string_not_site _ _ _ Ht E).
  - rewrite site_roundtrip in E by exact Hz. injection E as <-. exact H.
  - destruct (password_not_site _ _ _ Hp E).
Qed.

Section origin.
Context (P : prims) (l : list happening) (s0 : st).
Context (HP : prims_ok P) (G0 : good_secrets s0) (Hv : Forall happening_valid l) (Hu : unforged P l s0).

Lemma origin n : forall l1 l2 key slot c m, length l1 <= n -> l = l1 ++ l2 ->
  s_key (later P l1 s0) = Some key -> s_data (later P l1 s0) !! slot = Some c -> decrypt_data P c key = Ok m ->
  known P l1 s0 key m.
Proof.
  induction n as [|n IH]; intros l1 l2 key slot c m Hn El Hk Hc Hm;
    destruct (Hu l1 l2 key slot c m El Hk Hc Hm) as (la & o & lb & E & Hp).
  - subst l1. rewrite app_length in Hn. cbn in Hn. lia.
  - assert (op_valid o) as Hvo.
    { rewrite El, E in Hv. apply List.Forall_app in Hv. destruct Hv as [Hv1 _]. apply List.Forall_app in Hv1. destruct Hv1 as [_ Hv1].
      inversion Hv1. assumption. }
    pose proof (later_good P la HP s0 G0) as G.
    pose proof (puts_source P o _ key c m HP G Hvo Hp Hm) as Hs. destruct Hp as (Hk' & _).
    assert (forall Q : st -> op -> Prop, performed (fst (exec P o (later P la s0))) -> Q (later P la s0) o -> once P l1 s0 key Q) as Honce.
    { intros Q H1 H2. exists la, o, lb. auto. }
    inversion Hs as [t Ht|x a Hpf Hz Hx|i e Hpf Hq Hx Hnil|slot' c' m' i e y nn r t Hpf Hks Ho Hc' Hm' Hread Hq]; subst m.
    + apply known_string, Ht.
    + apply known_site; [exact Hz|apply Honce; assumption].
    + apply known_entry; [exact Hq|]. split; [apply Honce; assumption|left; exact Hnil].
    + assert (known P la s0 key m') as Hkn.
      { apply (IH la (Call o :: lb ++ l2) key slot' c' m'); try assumption.
        - subst l1. rewrite app_length in Hn. cbn in Hn. lia.
        - rewrite El, E. rewrite <- app_assoc. reflexivity. }
      destruct (known_password _ _ _ _ _ _ Hkn Hread) as (i' & e' & Ei & Hg).
      assert (i' = i /\ e' = e) as [-> ->].
      { pose proof (f_equal show_password Ei) as Es. rewrite !show_to_password in Es. injection Es. auto. }
      apply known_entry; [exact Hq|]. rewrite E. split.
      * apply once_app. apply Hg.
      * right. rewrite <- E. apply Honce; [exact Hpf|]. exists y, nn, r. exact Ho.
Qed.

Context (key h pp : bytes) (Hs : unlocked_with (later P l s0) key h pp).
Notation s := (later P l s0).

Lemma tamper_known slot c m : s_data s !! slot = Some c -> decrypt_data P c key = Ok m -> known P l s0 key m.
Proof. intros Hc Hm. apply (origin (length l) l [] key slot c m); [lia|rewrite app_nil_r; reflexivity|apply (hs_key s key h pp Hs)|exact Hc|exact Hm]. Qed.

Lemma tamper_read i q : get_password P (s_data s) i h key = Ok q -> exists j e, q = to_password j e /\ genuine P l s0 key j e.
Proof.
  intros H. destruct (storage_get_inv P _ _ _ _ _ H) as (c & m & H1 & H2 & H3).
  apply (known_password P l s0 key m q); [exact (tamper_known _ _ _ H1 H2)|exact H3].
Qed.

Lemma tamper_get x n r t : fst (exec P (Get x n r) s) = OText t ->
  exists i e, genuine P l s0 key i e /\ reveal P pp i (e_secret e) = OText t.
Proof.
  rewrite (get_eq P s key h pp Hs). destruct (resolve_site _ _ _ _ _) as [y|e|]; [|discriminate..].
  destruct (get_password P (s_data s) (mk_id y n (rev_of r)) h key) as [q|e|] eqn:E; [|discriminate..].
  destruct (tamper_read _ _ E) as (i & e & -> & Hg). rewrite reveal_value. intros H. eauto.
Qed.

Lemma tamper_notes x n r t : fst (exec P (GetNotes x n r) s) = OText t ->
  exists i e, genuine P l s0 key i e /\ t = e_notes e.
Proof.
  rewrite (get_notes_eq P s key h pp Hs). destruct (resolve_site _ _ _ _ _) as [y|e|]; [|discriminate..].
  destruct (get_password P (s_data s) (mk_id y n (rev_of r)) h key) as [q|e|] eqn:E; [|discriminate..].
  destruct (tamper_read _ _ E) as (i & e & -> & Hg). intros [= <-]. exists i, e. split; [exact Hg|].
  destruct i as [[? ?] ?], e as [[? ?|?] ?]; reflexivity.
Qed.

Lemma tamper_site k z : storage_get P site_of_json (s_data s) k key = Ok z -> once P l s0 key (sets_site P (site_name z) (site_alias z)).
Proof.
  intros H. destruct (storage_get_inv P _ _ _ _ _ H) as (c & m & H1 & H2 & H3).
  apply (known_place P l s0 key m z); [exact (tamper_known _ _ _ H1 H2)|exact H3].
Qed.

Lemma tamper_alias x t : fst (exec P (GetAlias x) s) = OText t -> exists y, once P l s0 key (sets_site P y (Some t)).
Proof.
  rewrite (get_alias_eq P s key h pp Hs). unfold storage_get_alias, get_site.
  destruct (storage_get P site_of_json (s_data s) _ key) as [z|e|] eqn:E; cbn [map_err bind text_out]; [|discriminate..].
  destruct (site_alias z) as [a|] eqn:Ea; [|discriminate]. intros [= <-]. exists (site_name z). rewrite <- Ea. exact (tamper_site _ _ E).
Qed.

Lemma filter_map_in {A B} (f : A -> res (option B)) k r : filter_map f k = Ok r -> forall y, In y r -> exists x, In x k /\ f x = Ok (Some y).
Proof.
  revert r; induction k as [|x k IH]; intros r; cbn [filter_map].
  - intros [= <-] y [].
  - destruct (f x) as [o|e|] eqn:Ef; cbn [bind]; try discriminate. destruct (filter_map f k) as [r'|e|]; cbn [bind]; try discriminate.
    intros [= <-] y Hy. destruct o as [z|].
    + destruct Hy as [<-|Hy]; [exists x; split; [left; reflexivity|exact Ef]|].
      destruct (IH _ eq_refl y Hy) as (x' & H1 & H2). exists x'. split; [right; exact H1|exact H2].
    + destruct (IH _ eq_refl y Hy) as (x' & H1 & H2). exists x'. split; [right; exact H1|exact H2].
Qed.

Lemma tamper_list x pattern ps : fst (exec P (ListPasswords x pattern) s) = OPasswords ps ->
  forall i e, In (i, e) ps -> genuine P l s0 key i e.
Proof.
  cbn [exec]. unfold list_, reads, as_out, unlocked. rewrite (hs_key s key h pp Hs), (hs_hmac s key h pp Hs). cbn [negb unwrap bind fst].
  destruct (resolve_site _ _ _ _ _) as [y|e|]; cbn [bind]; [|discriminate..].
  destruct (list_passwords P s y h key) as [qs|e|] eqn:El; cbn [bind]; [|discriminate..]. intros [= <-] i e Hin.
  apply in_map_iff in Hin. destruct Hin as (q & Eq & Hq). apply filter_In in Hq. destruct Hq as [Hq _].
  unfold list_passwords in El. destruct (filter_map_in _ _ _ El q Hq) as (k & _ & Hk). unfold password_item in Hk.
  destruct (starts_with _ _); [|discriminate].
  destruct (storage_get P password_of_json (s_data s) k key) as [q'|e'|] eqn:E; [|discriminate..]. injection Hk as ->.
  destruct (storage_get_inv P _ _ _ _ _ E) as (c & m & H1 & H2 & H3).
  destruct (known_password P l s0 key m q (tamper_known _ _ _ H1 H2) H3) as (i' & e' & -> & Hg).
  rewrite show_to_password in Eq. injection Eq as -> ->. exact Hg.
Qed.

Lemma tamper_sites pattern ss : fst (exec P (ListSites pattern) s) = OSites ss ->
  forall x a, In (x, a) ss -> once P l s0 key (sets_site P x a).
Proof.
  cbn [exec]. unfold list_sites, reads, as_out, unlocked. rewrite (hs_key s key h pp Hs). cbn [negb unwrap bind fst].
  destruct (storage_list_sites P s key) as [zs|e|] eqn:El; cbn [bind]; [|discriminate..]. intros [= <-] x a Hin.
  apply in_map_iff in Hin. destruct Hin as (z & Ez & Hz). apply filter_In in Hz. destruct Hz as [Hz _].
  unfold storage_list_sites in El. destruct (filter_map_in _ _ _ El z Hz) as (k & _ & Hk). unfold site_item in Hk.
  destruct (_ && _); [|discriminate].
  destruct (storage_get P site_of_json (s_data s) k key) as [z'|e'|] eqn:E; [|discriminate..]. injection Hk as ->.
  pose proof (tamper_site _ _ E) as H. injection Ez as <- <-. exact H.
Qed.
End origin.
