(** Processes that find any file. *)
From stdpp Require Import gmap.
From Verif Require Import M_Base M_Base64 M_Utf8 M_Codec M_Prims M_Types M_Crypto M_Recovery M_Json M_Serde M_Storage M_Passwords
  S_Json S_Serde S_Base64 S_Utf8 P_Base P_Base64 P_Utf8 P_Keys P_Crypto P_File P_Serde
  S_Vault M_History S_Api M_Cli S_Cli P_CliBase P_CliCalls P_CliUnlock P_CliCommands P_CliMain P_CliProps S_Foreign.

Lemma file_value_iff P disk k v : file_value P disk k v <-> exists d, load P disk = Ok d /\ d !! k = Some v.
Proof.
  unfold file_value, file_entries. split.
  - intros (l & (text & j & H1 & H2 & H3 & H4) & Hv). exists (map_of_pairs l). split.
    + apply load_iff. exists text, j, l. repeat (split; [assumption|]). intros k'. apply map_of_pairs_lookup.
    + rewrite map_of_pairs_lookup. exact Hv.
  - intros (d & Hl & Hd). apply load_iff in Hl. destruct Hl as (text & j & l & H1 & H2 & H3 & H4 & Hk).
    exists l. split; [exists text, j; auto|]. rewrite <- Hk. exact Hd.
Qed.
Lemma file_entries_iff P disk : (exists l, file_entries P disk l) <-> exists d, load P disk = Ok d.
Proof.
  unfold file_entries. split.
  - intros (l & text & j & H1 & H2 & H3 & H4). exists (map_of_pairs l). apply load_iff. exists text, j, l.
    repeat (split; [assumption|]). intros k'. apply map_of_pairs_lookup.
  - intros (d & Hl). apply load_iff in Hl. destruct Hl as (text & j & l & H1 & H2 & H3 & H4 & Hk). exists l, text, j. auto.
Qed.

(** * New instances *)

Section process.
Context (P : prims) (HP : prims_ok P) (s : st).
Notation found := (match load P (s_disk s) with Ok d => d | _ => ∅ end).
Notation s1 := (snd (exec P Restart s)).

Lemma found_value k v : found !! k = Some v <-> file_value P (s_disk s) k v.
Proof.
  rewrite file_value_iff. destruct (load P (s_disk s)) as [d|e|].
  - split; [intros H; exists d; auto|]. intros (d' & [= <-] & H). exact H.
  - rewrite lookup_empty. split; [discriminate|]. intros (d & H & _). discriminate H.
  - rewrite lookup_empty. split; [discriminate|]. intros (d & H & _). discriminate H.
Qed.

Lemma initialized_iff : fst (exec P Initialized s1) = OBool true <->
  (exists v, file_value P (s_disk s) (bs "salt") v) /\ exists v, file_value P (s_disk s) (bs "hmac-secret") v.
Proof.
  cbn [exec fst snd]. unfold initialized, storage_initialized, io_contains. cbn [s_data passwords_new].
  setoid_rewrite <- found_value. change (bs "salt") with SALT_KEY. change (bs "hmac-secret") with HMAC_SECRET_KEY.
  destruct (found !! SALT_KEY) as [v|], (found !! HMAC_SECRET_KEY) as [w|]; cbn [andb]; split; try discriminate; eauto; intros [[? H1] [? H2]]; discriminate.
Qed.

Lemma salt_iff salt : get_salt found = Ok salt <-> exists v, file_value P (s_disk s) (bs "salt") v /\ base64_accepted salt v.
Proof.
  unfold get_salt. setoid_rewrite <- found_value. change (bs "salt") with SALT_KEY. destruct (found !! SALT_KEY) as [v|]; cbn [ok_or bind].
  - destruct (b64_decode v) as [x|] eqn:E; cbn [ok_or].
    + split; [intros [= <-]; exists v; split; [reflexivity|]; apply b64_decode_spec; exact E|].
      intros (v' & [= <-] & H). apply b64_decode_spec in H. congruence.
    + split; [discriminate|]. intros (v' & [= <-] & H). apply b64_decode_spec in H. congruence.
  - split; [discriminate|]. intros (v & H & _). discriminate H.
Qed.
Lemma secret_iff key secret : length key = 32 -> get_hmac_secret P found key = Ok secret <->
  exists a b n c text h, file_value P (s_disk s) (bs "hmac-secret") (a ++ "_"%byte :: b) /\ ~ In "_"%byte a /\
    base64_accepted n a /\ length n = 12 /\ base64_accepted c b /\ p_open P key n c = Some text /\
    document (p_float_ok P) (JStr h) text /\ base64_accepted secret h.
Proof.
  intros Hk. unfold get_hmac_secret. setoid_rewrite <- found_value. change (bs "hmac-secret") with HMAC_SECRET_KEY.
  destruct (found !! HMAC_SECRET_KEY) as [v|]; cbn [ok_or bind]; [|split; [discriminate|intros (a & b & n & c & text & h & H & _); discriminate H]].
  pose proof (decrypt_ok P v key) as D. split.
  - destruct (decrypt_data P v key) as [m|e|] eqn:E; cbn [bind]; [|discriminate..].
    destruct (proj1 (D m Hk) eq_refl) as (a & b & n & c & -> & H1 & H2 & H3 & H4 & H5).
    destruct (from_slice (p_float_ok P) as_str m) as [h|e|] eqn:F; cbn [bind]; [|discriminate..].
    apply from_slice_ok in F. destruct F as (j & Hd & Hj). destruct j; try discriminate Hj. injection Hj as ->.
    destruct (b64_decode h) as [x|] eqn:Ex; cbn [ok_or]; [|discriminate]. intros [= <-]. apply b64_decode_spec in Ex.
    exists a, b, n, c, m, h. auto 10.
  - intros (a & b & n & c & text & h & [= ->] & H1 & H2 & H3 & H4 & H5 & H6 & H7).
    assert (decrypt_data P (a ++ "_"%byte :: b) key = Ok text) as -> by (apply D; [exact Hk|]; exists a, b, n, c; auto 10).
    cbn [bind]. assert (from_slice (p_float_ok P) as_str text = Ok h) as -> by (apply from_slice_ok; exists (JStr h); auto).
    cbn [bind]. apply b64_decode_spec in H7. rewrite H7. reflexivity.
Qed.

Lemma unlock_iff pp : fst (exec P (Unlock pp) s1) = ODone <-> exists key secret, opens_file P (s_disk s) pp key secret.
Proof.
  cbn [exec]. unfold as_out, unlock, bindM, reads, lift. cbn [fst snd exec s_data passwords_new].
  unfold opens_file. split.
  - destruct (get_salt found) as [salt|e|] eqn:Es; cbn [fst]; [|discriminate..]. apply salt_iff in Es. destruct Es as (v & Hv & Hb).
    rewrite encryption_key_salt. set (key := p_scrypt P pp _ 32).
    destruct (get_hmac_secret P found key) as [secret|e|] eqn:Eh; cbn [fst]; [|discriminate..]. intros _.
    apply secret_iff in Eh; [|apply (ok_scrypt_len P HP)]. destruct Eh as (a & b & n & c & text & h & Hh).
    exists key, secret, v, salt, a, b, n, c, text, h. auto.
  - intros (key & secret & v & salt & a & b & n & c & text & h & Hv & Hb & Hk & Hh).
    assert (get_salt found = Ok salt) as -> by (apply salt_iff; eauto). rewrite encryption_key_salt, <- Hk.
    assert (length key = 32) as Hl by (rewrite Hk; apply (ok_scrypt_len P HP)).
    assert (get_hmac_secret P found key = Ok secret) as -> by (apply secret_iff; [exact Hl|]; exists a, b, n, c, text, h; auto).
    reflexivity.
Qed.
Lemma unlock_gives pp key secret : opens_file P (s_disk s) pp key secret ->
  let s2 := snd (exec P (Unlock pp) s1) in s_key s2 = Some key /\ s_hmac s2 = Some secret /\ s_primary s2 = Some pp /\ s_disk s2 = s_disk s.
Proof.
  intros (v & salt & a & b & n & c & text & h & Hv & Hb & Hk & Hh). cbn [exec]. unfold as_out, unlock, bindM, reads, lift. cbn [fst snd exec s_data passwords_new].
  assert (get_salt found = Ok salt) as -> by (apply salt_iff; eauto). rewrite encryption_key_salt, <- Hk.
  assert (length key = 32) as Hl by (rewrite Hk; apply (ok_scrypt_len P HP)).
  assert (get_hmac_secret P found key = Ok secret) as -> by (apply secret_iff; [exact Hl|]; exists a, b, n, c, text, h; auto).
  cbn. auto.
Qed.
Lemma unlock_fails pp : fst (exec P (Unlock pp) s1) <> ODone -> snd (exec P (Unlock pp) s1) = s1.
Proof.
  cbn [exec]. unfold as_out, unlock, bindM, reads, lift. cbn [fst snd exec s_data passwords_new].
  destruct (get_salt found) as [salt|e|]; cbn [fst snd]; try reflexivity. rewrite encryption_key_salt.
  destruct (get_hmac_secret P found _) as [secret|e|]; cbn [fst snd]; try reflexivity. intros H. destruct (H eq_refl).
Qed.
End process.

(** * The program *)

Section cli.
Context (P : prims) (HP : prims_ok P) (E : externals) (path : bytes).

Lemma command_unopened sp c t : ~ refused c ->
  (forall pp key secret, 6 <= length pp -> ~ opens_file P (s_disk (t_st t)) pp key secret) ->
  let '(x, t') := main P E path (mk_args sp c) t in s_disk (t_st t') = s_disk (t_st t) /\
  (((forall l, ~ file_entries P (s_disk (t_st t)) l) /\ exists e, load P (s_disk (t_st t)) = Err e /\ (x, t') = ends (CErr (Lib e), begins P t)) \/
   ((exists l, file_entries P (s_disk (t_st t)) l) /\
    (~ (exists v, file_value P (s_disk (t_st t)) (bs "salt") v) \/ ~ (exists v, file_value P (s_disk (t_st t)) (bs "hmac-secret") v)) /\
    (x, t') = ends (CErr (Lib StorageNotInitialized), begins P t)) \/
   ((exists v, file_value P (s_disk (t_st t)) (bs "salt") v) /\ (exists v, file_value P (s_disk (t_st t)) (bs "hmac-secret") v) /\
    (x = Aborted \/ x = Waiting))).
Proof.
  intros Hc Ho. assert (forall y, c <> SetPrimary y) as Hs by (intros y ->; apply Hc; exact I).
  assert (process_command P E path sp c = process_simple P E path sp c) as Ep by (destruct c; try reflexivity; destruct (Hc I)).
  pose proof (initialized_iff P (t_st t)) as Hi. cbn [exec fst snd] in Hi.
  assert (initialized (t_st (begins P t)) = initialized (passwords_new (match load P (s_disk (t_st t)) with Ok d => d | _ => ∅ end) (t_st t))) as Ei by reflexivity.
  rewrite <- Ei in Hi.
  destruct (load P (s_disk (t_st t))) as [d|e|] eqn:El.
  - rewrite (main_command P E path sp c t d El Hs), Ep.
    pose proof (command_ensures P E path sp c (begins P t) Hc) as H. pose proof (ensure_cases P sp (begins P t)) as Hcs.
    destruct (ensure_unlocked P sp (begins P t)) as [r t1].
    destruct Hcs as [(-> & -> & Hn)|(Hy & [(_ & _ & Hu)|(_ & [(-> & c0 & es & _ & _ & H6 & Hun)|(Hr & Hst)])])].
    + rewrite H. cbn [ends]. split; [reflexivity|]. right. left. split; [apply file_entries_iff; eauto|]. split; [|reflexivity].
      destruct (d !! bs "salt") as [v0|] eqn:Ed.
      2:{ left. intros [v Hv]. apply file_value_iff in Hv. destruct Hv as (d' & Hd' & Hv). congruence. }
      right. assert (exists v, file_value P (s_disk (t_st t)) (bs "salt") v) as Hv by (exists v0; apply file_value_iff; eauto).
      intros Hw. pose proof (proj2 Hi (conj Hv Hw)) as Hin. congruence.
    + discriminate Hu.
    + exfalso. assert (fst (exec P (Unlock (trim c0)) (snd (exec P Restart (t_st t)))) = ODone) as Hd by (change (snd (exec P Restart (t_st t))) with (t_st (begins P t)); rewrite Hun; reflexivity).
      apply unlock_iff in Hd; [|exact HP]. destruct Hd as (key & secret & Hd). exact (Ho _ _ _ H6 Hd).
    + assert (s_disk (t_st t1) = s_disk (t_st t)) as Hdisk by (rewrite Hst; reflexivity).
      destruct Hr as [-> | ->]; rewrite H; cbn [ends]; (split; [exact Hdisk|]); right; right;
        (destruct (proj1 Hi) as [H1 H2]; [f_equal; exact Hy|]); auto.
  - rewrite (main_unreadable P E path sp c t e El Hs). split; [reflexivity|]. left. split; [|exists e; auto].
    intros l Hl. assert (exists l, file_entries P (s_disk (t_st t)) l) as Hex by eauto. apply file_entries_iff in Hex. destruct Hex as [d Hd]. congruence.
  - exfalso. exact (load_no_panic P _ El).
Qed.
End cli.
