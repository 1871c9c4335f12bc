(** Statements about calls in terms of other calls. *)
From stdpp Require Import gmap.
From Coq Require Import Permutation ZArith ZifyBool ZifyNat ZifyN.
From Verif Require Import M_Base M_Base64 M_Utf8 M_Prims M_Types M_Crypto M_Recovery M_Json M_Serde M_Storage
  M_Passwords M_History S_Json S_Serde S_Vault S_Api S_History P_Base P_Base64 P_Crypto P_Recovery P_Json P_Serde P_Utf8
  P_File P_Storage P_Api P_Vault P_History P_Calls P_Sound.

(** * Slots (C21) *)

Lemma slots_distinct P h s n r s' n' r' :
  ~ In x00 n -> ~ In x00 n' ->
  (p_hmac P h s = p_hmac P h s' -> s = s') ->
  (p_hmac P h (id_string s n r) = p_hmac P h (id_string s' n' r') -> id_string s n r = id_string s' n' r') ->
  get_password_key P (mk_id s n r) h = get_password_key P (mk_id s' n' r') h -> (s, n, r) = (s', n', r').
Proof.
  intros Hn Hn' H1 H2 H. apply password_key_digest in H. destruct H as [Ha Hb]. specialize (H1 Ha). specialize (H2 Hb).
  assert (mk_id s n r = mk_id s' n' r') as E by (apply id_text_inj; cbn; assumption). congruence.
Qed.

Lemma slot_shared P h s n m r :
  get_password_key P (mk_id s (n ++ x00 :: m) r) h = get_password_key P (mk_id s n (m ++ x00 :: r)) h.
Proof. unfold get_password_key. cbn [id_site id_name id_revision]. rewrite <- !app_assoc. reflexivity. Qed.

Lemma rev_of_nul m r : rev_of (m ++ x00 :: r) = m ++ x00 :: r.
Proof.
  unfold rev_of. destruct (bytes_eqb _ _) eqn:E; [|reflexivity]. apply bytes_eqb_eq in E. exfalso.
  assert (In x00 (bs "1")) as H by (rewrite <- E; apply in_or_app; right; left; reflexivity). destruct H as [H|[]]. discriminate H.
Qed.

Lemma resolve_resolved P s k h p x y : unlocked_with s k h p -> resolve_site P (s_data s) x h k = Ok y -> resolved P s x = y.
Proof.
  intros Hs. unfold resolved, resolve_site. rewrite (get_alias_eq P s k h p Hs), normalize_host.
  destruct (storage_get_alias P (s_data s) (host x) h k); cbn [text_out]; congruence.
Qed.

Lemma nul_get P x n m r t s k h p : prims_ok P -> unlocked_with s k h p -> length k = 32 ->
  op_valid (SetStored x (n ++ x00 :: m) r t) -> performed (fst (exec P (SetStored x (n ++ x00 :: m) r t) s)) ->
  fst (exec P (Get x n (m ++ x00 :: rev_of r)) (snd (exec P (SetStored x (n ++ x00 :: m) r t) s))) = OText t.
Proof.
  intros HP Hs Hk Hv Hp.
  pose proof (set_stored_after P x _ r t s k h p HP Hs Hk Hv Hp) as (Hg & _).
  destruct (setter_after P (SetStored x (n ++ x00 :: m) r t) x x
    (Stored (stored_password_new x (n ++ x00 :: m) r t)) s k h p HP Hs Hk) as (y & q & _ & _ & Hs' & _ & _ & _); auto.
  { split; reflexivity. }
  revert Hg. rewrite !(get_eq P _ k h p Hs'). destruct (resolve_site P _ x h k) as [z|e|]; try discriminate.
  rewrite rev_of_nul. unfold get_password. rewrite slot_shared. auto.
Qed.

(** * Setting (C35) *)

Lemma set_generated_value P x n r len cs s k h p : prims_ok P -> unlocked_with s k h p -> length k = 32 ->
  op_valid (SetGenerated x n r len cs) -> performed (fst (exec P (SetGenerated x n r len cs) s)) ->
  let s' := snd (exec P (SetGenerated x n r len cs) s) in
  fst (exec P (Get x n r) s') = text_out (derive_password P p (generation_input (resolved P s x, n, rev_of r)) len cs) /\
  fst (exec P (GetNotes x n r) s') = OText [] /\ fst (exec P (Has x n r) s') = OBool true.
Proof.
  intros HP Hs Hk Hv Hp. destruct (set_generated_after P x n r len cs s k h p HP Hs Hk Hv Hp) as (y & Hy & H).
  cbv zeta. rewrite (resolve_resolved P s k h p x y Hs Hy). exact H.
Qed.

(** The value of a password does not depend on anything else. *)
Lemma get_reveals P x n r s k h p t : unlocked_with s k h p -> fst (exec P (Get x n r) s) = OText t ->
  exists q, get_password P (s_data s) (mk_id (resolved P s x) n (rev_of r)) h k = Ok q /\ OText t = text_out (password_value P p q).
Proof.
  intros Hs. rewrite (get_eq P s k h p Hs). destruct (resolve_site P (s_data s) x h k) as [y|e|] eqn:Ey; try discriminate.
  rewrite (resolve_resolved P s k h p x y Hs Ey). destruct (get_password _ _ _ _ _) as [q|e|]; try discriminate. intros H. eauto.
Qed.

(** * Reset (C31) *)

Lemma filter_map_none {A B} (f : A -> res (option B)) l : (forall x, In x l -> f x = Ok None) -> filter_map f l = Ok [].
Proof.
  induction l as [|x l IH]; intros H; [reflexivity|]. cbn [filter_map]. rewrite (H x (or_introl eq_refl)). cbn [bind].
  rewrite IH; [reflexivity|]. intros; apply H; right; assumption.
Qed.

Lemma reset_empty P pp s : prims_ok P -> fst (exec P (Reset pp) s) = ODone ->
  let s' := snd (exec P (Reset pp) s) in
  fst (exec P Initialized s') = OBool true /\ fst (exec P Unlocked s') = OBool true /\
  s_primary s' = Some pp /\ s_disk s' = Some (flush_text P s') /\ load P (s_disk s') = Ok (s_data s') /\
  (forall pattern, fst (exec P (ListSites pattern) s') = OSites []) /\
  (forall x pattern, fst (exec P (ListPasswords x pattern) s') = OPasswords []) /\
  (forall x n r, fst (exec P (Has x n r) s') = OBool false) /\
  (forall k, is_Some (s_data s' !! k) <-> k = bs "salt" \/ k = bs "hmac-secret").
Proof.
  intros HP Hd. cbv zeta.
  pose proof (proj1 (proj2 (proj2 (exec_disk P (Reset pp) s HP))) Hd eq_refl) as Hdisk.
  destruct (reset_cases P pp s HP) as (s1 & _ & _ & _ & _ & Ht & _ & Hk & [(_ & _ & E)|(E & _)]); [|contradiction].
  destruct (flush_facts P s1) as (F1 & _). set (s' := snd (exec P (Reset pp) s)) in *.
  assert (s_data s' = s_data s1) as Ed by (rewrite E; cbn [set_secrets snd s_data]; exact F1).
  assert (forall k, is_Some (s_data s' !! k) <-> k = bs "salt" \/ k = bs "hmac-secret") as Hdom by (intros k; rewrite Ed; apply Hk).
  assert (unlocked_with s' (key_for P pp (s_rand s)) (p_random P (S (s_rand s)) 32) pp) as Hs.
  { rewrite E. reflexivity. }
  assert (forall k, In k (io_keys P s') -> k = bs "salt" \/ k = bs "hmac-secret") as Hkeys.
  { intros k Hin. unfold io_keys in Hin. apply (Permutation_in _ (ok_order P HP _ _)) in Hin. apply Hdom.
    apply in_map_iff in Hin. destruct Hin as ([k' c] & <- & Hin). rewrite <- elem_of_list_In in Hin.
    apply elem_of_map_to_list in Hin. eexists; exact Hin. }
  assert (forall x, resolve_site P (s_data s') x (p_random P (S (s_rand s)) 32) (key_for P pp (s_rand s)) = Ok (host x)) as Hr.
  { intros x. unfold resolve_site, storage_get_alias, get_site. rewrite normalize_host.
    rewrite storage_get_missing; [reflexivity|]. destruct (s_data s' !! _) as [c|] eqn:Ec; [|reflexivity]. exfalso.
    destruct (proj1 (Hdom _) (mk_is_Some _ _ Ec)) as [H|H].
    - apply (proj1 (site_key_not_reserved P _ _) H).
    - apply (proj2 (site_key_not_reserved P _ _) H). }
  split; [|split; [|split; [|split; [|split; [|split; [|split; [|split]]]]]]].
  - cbn [exec fst]. unfold initialized, storage_initialized. f_equal.
    destruct (proj2 (Hdom (bs "salt")) (or_introl eq_refl)) as [c1 H1].
    destruct (proj2 (Hdom (bs "hmac-secret")) (or_intror eq_refl)) as [c2 H2].
    unfold io_contains. change SALT_KEY with (bs "salt"). change HMAC_SECRET_KEY with (bs "hmac-secret"). rewrite H1, H2. reflexivity.
  - cbn [exec fst]. unfold unlocked. rewrite (hs_key _ _ _ _ Hs). reflexivity.
  - exact (hs_primary _ _ _ _ Hs).
  - exact Hdisk.
  - rewrite Hdisk. apply load_flush; [exact HP|]. rewrite Ed. exact Ht.
  - intros pattern. cbn [exec]. unfold list_sites, reads, as_out, unlocked. rewrite (hs_key _ _ _ _ Hs). cbn [negb unwrap bind fst].
    unfold storage_list_sites. rewrite filter_map_none; [reflexivity|]. intros k Hin. destruct (Hkeys k Hin) as [->| ->]; reflexivity.
  - intros x pattern. cbn [exec]. unfold list_, reads, as_out, unlocked. rewrite (hs_key _ _ _ _ Hs), (hs_hmac _ _ _ _ Hs). cbn [negb unwrap bind fst].
    rewrite Hr. cbn [bind]. unfold list_passwords. rewrite filter_map_none; [reflexivity|]. intros k Hin.
    destruct (Hkeys k Hin) as [->| ->]; reflexivity.
  - intros x n r. rewrite (has_eq P _ _ _ _ Hs), Hr. f_equal. destruct (s_data s' !! _) as [c|] eqn:Ec; [|reflexivity]. exfalso.
    destruct (proj1 (Hdom _) (mk_is_Some _ _ Ec)) as [H|H].
    + apply (proj1 (password_key_not_reserved P _ _) H).
    + apply (proj2 (password_key_not_reserved P _ _) H).
  - exact Hdom.
Qed.

(** * Failed writes (C32) *)

(** A failing write is reported. *)
Lemma failed_reported P o s : prims_ok P -> modifies o = true -> p_write P (s_flushes s) <> WriteOk -> fst (exec P o s) <> ODone.
Proof. intros HP Hm Hw Hd. apply Hw. exact (proj2 (proj2 (proj2 (proj2 (exec_disk P o s HP)))) Hd Hm). Qed.

(** Memory is as if writing had worked. *)
Lemma failed_kept P o s w : modifies o = true -> is_reset o = false ->
  s_data (snd (exec P o s)) = s_data (snd (exec (with_writes P w) o s)) /\
  secrets (snd (exec P o s)) = secrets (snd (exec (with_writes P w) o s)).
Proof. intros Hm Hr. destruct (exec_alike P w o s Hm Hr) as (H1 & H2 & _). auto. Qed.

(** * Aliases (C27) *)

Lemma set_alias_no_passwords P x a s k h p : prims_ok P -> unlocked_with s k h p -> length k = 32 ->
  op_valid (SetAlias x a) -> performed (fst (exec P (SetAlias x a) s)) ->
  fst (exec P (GetAlias x) s) = OErr NoSuchAlias -> forall n r t, fst (exec P (Get x n r) s) <> OText t.
Proof.
  intros HP Hs Hk Hv Hp Hn n r t Hg. destruct (set_alias_after P x a s k h p HP Hs Hk Hv Hp) as (_ & _ & _ & _ & Ha).
  destruct (get_reveals P x n r s k h p t Hs Hg) as (q & Hq & _).
  assert (resolved P s x = host x) as E by (unfold resolved; rewrite Hn; reflexivity). rewrite E in Hq.
  pose proof (any_password_false P s (host x) h k (mk_id (host x) n (rev_of r)) HP Ha eq_refl) as H. rewrite Hq in H. exact H.
Qed.
