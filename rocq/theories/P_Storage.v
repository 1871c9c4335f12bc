(** Storage keys and encrypted values. *)
From stdpp Require Import gmap.
From Coq Require Import Permutation.
From Verif Require Import M_Base M_Base64 M_Utf8 M_Prims M_Types M_Crypto M_Json M_Serde M_Storage
  S_Json S_Serde S_Vault P_Base P_Base64 P_Crypto P_Json P_Serde P_Utf8 P_File.

(** * Storage keys *)

Lemma digest_no P h x c : c = "_"%byte \/ c = ":"%byte \/ c = x00 -> ~ In c (get_digest P h x).
Proof. intros Hc. apply b64_encode_no. tauto. Qed.

Lemma digest_inj P h x y : get_digest P h x = get_digest P h y -> p_hmac P h x = p_hmac P h y.
Proof. apply b64_encode_inj. Qed.

Lemma site_key_digest P h s s' :
  get_site_key P s h = get_site_key P s' h <-> p_hmac P h s = p_hmac P h s'.
Proof.
  unfold get_site_key. split; intros H.
  - apply app_inv_head in H. apply digest_inj, H.
  - unfold get_digest. rewrite H. reflexivity.
Qed.

Definition id_text (i : password_id) : bytes := id_site i ++ x00 :: id_name i ++ x00 :: id_revision i.

Lemma password_key_eq P h i :
  get_password_key P i h =
  STORAGE_PREFIX ++ get_digest P h (id_site i) ++ ":"%byte :: get_digest P h (id_text i).
Proof.
  unfold get_password_key, get_site_prefix, get_site_key, id_text. rewrite <- !app_assoc. reflexivity.
Qed.

Lemma password_key_digest P h i j :
  get_password_key P i h = get_password_key P j h <->
  p_hmac P h (id_site i) = p_hmac P h (id_site j) /\ p_hmac P h (id_text i) = p_hmac P h (id_text j).
Proof.
  rewrite !password_key_eq. split.
  - intros H. apply app_inv_head in H.
    assert (Some (get_digest P h (id_site i), get_digest P h (id_text i)) =
            Some (get_digest P h (id_site j), get_digest P h (id_text j))) as E.
    { rewrite <- (split_once_app ":"%byte _ _ (digest_no P h (id_site i) ":"%byte ltac:(auto))).
      rewrite <- (split_once_app ":"%byte _ _ (digest_no P h (id_site j) ":"%byte ltac:(auto))).
      rewrite H. reflexivity. }
    injection E as E1 E2. split; apply digest_inj; assumption.
  - intros [H1 H2]. unfold get_digest. rewrite H1, H2. reflexivity.
Qed.

Lemma id_text_inj i j :
  id_site i = id_site j -> ~ In x00 (id_name i) -> ~ In x00 (id_name j) -> id_text i = id_text j -> i = j.
Proof.
  destruct i as [s n r], j as [s' n' r']. unfold id_text; cbn [id_site id_name id_revision].
  intros <- H1 H2 H. apply app_inv_head in H. injection H as H.
  assert (Some (n, r) = Some (n', r')) as E by
    (rewrite <- (split_once_app x00 n r H1), <- (split_once_app x00 n' r' H2), H; reflexivity).
  congruence.
Qed.

Lemma site_key_not_password P h h' s i : get_site_key P s h <> get_password_key P i h'.
Proof.
  rewrite password_key_eq. unfold get_site_key. intros H. apply app_inv_head in H.
  apply (digest_no P h s ":"%byte); [auto|]. rewrite H. apply in_or_app. right. left. reflexivity.
Qed.

Lemma site_key_not_reserved P h s :
  get_site_key P s h <> SALT_KEY /\ get_site_key P s h <> HMAC_SECRET_KEY.
Proof. split; discriminate. Qed.

Lemma password_key_not_reserved P h i :
  get_password_key P i h <> SALT_KEY /\ get_password_key P i h <> HMAC_SECRET_KEY.
Proof. rewrite password_key_eq. split; discriminate. Qed.

(** The two filters used for listing. *)
Definition site_filter (key : bytes) : bool :=
  starts_with STORAGE_PREFIX key && negb (contains_byte ":"%byte (skipn (length STORAGE_PREFIX) key)).

Lemma starts_with_app p s : starts_with p (p ++ s) = true.
Proof. apply starts_with_spec. eexists; reflexivity. Qed.

Lemma skipn_prefix {A} (p s : list A) : skipn (length p) (p ++ s) = s.
Proof. rewrite skipn_app, skipn_all, Nat.sub_diag. reflexivity. Qed.

Lemma site_filter_site P h s : site_filter (get_site_key P s h) = true.
Proof.
  unfold site_filter, get_site_key. rewrite starts_with_app, skipn_prefix.
  assert (contains_byte ":"%byte (get_digest P h s) = false) as ->; [|reflexivity].
  apply contains_byte_false, digest_no. auto.
Qed.

Lemma site_filter_password P h i : site_filter (get_password_key P i h) = false.
Proof.
  rewrite password_key_eq. unfold site_filter. rewrite starts_with_app, skipn_prefix.
  assert (contains_byte ":"%byte (get_digest P h (id_site i) ++ ":"%byte :: get_digest P h (id_text i)) = true)
    as ->; [|reflexivity].
  apply contains_byte_spec, in_or_app. right. left. reflexivity.
Qed.

Lemma site_filter_reserved : site_filter SALT_KEY = false /\ site_filter HMAC_SECRET_KEY = false.
Proof. split; reflexivity. Qed.

Lemma password_filter_password P h s i :
  starts_with (get_site_prefix P s h) (get_password_key P i h) = true <-> p_hmac P h s = p_hmac P h (id_site i).
Proof.
  rewrite starts_with_spec, password_key_eq. unfold get_site_prefix, get_site_key. split.
  - intros [r H]. rewrite <- !app_assoc in H. apply app_inv_head in H. cbn [app] in H.
    assert (Some (get_digest P h (id_site i), get_digest P h (id_text i)) = Some (get_digest P h s, r)) as E.
    { rewrite <- (split_once_app ":"%byte _ _ (digest_no P h (id_site i) ":"%byte ltac:(auto))).
      rewrite <- (split_once_app ":"%byte _ r (digest_no P h s ":"%byte ltac:(auto))).
      rewrite H. reflexivity. }
    injection E as E1 E2. symmetry. apply digest_inj. exact E1.
  - intros H. exists (get_digest P h (id_text i)). unfold get_digest. rewrite H, <- !app_assoc. reflexivity.
Qed.

Lemma password_filter_site P h s s' : starts_with (get_site_prefix P s h) (get_site_key P s' h) = false.
Proof.
  destruct (starts_with _ _) eqn:E; [|reflexivity]. exfalso. apply starts_with_spec in E. destruct E as [r H].
  unfold get_site_prefix, get_site_key in H. rewrite <- !app_assoc in H. apply app_inv_head in H.
  apply (digest_no P h s' ":"%byte); [auto|]. rewrite H. apply in_or_app. right. left. reflexivity.
Qed.

Lemma password_filter_reserved P h s :
  starts_with (get_site_prefix P s h) SALT_KEY = false /\
  starts_with (get_site_prefix P s h) HMAC_SECRET_KEY = false.
Proof. split; reflexivity. Qed.

(** * Encrypted values *)

Definition sealed (P : prims) (key : bytes) (rnd : nat) (m : bytes) : bytes :=
  b64_encode (p_random P rnd 12) ++ "_"%byte :: b64_encode (p_seal P key (p_random P rnd 12) m).

Lemma encrypt_sealed P rnd m key : length key = 32 -> encrypt_data P rnd m key = Ok (sealed P key rnd m).
Proof. intros H. rewrite encrypt_data_eq by exact H. reflexivity. Qed.

Lemma decrypt_sealed P rnd m key : prims_ok P -> length key = 32 -> decrypt_data P (sealed P key rnd m) key = Ok m.
Proof. intros HP H. eapply encrypt_decrypt; [exact HP|]. apply encrypt_sealed, H. Qed.

Lemma b64_ascii data : forallb (in_range 0 0x7f) (b64_encode data) = true.
Proof.
  apply forallb_forall. intros c Hc. apply b64_encode_chars in Hc. destruct Hc as [->|Hc]; [reflexivity|].
  revert c Hc. apply forallb_forall. vm_compute. reflexivity.
Qed.

Lemma utf8_b64 data : utf8 (b64_encode data) = true.
Proof. apply forallb_ascii, b64_ascii. Qed.

Lemma utf8_sealed P key rnd m : utf8 (sealed P key rnd m) = true.
Proof.
  apply forallb_ascii. unfold sealed. rewrite forallb_app. cbn [forallb]. rewrite !b64_ascii. reflexivity.
Qed.

Lemma utf8_site_key P s h : utf8 (get_site_key P s h) = true.
Proof. apply forallb_ascii. unfold get_site_key, get_digest. rewrite forallb_app, b64_ascii. reflexivity. Qed.

Lemma utf8_password_key P i h : utf8 (get_password_key P i h) = true.
Proof.
  apply forallb_ascii. rewrite password_key_eq, !forallb_app. cbn [forallb].
  unfold get_digest. rewrite !b64_ascii. reflexivity.
Qed.

Lemma storage_get_sealed {A} (P : prims) (conv : json -> option A) (d : kvmap) (k key : bytes) (rnd : nat) (m : bytes) :
  prims_ok P -> length key = 32 -> d !! k = Some (sealed P key rnd m) ->
  storage_get P conv d k key = from_slice (p_float_ok P) conv m.
Proof.
  intros HP Hk Hd. unfold storage_get, io_get. rewrite Hd. cbn [ok_or bind].
  rewrite decrypt_sealed by assumption. reflexivity.
Qed.

Lemma storage_get_missing {A} (P : prims) (conv : json -> option A) (d : kvmap) (k key : bytes) :
  d !! k = None -> storage_get P conv d k key = Err KeyMissing.
Proof. intros Hd. unfold storage_get, io_get. rewrite Hd. reflexivity. Qed.

(** * Names *)

Lemma eqb_sym (a b : byte) : Byte.eqb a b = Byte.eqb b a.
Proof.
  destruct (Byte.eqb a b) eqn:E, (Byte.eqb b a) eqn:F; try reflexivity.
  - apply eqb_eq in E. subst. rewrite eqb_refl in F. discriminate.
  - apply eqb_eq in F. subst. rewrite eqb_refl in E. discriminate.
Qed.

Lemma normalize_host s : normalize_site s = host s.
Proof.
  unfold normalize_site, host.
  destruct s as [|a [|b [|c [|d r]]]]; cbn -[Byte.eqb];
    [reflexivity|repeat match goal with |- context [if ?x then _ else _] => destruct x end; reflexivity..|].
  rewrite (eqb_sym a); destruct (Byte.eqb "w" a); cbn [andb]; try reflexivity.
  rewrite (eqb_sym b); destruct (Byte.eqb "w" b); cbn [andb]; try reflexivity.
  rewrite (eqb_sym c); destruct (Byte.eqb "w" c); cbn [andb]; try reflexivity.
  rewrite (eqb_sym d); destruct (Byte.eqb "." d); cbn [andb]; reflexivity.
Qed.

Lemma revision_rev r : (if negb (bytes_eqb r (bs "1")) then r else []) = rev_of r.
Proof. unfold rev_of. destruct (bytes_eqb r (bs "1")); reflexivity. Qed.

Lemma password_id_new_eq s n r : password_id_new s n r = mk_id s n (rev_of r).
Proof. unfold password_id_new. rewrite revision_rev. reflexivity. Qed.

Lemma utf8_host s : utf8 s = true -> utf8 (host s) = true.
Proof.
  rewrite <- normalize_host. unfold normalize_site. destruct (strip_prefix _ s) as [r|] eqn:E; [|trivial].
  apply strip_prefix_some in E. subst s. intros H. exact H.
Qed.

Lemma utf8_rev r : utf8 r = true -> utf8 (rev_of r) = true.
Proof. rewrite <- revision_rev. destruct (negb _); trivial. Qed.
