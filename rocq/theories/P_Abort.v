(** When calls panic. *)
From Coq Require Import ZArith ZifyBool ZifyNat ZifyN.
From stdpp Require Import gmap.
From Verif Require Import M_Base M_Base64 M_Utf8 M_Prims M_Types M_Crypto M_Recovery M_Json M_Serde M_Storage M_Passwords S_Base64 S_Serde
  S_Vault M_History S_Api S_History P_Base P_Crypto P_Policy P_Recovery P_Utf8 P_Json P_Serde P_Storage P_File P_Api P_Calls P_Props M_Cli S_Cli
  S_Tamper P_Tamper S_Abort.

Lemma from_slice_total {A} fo (conv : json -> option A) t : from_slice fo conv t <> Panic.
Proof. unfold from_slice. destruct (parse_json fo t) as [j|]; [destruct (conv j)|]; discriminate. Qed.
Lemma ok_or_total {A} (o : option A) e : ok_or o e <> Panic.
Proof. destruct o; discriminate. Qed.

Section reasons.
Context (P : prims) (HP : prims_ok P).

(** Something stored has a wrong nonce. *)
Definition spoiled (d : kvmap) : Prop := exists k v, k <> SALT_KEY /\ d !! k = Some v /\ wrong_nonce v.

Lemma get_spoiled {A : Type} (conv : json -> option A) (d : kvmap) (k key : bytes) : length key = 32 -> k <> SALT_KEY ->
  storage_get P conv d k key = Panic -> spoiled d.
Proof.
  intros Hl Hk. unfold storage_get, io_get. destruct (d !! k) as [v|] eqn:E; cbn [ok_or bind]; [|discriminate].
  destruct (decrypt_data P v key) as [m|e|] eqn:D; cbn [bind]; [intros H; destruct (from_slice_total _ _ _ H)|discriminate|].
  intros _. exists k, v. split; [exact Hk|]. split; [exact E|]. apply decrypt_panic in D; [exact D|exact Hl].
Qed.
Lemma alias_spoiled (d : kvmap) x h key : length key = 32 -> storage_get_alias P d x h key = Panic -> spoiled d.
Proof.
  intros Hl. unfold storage_get_alias, get_site.
  destruct (storage_get P site_of_json d (get_site_key P x h) key) as [z|e|] eqn:E; cbn [map_err bind]; [|discriminate|].
  - intros H. destruct (ok_or_total _ _ H).
  - intros _. apply (get_spoiled site_of_json d (get_site_key P x h) key Hl); [apply site_key_not_reserved|exact E].
Qed.
Lemma resolve_spoiled (d : kvmap) x h key : length key = 32 -> resolve_site P d x h key = Panic -> spoiled d.
Proof.
  intros Hl. unfold resolve_site. destruct (storage_get_alias P d (normalize_site x) h key) as [y|e|] eqn:E; try discriminate.
  intros _. exact (alias_spoiled _ _ _ _ Hl E).
Qed.
Lemma password_spoiled (d : kvmap) i h key : length key = 32 -> get_password P d i h key = Panic -> spoiled d.
Proof. intros Hl. apply get_spoiled; [exact Hl|apply password_key_not_reserved]. Qed.

Lemma filter_map_panic {A B} (f : A -> res (option B)) l : filter_map f l = Panic -> exists x, In x l /\ f x = Panic.
Proof.
  induction l as [|x l IH]; cbn; [discriminate|]. destruct (f x) as [o|e|] eqn:E; cbn [bind]; [|discriminate|intros _; exists x; auto].
  destruct (filter_map f l) as [r|e|]; cbn [bind]; [discriminate..|]. intros _. destruct (IH eq_refl) as (y & Hy & Ey). exists y. auto.
Qed.
Lemma find_map_panic {A B} (f : A -> res (option B)) l : find_map f l = Panic -> exists x, In x l /\ f x = Panic.
Proof.
  induction l as [|x l IH]; cbn; [discriminate|]. destruct (f x) as [[y|]|e|] eqn:E; cbn [bind]; [discriminate| |discriminate|intros _; exists x; auto].
  intros H. destruct (IH H) as (y & Hy & Ey). exists y. auto.
Qed.
Lemma res_ok_panic {A} (r : res A) : res_ok r = Panic -> r = Panic.
Proof. destruct r; cbn; congruence. Qed.
Lemma prefix_not_salt p k : starts_with (STORAGE_PREFIX ++ p) k = true -> k <> SALT_KEY.
Proof. intros H. apply starts_with_spec in H. destruct H as (r & ->). discriminate. Qed.
Lemma password_item_spoiled (d : kvmap) x h key k : length key = 32 -> password_item P d x h key k = Panic -> spoiled d.
Proof.
  intros Hl. unfold password_item. destruct (starts_with (get_site_prefix P x h) k) eqn:E; [|discriminate].
  intros H. apply res_ok_panic in H. apply (get_spoiled password_of_json d k key Hl); [|exact H].
  unfold get_site_prefix, get_site_key in E. rewrite <- app_assoc in E. exact (prefix_not_salt _ _ E).
Qed.
Lemma site_item_spoiled (d : kvmap) key k : length key = 32 -> site_item P d key k = Panic -> spoiled d.
Proof.
  intros Hl. unfold site_item. destruct (starts_with STORAGE_PREFIX k) eqn:E; [|discriminate]. cbn [andb].
  destruct (negb _); [|discriminate]. intros H. apply res_ok_panic in H. apply (get_spoiled site_of_json d k key Hl); [|exact H].
  apply (prefix_not_salt []). rewrite app_nil_r. exact E.
Qed.
Lemma list_spoiled s x h key : length key = 32 -> list_passwords P s x h key = Panic -> spoiled (s_data s).
Proof. intros Hl H. apply filter_map_panic in H. destruct H as (k & _ & E). exact (password_item_spoiled _ _ _ _ _ Hl E). Qed.
Lemma any_spoiled s x h key : length key = 32 -> any_password P s x h key = Panic -> spoiled (s_data s).
Proof.
  intros Hl. unfold any_password. destruct (find_map _ _) as [o|e|] eqn:E; cbn [bind]; [discriminate..|]. intros _.
  apply find_map_panic in E. destruct E as (k & _ & E). exact (password_item_spoiled _ _ _ _ _ Hl E).
Qed.
Lemma sites_spoiled s key : length key = 32 -> storage_list_sites P s key = Panic -> spoiled (s_data s).
Proof. intros Hl H. apply filter_map_panic in H. destruct H as (k & _ & E). exact (site_item_spoiled _ _ _ Hl E). Qed.
Lemma hmac_spoiled (d : kvmap) key : length key = 32 -> get_hmac_secret P d key = Panic -> spoiled d.
Proof.
  intros Hl. unfold get_hmac_secret. destruct (d !! HMAC_SECRET_KEY) as [v|] eqn:E; cbn [ok_or bind]; [|discriminate].
  destruct (decrypt_data P v key) as [m|e|] eqn:D; cbn [bind]; [|discriminate|].
  - destruct (from_slice _ as_str m) as [x|e|] eqn:F; cbn [bind]; [|discriminate|destruct (from_slice_total _ _ _ F)].
    intros H. destruct (ok_or_total _ _ H).
  - intros _. exists HMAC_SECRET_KEY, v. split; [discriminate|]. split; [exact E|]. apply decrypt_panic in D; [exact D|exact Hl].
Qed.

(** What panics keeps the state, mostly. *)
Lemma as_out_panic {A} (f : A -> out) r : (forall a, f a <> OPanic) -> fst (as_out f r) = OPanic -> fst r = Panic.
Proof. unfold as_out. cbn [fst]. intros H. destruct (fst r) as [a|e|]; [intros E; destruct (H a E)|discriminate|reflexivity]. Qed.

Lemma bind_panic {A B} (m : M A) (f : A -> M B) s : fst (bindM m f s) = Panic ->
  fst (m s) = Panic \/ exists a, fst (m s) = Ok a /\ fst (f a (snd (m s))) = Panic.
Proof. unfold bindM. destruct (m s) as [[a|e|] s1]; cbn [fst snd]; [right; exists a; auto|discriminate|left; reflexivity]. Qed.
Lemma flush_no_panic s : fst (flush P s) <> Panic.
Proof. apply flush_facts. Qed.
Lemma remove_no_panic k s : fst (io_remove k s) <> Panic.
Proof. unfold io_remove. destruct (s_data s !! k); discriminate. Qed.
Lemma encrypted_no_panic k m key s : length key = 32 -> fst (set_encrypted P k m key s) <> Panic.
Proof. intros Hl. unfold set_encrypted. rewrite encrypt_sealed by exact Hl. discriminate. Qed.
Lemma ensure_panic x h key s : length key = 32 -> fst (ensure_site_data P x h key s) = Panic -> spoiled (s_data s).
Proof.
  intros Hl. unfold ensure_site_data. destruct (storage_get _ _ _ _ _) as [z|e|] eqn:E; [discriminate| |].
  - intros H. destruct (encrypted_no_panic _ _ _ _ Hl H).
  - intros _. apply (get_spoiled site_of_json (s_data s) (get_site_key P x h) key Hl); [apply site_key_not_reserved|exact E].
Qed.
Lemma loop_no_panic l h s : fst (remove_sites_loop P l h s) <> Panic.
Proof.
  revert s. induction l as [|x l IH]; intros s; [discriminate|]. cbn [remove_sites_loop]. intros H. apply bind_panic in H.
  destruct H as [H|(a & _ & H)]; [exact (remove_no_panic _ _ H)|exact (IH _ H)].
Qed.

Lemma good_key s k : good_secrets s -> s_key s = Some k -> length k = 32.
Proof. intros G E. destruct (unlocked_of s k G E) as (_ & _ & _ & H). exact H. Qed.

(** Reading a field of the state. *)
Ltac fields H G := 
  repeat (apply bind_panic in H; destruct H as [H|(? & ? & H)]; cbn [reads lift fst snd] in *;
    [try (exfalso; first [exact (ok_or_total _ _ H)|discriminate H])|]).

Lemma spoiled_reason s o : spoiled (s_data s) -> reason P s o.
Proof. intros (k & v & H1 & H2 & H3). exact (bad_nonce P s o k v H1 H2 H3). Qed.

Lemma panic_reason o s : good_secrets s -> fst (exec P o s) = OPanic -> reason P s o.
Proof.
  intros G H.
  assert (forall k, s_key s = Some k -> length k = 32) as Hl by (intros k; apply good_key, G).
  assert (forall e k, ok_or (s_key s) e = Ok k -> length k = 32) as Hlo by (intros e k E; apply ok_or_some in E; auto).
  destruct o; cbn [exec] in H; try discriminate H;
    try (apply as_out_panic in H; [|intros ?; discriminate]).
  - (* reset *)
    exfalso. rewrite (reset_eq P pp s HP) in H. apply bind_panic in H. destruct H as [H|(a & _ & H)]; [exact (flush_no_panic _ H)|discriminate H].
  - (* unlock *)
    unfold unlock in H. fields H G.
    + unfold get_salt in H. destruct (ok_or _ _) as [x|e|] eqn:E in H; cbn [bind] in H; [destruct (ok_or_total _ _ H)|discriminate|destruct (ok_or_total _ _ E)].
    + rewrite get_encryption_key_eq in H1. injection H1 as <-. apply spoiled_reason.
      exact (hmac_spoiled _ _ (ok_scrypt_len P HP _ _ _) H).
    + discriminate H.
  - (* get_alias *)
    unfold get_alias, the_hmac, the_key in H. fields H G. apply spoiled_reason. exact (alias_spoiled _ _ _ _ (Hlo _ _ H1) H).
  - (* set_alias *)
    unfold set_alias, the_hmac, the_key in H. fields H G; try (apply spoiled_reason).
    + exact (resolve_spoiled _ _ _ _ (Hlo _ _ H1) H).
    + exact (any_spoiled _ _ _ _ (Hlo _ _ H1) H).
    + exfalso. destruct x2; [discriminate H|]. fields H G.
      * unfold storage_set_alias in H. destruct (bytes_eqb _ _); [discriminate H|]. exact (encrypted_no_panic _ _ _ _ (Hlo _ _ H1) H).
      * exact (flush_no_panic _ H).
  - (* remove_alias *)
    unfold remove_alias, the_hmac, the_key, storage_remove_alias in H. fields H G.
    + destruct (storage_get P site_of_json (s_data s) (get_site_key P (normalize_site s0) x) x0) as [z|e|] eqn:E; cbn [map_err] in H; try discriminate H.
      apply spoiled_reason. exact (get_spoiled _ _ _ _ (Hlo _ _ H1) (proj1 (site_key_not_reserved _ _ _)) E).
    + exfalso. destruct (site_alias x1); [exact (remove_no_panic _ _ H)|discriminate H].
    + exfalso. exact (flush_no_panic _ H).
  - (* remove_sites *)
    exfalso. unfold remove_sites in H. destruct l; [discriminate H|]. unfold the_hmac in H. fields H G; [exact (remove_no_panic _ _ H)|exact (loop_no_panic _ _ _ H)|exact (flush_no_panic _ H)].
  - (* set_generated *)
    unfold set_generated, the_hmac, the_key in H. fields H G; try (apply spoiled_reason).
    + exact (resolve_spoiled _ _ _ _ (Hlo _ _ H1) H).
    + exact (ensure_panic _ _ _ _ (Hlo _ _ H1) H).
    + exfalso. exact (encrypted_no_panic _ _ _ _ (Hlo _ _ H1) H).
    + exfalso. exact (flush_no_panic _ H).
  - (* set_stored *)
    unfold set_stored, the_hmac, the_key in H. fields H G; try (apply spoiled_reason).
    + exact (resolve_spoiled _ _ _ _ (Hlo _ _ H1) H).
    + exact (ensure_panic _ _ _ _ (Hlo _ _ H1) H).
    + exfalso. exact (encrypted_no_panic _ _ _ _ (Hlo _ _ H1) H).
    + exfalso. exact (flush_no_panic _ H).
  - (* has *)
    unfold has, the_hmac, the_key in H. fields H G; [|discriminate H]. apply spoiled_reason. exact (resolve_spoiled _ _ _ _ (Hlo _ _ H1) H).
  - (* get *)
    unfold get, the_hmac, the_key, the_primary in H. fields H G.
    + apply spoiled_reason. exact (resolve_spoiled _ _ _ _ (Hlo _ _ H1) H).
    + apply spoiled_reason. exact (password_spoiled _ _ _ _ (Hlo _ _ H1) H).
    + apply ok_or_some in H1. unfold get_password in H4. destruct (storage_get_inv P _ _ _ _ _ H4) as (c & m & E1 & E2 & E3).
      destruct x3 as [g|g]; [|discriminate H]. cbn [password_value] in H. apply (derive_password_panic P _ _ _ _ HP) in H.
      apply (bad_entry P s _ _ _ x0 (gp_length g) (gp_charset g) H1); [exists (get_password_key P (password_id_new x2 n r) x), c, m, g; auto|].
      intros [? ?]. destruct H as [H|[H|H]]; [lia|contradiction|lia].
  - (* get_notes *)
    unfold get_notes, the_hmac, the_key in H. fields H G; try (apply spoiled_reason).
    + exact (resolve_spoiled _ _ _ _ (Hlo _ _ H1) H).
    + exact (password_spoiled _ _ _ _ (Hlo _ _ H1) H).
    + discriminate H.
  - (* set_notes *)
    unfold set_notes, the_hmac, the_key in H. fields H G; try (apply spoiled_reason).
    + exact (resolve_spoiled _ _ _ _ (Hlo _ _ H1) H).
    + exact (password_spoiled _ _ _ _ (Hlo _ _ H1) H).
    + exfalso. exact (encrypted_no_panic _ _ _ _ (Hlo _ _ H1) H).
    + exfalso. exact (flush_no_panic _ H).
  - (* remove *)
    unfold remove, the_hmac, the_key in H. fields H G.
    + apply spoiled_reason. exact (resolve_spoiled _ _ _ _ (Hlo _ _ H1) H).
    + exfalso. exact (remove_no_panic _ _ H).
    + exfalso. exact (flush_no_panic _ H).
  - (* list *)
    destruct G as [Hlk|(k & h & p & Hu & Hk)]; [apply lists_locked; [reflexivity|exact Hlk]|].
    unfold list_, reads, unlocked in H. cbn [fst] in H. rewrite (hs_key s k h p Hu), (hs_hmac s k h p Hu) in H. cbn [negb unwrap bind] in H.
    apply spoiled_reason. destruct (resolve_site P (s_data s) s0 h k) as [y|e|] eqn:E; cbn [bind] in H; [|discriminate|exact (resolve_spoiled _ _ _ _ Hk E)].
    destruct (list_passwords P s y h k) as [l|e|] eqn:E2; cbn [bind] in H; [discriminate..|exact (list_spoiled _ _ _ _ Hk E2)].
  - (* list_sites *)
    destruct G as [Hlk|(k & h & p & Hu & Hk)]; [apply lists_locked; [reflexivity|exact Hlk]|].
    unfold list_sites, reads, unlocked in H. cbn [fst] in H. rewrite (hs_key s k h p Hu) in H. cbn [negb unwrap bind] in H.
    apply spoiled_reason. destruct (storage_list_sites P s k) as [l|e|] eqn:E2; cbn [bind] in H; [discriminate..|exact (sites_spoiled _ _ Hk E2)].
  - (* recovery code *)
    destruct (p_overflow_checks P) eqn:Eo; [apply overflow_encode; exact Eo|exfalso].
    unfold get_recovery_code, the_key in H. fields H G.
    + unfold get_salt in H. destruct (ok_or _ _) as [x|e|] eqn:E in H; cbn [bind] in H; [destruct (ok_or_total _ _ H)|discriminate|destruct (ok_or_total _ _ E)].
    + exact (generate_no_panic P _ _ _ _ HP (Hlo _ _ H1) Eo H).
  - (* decode *)
    destruct (p_overflow_checks P) eqn:Eo; [apply overflow_decode; exact Eo|exfalso].
    unfold decode_recovery_code, the_primary in H. fields H G. exact (decode_no_panic P _ _ HP Eo H).
Qed.
End reasons.

(** * Data that does no harm stays like that *)

Section harmless.
Context (P : prims) (HP : prims_ok P) (key : bytes).

Lemma unharmed_good s : unharmed P key s -> good_secrets s.
Proof. intros (Hl & [H|(h & pp & H)] & _); [left; exact H|right; exists key, h, pp; auto]. Qed.

Lemma unharmed_calm o s : p_overflow_checks P = false -> unharmed P key s -> careful o s -> fst (exec P o s) <> OPanic.
Proof.
  intros Ho Hs (_ & _ & Hlist & _) E. apply (panic_reason P HP o s (unharmed_good s Hs)) in E.
  destruct Hs as (Hl & Hsec & _ & (H1 & _ & H3) & _).
  destruct E as [o H L|o k v Hk Hv Hw|x n r k len cs Hk Hg Hu|c Hc|x n r t Hc]; [| | |congruence..].
  - specialize (Hlist H). unfold unlocked in Hlist. destruct L as (L & _). rewrite L in Hlist. discriminate Hlist.
  - exact (H1 k v Hk Hv Hw).
  - destruct Hsec as [(L & _)|(h & pp & Hsec)]; [congruence|]. unfold unlocked_with, secrets in Hsec.
    assert (k = key) as -> by congruence. exact (Hu (H3 len cs Hg)).
Qed.

Lemma harmless_empty : harmless P key ∅.
Proof.
  split; [|split].
  - intros k v _ H. rewrite lookup_empty in H. discriminate.
  - intros pp salt k h H. unfold get_salt in H. rewrite lookup_empty in H. discriminate.
  - intros len cs (k & v & m & g & H & _). rewrite lookup_empty in H. discriminate.
Qed.

Lemma sealed_not_wrong k rnd m : length k = 32 -> ~ wrong_nonce (sealed P k rnd m).
Proof.
  intros Hl H. assert (decrypt_data P (sealed P k rnd m) k = Panic) as E by (apply decrypt_panic; assumption).
  rewrite decrypt_sealed in E by assumption. discriminate E.
Qed.

Lemma usable_source s o m g : source P s o key m -> from_slice (p_float_ok P) password_of_json m = Ok (Generated g) ->
  match o with SetGenerated _ _ _ len cs => usable len cs | _ => True end ->
  (forall len cs, generated_entry P key (s_data s) len cs -> usable len cs) -> usable (gp_length g) (gp_charset g).
Proof.
  intros [t Ht|x a _ Hz _|i e _ Hp Hs _|slot c m0 i e y n r t _ _ -> H1 H2 H3 Hp] E Ho Hd.
  - destruct (string_not_password _ _ _ Ht E).
  - destruct (site_not_password _ _ _ Hz E).
  - rewrite password_roundtrip in E by exact Hp. destruct i as [[? ?] ?], e as [[len cs|pw] notes]; [|discriminate E].
    injection E as <-. cbn in *. destruct o; try contradiction; destruct Hs as [_ Hs]; [|discriminate Hs].
    injection Hs as -> ->. exact Ho.
  - rewrite password_roundtrip in E by exact Hp. destruct i as [[? ?] ?], e as [[len cs|pw] notes]; [|discriminate E].
    injection E as <-. cbn. apply Hd. exists slot, c, m0. eexists. split; [exact H1|]. split; [exact H2|]. split; [exact H3|split; reflexivity].
Qed.

Lemma harmless_step o s : unharmed P key s -> op_valid o -> is_reset o = false ->
  match o with SetGenerated _ _ _ len cs => usable len cs | _ => True end -> harmless P key (s_data (snd (exec P o s))).
Proof.
  intros Hs Hv Hr Ho. pose proof (unharmed_good s Hs) as G. destruct Hs as (Hl & Hsec & Ht & Hh & Hd).
  destruct (modifies o) eqn:Em.
  - destruct (exec_secrets P o s HP (good_whole s G)) as [_ Esec]. specialize (Esec Em Hr).
    assert (forall slot v, s_data (snd (exec P o s)) !! slot = Some v ->
      s_data s !! slot = Some v \/ s_key s = Some key /\ exists rnd m, v = sealed P key rnd m) as Hch.
    { intros slot v H. assert (forall k, s_key s = Some k -> k = key) as Hk.
      { intros k Ek. destruct Hsec as [(L & _)|(h & pp & Hsec)]; [congruence|]. unfold unlocked_with, secrets in Hsec. congruence. }
      assert (s_data s !! slot = Some v \/ exists k rnd m, s_key s = Some k /\ v = sealed P k rnd m) as [H'|(k & rnd & m & Ek & ->)].
      { destruct (exec_shaped P o s Em Hr) as [[(_ & _ & _ & _ & _ & C) _]|(s1 & (_ & _ & _ & _ & _ & C) & E)].
        - destruct (C slot v H) as [H'|[_ H']]; auto.
        - rewrite E, done_out_snd in H. destruct (flush_facts P s1) as (F & _). rewrite F in H.
          destruct (C slot v H) as [H'|[_ H']]; auto. }
      - left. exact H'.
      - right. pose proof (Hk k Ek) as ->. split; [exact Ek|eauto]. }
    destruct Hh as (H1 & H2 & H3). split; [|split].
    + intros k v Hk Hkv. destruct (Hch k v Hkv) as [H'|(_ & rnd & m & ->)]; [exact (H1 k v Hk H')|apply sealed_not_wrong, Hl].
    + intros pp salt k h. unfold get_salt, get_hmac_secret.
      rewrite (exec_frame P o s SALT_KEY Em Hr), (exec_frame P o s HMAC_SECRET_KEY Em Hr);
        [exact (H2 pp salt k h)|intros T; apply touched_not_reserved in T; destruct T; contradiction..].
    + intros len cs (k & v & m & g & E1 & E2 & E3 & <- & <-).
      destruct (option_eq_dec (s_data s !! k) (Some v)) as [E|E]; [apply H3; exists k, v, m, g; auto|].
      destruct (Hch k v E1) as [H'|(Ek & _)]; [contradiction|].
      apply (usable_source s o m g); [|exact E3|exact Ho|exact H3].
      apply (puts_source P o s key v m HP G Hv); [|exact E2]. split; [unfold secrets in Esec; congruence|].
      split; [congruence|]. exists k. auto.
  - destruct (reading o) eqn:Er.
    + destruct (exec_reading P o s Er) as ((-> & _) & _). exact Hh.
    + destruct o; try discriminate Em; try discriminate Er; try discriminate Hr; [|exact Hh| |destruct l; discriminate].
      * destruct (unlock_cases P pp s) as [(_ & k & x & _ & -> & _)|[_ ->]]; exact Hh.
      * cbn [exec snd passwords_new s_data]. destruct (load P (s_disk s)) as [d|e|] eqn:E; [apply Hd; reflexivity|apply harmless_empty..].
Qed.

Lemma unlock_secrets pp s : unharmed P key s -> locked (snd (exec P (Unlock pp) s)) \/ exists h p, unlocked_with (snd (exec P (Unlock pp) s)) key h p.
Proof.
  intros (Hl & Hsec & _ & (_ & H2 & _) & _).
  assert (exists d, d = s_data s) as [d Ed] by eauto. rewrite <- Ed in H2.
  destruct (unlock_cases P pp s) as [(Hok & k & h & E & _)|[_ ->]]; [|exact Hsec]. right. exists h, pp.
  assert (k = key) as ->; [|exact E]. revert Hok E. cbn [exec]. rewrite as_out_snd. unfold unlock, bindM, reads, lift. rewrite <- Ed.
  destruct (get_salt d) as [salt|e|] eqn:Es; [|discriminate..].
  destruct (get_encryption_key P pp salt) as [key'|e|] eqn:Ek; [|discriminate..].
  destruct (get_hmac_secret P d key') as [x|e|] eqn:Eh; [|discriminate..].
  unfold secrets. cbn. intros _ [= -> _]. exact (H2 pp salt k x eq_refl Ek Eh).
Qed.

Lemma unharmed_step o s : unharmed P key s -> op_valid o -> is_reset o = false ->
  match o with SetGenerated _ _ _ len cs => usable len cs | _ => True end -> unharmed P key (snd (exec P o s)).
Proof.
  intros Hs Hv Hr Ho. pose proof (harmless_step o s Hs Hv Hr Ho) as Hh. pose proof (unharmed_good s Hs) as G.
  destruct (exec_disk P o s HP) as (Hdisk & Htexts & _).
  split; [apply Hs|]. split; [|split; [|split; [exact Hh|]]].
  - destruct (modifies o) eqn:Em.
    + destruct (exec_secrets P o s HP (good_whole s G)) as [_ E]. specialize (E Em Hr).
      destruct Hs as (_ & [L|(h & pp & Hu)] & _).
      * left. unfold locked, secrets in *. injection E as -> -> ->. exact L.
      * right. exists h, pp. unfold unlocked_with in *. congruence.
    + destruct (reading o) eqn:Er.
      * destruct (exec_reading P o s Er) as ((_ & E & _) & _). destruct Hs as (_ & [L|(h & pp & Hu)] & _).
        -- left. unfold locked, secrets in *. injection E as -> -> ->. exact L.
        -- right. exists h, pp. unfold unlocked_with in *. congruence.
      * destruct o; try discriminate Em; try discriminate Er; try discriminate Hr;
          [apply unlock_secrets, Hs|left; repeat split|left; repeat split|destruct l; discriminate].
  - apply Htexts, Hs.
  - intros d Hd. destruct Hdisk as [E|(_ & p & q & Epq & E)]; rewrite E in Hd.
    + apply Hs, Hd.
    + assert (texts (s_data (snd (exec P o s)))) as Ht by apply Htexts, Hs. destruct q as [|c q].
      * rewrite app_nil_r in Epq. subst p. rewrite (load_flush P _ HP Ht) in Hd. injection Hd as <-. exact Hh.
      * destruct (load_prefix P _ p (c :: q) Ht Epq) as [H|H]; [discriminate|congruence..].
Qed.

Lemma careful_unharmed o s : unharmed P key s -> careful o s -> unharmed P key (snd (exec P o s)).
Proof. intros Hs (H1 & H2 & _ & H3). exact (unharmed_step o s Hs H1 H2 H3). Qed.
End harmless.
