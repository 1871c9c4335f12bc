(** What is printed if only secrets differ: proofs. *)
From stdpp Require Import gmap.
From Verif Require Import M_Base M_Base64 M_Utf8 M_Prims M_Types M_Crypto M_Recovery M_Json M_Serde M_Storage M_Passwords M_Cli.
From Verif Require Import S_Json S_Vault S_History S_Serde S_Cli S_Screen P_Base P_Base64 P_Crypto P_Serde P_Storage P_CliUnlock.

Section screen.
Context (P : prims) (Hord : order_of_slots P) (notes : bool) (T : bytes -> Prop) (d0 : kvmap) (sp : bool).

Definition W (key : bytes) : Prop := accepted_key P d0 T key.

Record twin (s s' : st) : Prop := {
  tw_key : s_key s = s_key s';
  tw_hmac : s_hmac s = s_hmac s';
  tw_primary : s_primary s = s_primary s';
  tw_tick : s_tick s = s_tick s';
  tw_flushes : s_flushes s = s_flushes s';
  tw_rand : s_rand s = s_rand s';
  tw_open : forall key, s_key s = Some key -> W key;
  tw_salt : s_data s !! SALT_KEY = d0 !! SALT_KEY;
  tw_secret : s_data s !! HMAC_SECRET_KEY = d0 !! HMAC_SECRET_KEY;
  tw_data : alike_data P notes T (s_data s) (s_data s')
}.

Definition res_rel {A} (RA : A -> A -> Prop) (r r' : res A) : Prop :=
  match r, r' with
  | Ok a, Ok a' => RA a a'
  | Err e, Err e' => e = e'
  | Panic, Panic => True
  | _, _ => False
  end.
Definition relM {A} (RA : A -> A -> Prop) (m m' : M A) : Prop :=
  forall s s', twin s s' -> res_rel RA (fst (m s)) (fst (m' s')) /\ twin (snd (m s)) (snd (m' s')).

Lemma res_rel_eq {A} (r r' : res A) : r = r' -> res_rel eq r r'.
Proof. intros <-. destruct r; reflexivity. Qed.

Lemma relM_bind {A B} (RA : A -> A -> Prop) (RB : B -> B -> Prop) m m' f f' :
  relM RA m m' -> (forall a a', RA a a' -> relM RB (f a) (f' a')) -> relM RB (bindM m f) (bindM m' f').
Proof.
  intros H Hf s s' Hs. specialize (H s s' Hs). unfold bindM. destruct (m s) as [r u], (m' s') as [r' u']. cbn [fst snd] in H.
  destruct H as [Hr Hu]. destruct r, r'; cbn in Hr; try contradiction.
  - apply (Hf _ _ Hr u u' Hu).
  - subst. split; [reflexivity|exact Hu].
  - split; [exact I|exact Hu].
Qed.
Lemma relM_ret {A} (RA : A -> A -> Prop) a a' : RA a a' -> relM RA (ret a) (ret a').
Proof. intros H s s' Hs. split; [exact H|exact Hs]. Qed.
Lemma relM_lift {A} (r : res A) : relM eq (lift r) (lift r).
Proof. intros s s' Hs. split; [apply res_rel_eq; reflexivity|exact Hs]. Qed.
Lemma relM_reads {A} (RA : A -> A -> Prop) f : (forall s s', twin s s' -> res_rel RA (f s) (f s')) -> relM RA (reads f) (reads f).
Proof. intros H s s' Hs. split; [apply H, Hs|exact Hs]. Qed.
Lemma relM_fail {A} (RA : A -> A -> Prop) e : relM RA (lift (Err e)) (lift (Err e)).
Proof. intros s s' Hs. split; [reflexivity|exact Hs]. Qed.

Definition good (a a' : bytes) : Prop := a = a' /\ W a.

Lemma rel_hmac : relM eq the_hmac the_hmac.
Proof. apply relM_reads. intros s s' Hs. rewrite (tw_hmac _ _ Hs). apply res_rel_eq. reflexivity. Qed.
Lemma rel_key : relM good the_key the_key.
Proof.
  apply relM_reads. intros s s' Hs. rewrite <- (tw_key _ _ Hs). pose proof (tw_open _ _ Hs) as H.
  destruct (s_key s) as [k|]; cbn; [split; [reflexivity|apply H; reflexivity]|reflexivity].
Qed.
Lemma rel_primary : relM eq the_primary the_primary.
Proof. apply relM_reads. intros s s' Hs. rewrite (tw_primary _ _ Hs). apply res_rel_eq. reflexivity. Qed.

(** * Reading *)

Lemma tried_same (d e : kvmap) key : d !! SALT_KEY = e !! SALT_KEY -> tried_key P d T key -> tried_key P e T key.
Proof. intros E (pp & salt & H1 & H2 & H3). exists pp, salt. unfold get_salt in *. rewrite <- E. auto. Qed.
Lemma accepted_same (d e : kvmap) key : d !! SALT_KEY = e !! SALT_KEY -> d !! HMAC_SECRET_KEY = e !! HMAC_SECRET_KEY ->
  accepted_key P d T key -> accepted_key P e T key.
Proof.
  intros E1 E2 [H1 [x H2]]. split; [eapply tried_same; eassumption|]. exists x. unfold get_hmac_secret in *. rewrite <- E2. exact H2.
Qed.

Lemma site_key_other h x : ~ password_slot (get_site_key P x h).
Proof.
  intros (a & b & H). unfold get_site_key in H. apply (app_inv_head (bs "site:")) in H.
  apply (digest_no P h x ":"%byte); [auto|]. rewrite H. apply in_or_app. right. left. reflexivity.
Qed.
Lemma password_key_slot h i : password_slot (get_password_key P i h).
Proof.
  unfold get_password_key, get_site_prefix, get_site_key. rewrite <- ?app_assoc. eexists _, _. reflexivity.
Qed.
Lemma prefix_slot x h slot : starts_with (get_site_prefix P x h) slot = true -> password_slot slot.
Proof.
  intros H. apply starts_with_spec in H. destruct H as [b ->]. unfold get_site_prefix, get_site_key.
  rewrite <- ?app_assoc. eexists _, _. reflexivity.
Qed.

Section data.
Context (s s' : st) (Hs : twin s s').

Let Hd := tw_data _ _ Hs.
Lemma twin_W key : W key -> accepted_key P (s_data s) T key.
Proof. apply accepted_same; symmetry; apply Hs. Qed.

Lemma same_salt : get_salt (s_data s) = get_salt (s_data s').
Proof. unfold get_salt. change SALT_KEY with (bs "salt"). rewrite (al_salt _ _ _ _ _ Hd). reflexivity. Qed.
Lemma alike_some slot : match s_data s !! slot, s_data s' !! slot with Some _, Some _ => True | None, None => True | _, _ => False end.
Proof.
  pose proof (al_slots _ _ _ _ _ Hd slot) as H. destruct (s_data s !! slot) as [c|], (s_data s' !! slot) as [c'|]; try exact I.
  - assert (Some c = None) by (apply H; reflexivity). discriminate.
  - assert (Some c' = None) by (apply H; reflexivity). discriminate.
Qed.
Lemma same_get {A} (conv : json -> option A) slot key : W key -> ~ password_slot slot ->
  storage_get P conv (s_data s) slot key = storage_get P conv (s_data s') slot key.
Proof.
  intros Hk H. unfold storage_get, io_get. pose proof (alike_some slot) as Ho. pose proof (al_site _ _ _ _ _ Hd key slot) as Hv.
  destruct (s_data s !! slot) as [c|], (s_data s' !! slot) as [c'|]; try contradiction; [|reflexivity]. cbn [ok_or bind].
  destruct (Hv c c' (twin_W _ Hk) H eq_refl eq_refl) as [<-|(x & -> & ->)]; reflexivity.
Qed.
Lemma same_alias x h key : W key -> storage_get_alias P (s_data s) x h key = storage_get_alias P (s_data s') x h key.
Proof. intros Hk. unfold storage_get_alias, get_site. rewrite same_get by (exact Hk || apply site_key_other). reflexivity. Qed.
Lemma same_resolved x h key : W key -> resolve_site P (s_data s) x h key = resolve_site P (s_data s') x h key.
Proof. intros Hk. unfold resolve_site. rewrite same_alias by exact Hk. reflexivity. Qed.
Lemma same_contains slot : io_contains (s_data s) slot = io_contains (s_data s') slot.
Proof.
  unfold io_contains. pose proof (alike_some slot) as Ho.
  destruct (s_data s !! slot), (s_data s' !! slot); try contradiction; reflexivity.
Qed.

(** A password, read with a key in question. *)
Lemma alike_get slot key : W key -> password_slot slot ->
  res_rel (alike_records notes) (storage_get P password_of_json (s_data s) slot key) (storage_get P password_of_json (s_data s') slot key).
Proof.
  intros Hk H. unfold storage_get, io_get. pose proof (alike_some slot) as Ho. pose proof (al_password _ _ _ _ _ Hd key slot) as Hv.
  destruct (s_data s !! slot) as [c|], (s_data s' !! slot) as [c'|]; try contradiction; [|reflexivity]. cbn [ok_or bind].
  destruct (Hv c c' (twin_W _ Hk) H eq_refl eq_refl) as [<-|(p & q & (x & E1 & E2) & (y & E3 & E4) & Hpq)].
  - destruct (decrypt_data P c key) as [x| |]; cbn [bind]; [|reflexivity|exact I].
    destruct (from_slice _ _ x) as [p| |]; cbn; [|reflexivity|exact I]. destruct p; cbn; auto.
  - rewrite E1, E3. cbn [bind]. rewrite E2, E4. exact Hpq.
Qed.
End data.

Lemma filter_map_rel {A B} (RB : B -> B -> Prop) (f f' : A -> res (option B)) l :
  (forall x, res_rel (fun a b => match a, b with Some u, Some v => RB u v | None, None => True | _, _ => False end) (f x) (f' x)) ->
  res_rel (Forall2 RB) (filter_map f l) (filter_map f' l).
Proof.
  intros H. induction l as [|x l IH]; [constructor|]. cbn [filter_map]. specialize (H x).
  destruct (f x) as [o| |], (f' x) as [o'| |]; cbn in H; try contradiction; cbn [bind]; [|exact H|exact I].
  destruct (filter_map f l) as [r| |], (filter_map f' l) as [r'| |]; cbn in IH; try contradiction; cbn; [|exact IH|exact I].
  destruct o, o'; try contradiction; [constructor; assumption|exact IH].
Qed.
Lemma find_map_rel {A B} (RB : B -> B -> Prop) (f f' : A -> res (option B)) l :
  (forall x, res_rel (fun a b => match a, b with Some u, Some v => RB u v | None, None => True | _, _ => False end) (f x) (f' x)) ->
  res_rel (fun a b => match a, b with Some u, Some v => RB u v | None, None => True | _, _ => False end) (find_map f l) (find_map f' l).
Proof.
  intros H. induction l as [|x l IH]; [exact I|]. cbn [find_map]. specialize (H x).
  destruct (f x) as [o| |], (f' x) as [o'| |]; cbn in H; try contradiction; cbn [bind]; [|exact H|exact I].
  destruct o, o'; try contradiction; [exact H|exact IH].
Qed.

Lemma same_order s s' : twin s s' -> io_keys P s = io_keys P s'.
Proof. intros Hs. unfold io_keys. rewrite (tw_tick _ _ Hs). apply Hord, (al_slots _ _ _ _ _ (tw_data _ _ Hs)). Qed.

Lemma item_rel s s' x h key slot : twin s s' -> W key ->
  res_rel (fun a b => match a, b with Some u, Some v => alike_records notes u v | None, None => True | _, _ => False end)
    (password_item P (s_data s) x h key slot) (password_item P (s_data s') x h key slot).
Proof.
  intros Hs Hk. unfold password_item. destruct (starts_with _ slot) eqn:Es; [|exact I].
  pose proof (alike_get _ _ Hs slot key Hk (prefix_slot _ _ _ Es)) as H.
  destruct (storage_get P password_of_json (s_data s) slot key), (storage_get P password_of_json (s_data s') slot key);
    cbn in H |- *; try contradiction; auto.
Qed.
Lemma listed_rel s s' x h key : twin s s' -> W key ->
  res_rel (Forall2 (alike_records notes)) (list_passwords P s x h key) (list_passwords P s' x h key).
Proof.
  intros Hs Hk. unfold list_passwords. rewrite (same_order _ _ Hs). apply filter_map_rel. intros slot. apply item_rel; assumption.
Qed.
Lemma any_rel s s' x h key : twin s s' -> W key -> res_rel eq (any_password P s x h key) (any_password P s' x h key).
Proof.
  intros Hs Hk. unfold any_password. rewrite (same_order _ _ Hs).
  pose proof (find_map_rel (alike_records notes) _ _ (io_keys P s') (fun slot => item_rel s s' x h key slot Hs Hk)) as H.
  destruct (find_map _ _) as [o| |], (find_map (password_item P (s_data s') _ _ _) _) as [o'| |]; cbn in H; try contradiction; cbn; auto.
  destruct o, o'; try contradiction; reflexivity.
Qed.
Lemma sites_rel s s' key : twin s s' -> W key -> storage_list_sites P s key = storage_list_sites P s' key.
Proof.
  intros Hs Hk. unfold storage_list_sites. rewrite (same_order _ _ Hs).
  assert (forall slot, site_item P (s_data s) key slot = site_item P (s_data s') key slot) as H.
  { intros slot. unfold site_item. destruct (_ && _) eqn:E; [|reflexivity]. apply andb_prop in E. destruct E as [E1 E2].
    rewrite (same_get _ _ Hs); [reflexivity|exact Hk|]. intros (a & b & ->).
    apply negb_true_iff, contains_byte_false in E2. apply E2. change (skipn _ _) with (a ++ ":"%byte :: b).
    apply in_or_app. right. left. reflexivity. }
  induction (io_keys P s') as [|k l IH]; [reflexivity|]. cbn [filter_map]. rewrite H, IH. reflexivity.
Qed.

(** * Changes *)

(** A change of other slots than those for unlocking. *)
Lemma twin_change s s' d d' tick : twin s s' -> d !! SALT_KEY = s_data s !! SALT_KEY -> d !! HMAC_SECRET_KEY = s_data s !! HMAC_SECRET_KEY ->
  d' !! HMAC_SECRET_KEY = s_data s' !! HMAC_SECRET_KEY -> d' !! SALT_KEY = s_data s' !! SALT_KEY ->
  (forall slot, (d !! slot = None <-> d' !! slot = None)) ->
  (forall slot c c', d !! slot = Some c -> d' !! slot = Some c' -> c = c' \/ s_data s !! slot = Some c /\ s_data s' !! slot = Some c') ->
  forall disk disk', twin (mk_st d (s_key s) (s_hmac s) (s_primary s) disk tick (s_flushes s) (s_rand s))
       (mk_st d' (s_key s') (s_hmac s') (s_primary s') disk' tick (s_flushes s') (s_rand s')).
Proof.
  intros [h1 h2 h3 h4 h5 h6 h7 h8 h9 [e1 e2 e3 e4 e5]] H1 H2 H3 H4 H5 H6 disk disk'.
  constructor; cbn [s_key s_hmac s_primary s_tick s_flushes s_rand s_data]; auto; try congruence. constructor.
  - change (bs "salt") with SALT_KEY in *. congruence.
  - intros key Hk. apply (tried_same _ (s_data s)) in Hk; [|exact H1]. specialize (e2 key Hk).
    unfold get_hmac_secret in *. rewrite H2, H3. exact e2.
  - exact H5.
  - intros key slot c c' Hk Hn E E'. apply (accepted_same _ (s_data s)) in Hk; [|assumption|assumption].
    destruct (H6 slot c c' E E') as [Hc|[Ea Eb]]; [left; exact Hc|eauto].
  - intros key slot c c' Hk Hn E E'. apply (accepted_same _ (s_data s)) in Hk; [|assumption|assumption].
    destruct (H6 slot c c' E E') as [Hc|[Ea Eb]]; [left; exact Hc|eauto].
Qed.

Definition ordinary (slot : bytes) : Prop := slot <> SALT_KEY /\ slot <> HMAC_SECRET_KEY.

Lemma rel_insert slot v : ordinary slot -> relM eq (io_set slot v) (io_set slot v).
Proof.
  intros [Hn1 Hn2] s s' Hs. split; [reflexivity|]. unfold io_set, put_data. cbn [snd]. rewrite <- (tw_tick _ _ Hs).
  apply twin_change; [exact Hs|rewrite lookup_insert_ne by congruence; reflexivity..| |].
  - intros x. destruct (decide (x = slot)) as [->|Hne]; [rewrite !lookup_insert; split; discriminate|].
    rewrite !lookup_insert_ne by congruence. apply (al_slots _ _ _ _ _ (tw_data _ _ Hs)).
  - intros x c c'. destruct (decide (x = slot)) as [->|Hne].
    + rewrite !lookup_insert. intros [= <-] [= <-]. left. reflexivity.
    + rewrite !lookup_insert_ne by congruence. auto.
Qed.

Lemma rel_encrypted slot text key : ordinary slot -> relM eq (set_encrypted P slot text key) (set_encrypted P slot text key).
Proof.
  intros Hn s s' Hs. unfold set_encrypted. rewrite <- (tw_rand _ _ Hs).
  destruct (encrypt_data P (s_rand s) text key) as [c| |]; [|split; [reflexivity|exact Hs]|split; [exact I|exact Hs]].
  apply rel_insert; [exact Hn|]. destruct Hs. constructor; cbn; auto.
Qed.

Lemma rel_remove slot : ordinary slot -> relM eq (io_remove slot) (io_remove slot).
Proof.
  intros [Hn1 Hn2] s s' Hs. unfold io_remove. pose proof (alike_some _ _ Hs slot) as H.
  destruct (s_data s !! slot) as [c|] eqn:E, (s_data s' !! slot) as [c'|] eqn:E'; try contradiction; [|split; [reflexivity|exact Hs]].
  split; [reflexivity|]. unfold put_data. cbn [snd]. rewrite <- (tw_tick _ _ Hs).
  apply twin_change; [exact Hs|rewrite lookup_delete_ne by congruence; reflexivity..| |].
  - intros x. destruct (decide (x = slot)) as [->|Hne]; [rewrite !lookup_delete; reflexivity|].
    rewrite !lookup_delete_ne by congruence. apply (al_slots _ _ _ _ _ (tw_data _ _ Hs)).
  - intros x d d'. destruct (decide (x = slot)) as [->|Hne]; [rewrite !lookup_delete; discriminate|].
    rewrite !lookup_delete_ne by congruence. auto.
Qed.

Lemma rel_flush : relM eq (flush P) (flush P).
Proof.
  intros s s' Hs. unfold flush. rewrite <- (tw_flushes _ _ Hs).
  destruct (p_write P (s_flushes s)); (split; [reflexivity|]); cbn [snd]; destruct Hs; constructor; cbn; auto.
Qed.

Lemma rel_secrets key h p : (forall k, key = Some k -> W k) -> relM eq (set_secrets key h p) (set_secrets key h p).
Proof. intros H s s' Hs. split; [reflexivity|]. unfold set_secrets. cbn [snd]. destruct Hs. constructor; cbn; auto. Qed.

(** * Calls *)

Lemma rel_resolve x h key : W key ->
  relM eq (reads (fun s => resolve_site P (s_data s) x h key)) (reads (fun s => resolve_site P (s_data s) x h key)).
Proof. intros Hk. apply relM_reads. intros s s' Hs. apply res_rel_eq, same_resolved; assumption. Qed.

Lemma key_not_secret i h : ordinary (get_password_key P i h).
Proof. apply password_key_not_reserved. Qed.
Lemma skey_not_secret x h : ordinary (get_site_key P x h).
Proof. apply site_key_not_reserved. Qed.

Ltac step := eapply relM_bind; [first [apply rel_hmac|apply rel_key|apply rel_primary|apply rel_resolve; assumption|eassumption]|];
  let H := fresh "Hk" in intros ? ? H; lazymatch type of H with good _ _ => destruct H as [<- H] | _ => subst end.

Lemma rel_ensure_site x h key : W key -> relM eq (ensure_site_data P x h key) (ensure_site_data P x h key).
Proof.
  intros Hk s s' Hs. unfold ensure_site_data. rewrite <- (same_get _ _ Hs) by (exact Hk || apply site_key_other).
  destruct (storage_get P site_of_json (s_data s) (get_site_key P x h) key).
  - split; [reflexivity|exact Hs].
  - apply rel_encrypted; [apply skey_not_secret|exact Hs].
  - split; [exact I|exact Hs].
Qed.

Lemma rel_unlock pp : T pp -> relM eq (unlock P pp) (unlock P pp).
Proof.
  intros Hp s s' Hs. unfold unlock, bindM, reads, lift. rewrite <- (same_salt _ _ Hs).
  destruct (get_salt (s_data s)) as [salt| |] eqn:E1; [|split; [reflexivity|exact Hs]|split; [exact I|exact Hs]].
  destruct (get_encryption_key P pp salt) as [key| |] eqn:E2; [|split; [reflexivity|exact Hs]|split; [exact I|exact Hs]].
  assert (tried_key P (s_data s) T key) as Ht by (exists pp, salt; auto).
  rewrite <- (al_secret _ _ _ _ _ (tw_data _ _ Hs) key Ht).
  destruct (get_hmac_secret P (s_data s) key) as [h| |] eqn:E3; [|split; [reflexivity|exact Hs]|split; [exact I|exact Hs]].
  apply rel_secrets; [|exact Hs]. intros k [= <-]. apply (accepted_same (s_data s)); [apply Hs|apply Hs|]. split; [exact Ht|]. exists h. exact E3.
Qed.

Lemma rel_lock : relM eq lock lock.
Proof. apply rel_secrets. discriminate. Qed.

Lemma rel_get_alias x : relM eq (get_alias P x) (get_alias P x).
Proof.
  unfold get_alias. step. step. apply relM_reads. intros s s' Hs. apply res_rel_eq, same_alias; assumption.
Qed.

Lemma rel_set_alias x a : relM eq (set_alias P x a) (set_alias P x a).
Proof.
  unfold set_alias. step. step. step.
  eapply relM_bind; [apply relM_reads; intros s s' Hs; apply any_rel; eassumption|]. intros b ? <-.
  destruct b; [apply relM_fail|]. eapply relM_bind; [|intros ? ? _; apply rel_flush].
  unfold storage_set_alias. destruct (bytes_eqb _ _); [apply relM_fail|apply rel_encrypted, skey_not_secret].
Qed.

Lemma rel_remove_alias x : relM eq (remove_alias P x) (remove_alias P x).
Proof.
  unfold remove_alias. step. step. eapply relM_bind; [|intros ? ? _; apply rel_flush].
  unfold storage_remove_alias. eapply relM_bind.
  { apply relM_reads. intros s s' Hs. rewrite <- (same_get _ _ Hs) by (assumption || apply site_key_other).
    apply res_rel_eq. reflexivity. }
  intros v ? <-. destruct (site_alias v); [apply rel_remove, skey_not_secret|apply relM_fail].
Qed.

Lemma rel_remove_sites l : relM eq (remove_sites P l) (remove_sites P l).
Proof.
  unfold remove_sites. destruct l as [|x l]; [apply relM_ret; reflexivity|]. step.
  eapply relM_bind; [|intros ? ? _; apply rel_flush]. generalize (x :: l). clear x l. intros l.
  induction l as [|x l IH]; cbn [remove_sites_loop]; [apply relM_ret; reflexivity|].
  eapply relM_bind; [apply rel_remove, skey_not_secret|]. intros ? ? _. exact IH.
Qed.

Lemma rel_set_generated x n r len cs : relM eq (set_generated P x n r len cs) (set_generated P x n r len cs).
Proof.
  unfold set_generated. step. step. step. eapply relM_bind; [apply rel_ensure_site; assumption|]. intros ? ? _.
  eapply relM_bind; [|intros ? ? _; apply rel_flush]. apply rel_encrypted, key_not_secret.
Qed.
Lemma rel_set_stored x n r pw : relM eq (set_stored P x n r pw) (set_stored P x n r pw).
Proof.
  unfold set_stored. step. step. step. eapply relM_bind; [apply rel_ensure_site; assumption|]. intros ? ? _.
  eapply relM_bind; [|intros ? ? _; apply rel_flush]. apply rel_encrypted, key_not_secret.
Qed.
Lemma rel_has x n r : relM eq (has P x n r) (has P x n r).
Proof.
  unfold has. step. step. step. apply relM_reads. intros s s' Hs. unfold has_password.
  rewrite (same_contains _ _ Hs). reflexivity.
Qed.
Lemma rel_remove_password x n r : relM eq (remove P x n r) (remove P x n r).
Proof.
  unfold remove. step. step. step. eapply relM_bind; [|intros ? ? _; apply rel_flush]. apply rel_remove, key_not_secret.
Qed.
Lemma rel_decode code : relM eq (decode_recovery_code P code) (decode_recovery_code P code).
Proof. unfold decode_recovery_code. step. apply relM_lift. Qed.
Lemma rel_get_notes x n r : notes = true -> relM eq (get_notes P x n r) (get_notes P x n r).
Proof.
  intros Hn. unfold get_notes. step. step. step. eapply relM_bind.
  { apply relM_reads. intros s s' Hs. apply (alike_get _ _ Hs); [assumption|apply password_key_slot]. }
  intros p q H. apply relM_ret. destruct p, q; cbn in H; try contradiction; destruct H as [_ H]; cbn [pass_notes].
  - rewrite (H Hn). reflexivity.
  - apply H, Hn.
Qed.

Lemma rel_list x n : relM (Forall2 (alike_records notes)) (list_ P x n) (list_ P x n).
Proof.
  apply relM_reads. intros s s' Hs. unfold unlocked. rewrite <- (tw_key _ _ Hs). pose proof (tw_open _ _ Hs) as Ho.
  destruct (s_key s) as [key|]; cbn [negb]; [|exact I]. specialize (Ho key eq_refl).
  rewrite <- (tw_hmac _ _ Hs). destruct (s_hmac s) as [h|]; cbn [unwrap bind]; [|exact I].
  rewrite <- (same_resolved _ _ Hs) by exact Ho. destruct (resolve_site P (s_data s) x h key) as [y| |]; cbn [bind]; [|reflexivity|exact I].
  pose proof (listed_rel s s' y h key Hs Ho) as H.
  destruct (list_passwords P s y h key) as [l| |], (list_passwords P s' y h key) as [l'| |]; cbn in H; try contradiction; cbn; auto.
  induction H as [|p q l l' Hpq _ IH]; [constructor|]. cbn [List.filter].
  assert (pass_id p = pass_id q) as -> by (destruct p, q; cbn in Hpq; try contradiction; apply Hpq).
  destruct (p_wild P n (id_name (pass_id q))); [constructor; assumption|exact IH].
Qed.
Lemma rel_list_sites x : relM eq (list_sites P x) (list_sites P x).
Proof.
  apply relM_reads. intros s s' Hs. apply res_rel_eq. unfold unlocked. rewrite <- (tw_key _ _ Hs).
  pose proof (tw_open _ _ Hs) as Ho.
  destruct (s_key s) as [key|]; cbn [negb unwrap bind]; [|reflexivity]. rewrite (sites_rel s s' key Hs) by (apply Ho; reflexivity). reflexivity.
Qed.

(** * The program *)

(** Only these passwords will be entered. *)
Definition inputs (t : term) : Prop := exists es, entered sp t es /\ forall e, In (Some e) es -> 6 <= length (trim e) -> T (trim e).
Definition pair_of (t t' : term) : Prop := (same_screen t t' /\ inputs t) /\ twin (t_st t) (t_st t').
Definition cres_rel {A} (RA : A -> A -> Prop) (r r' : cres A) : Prop :=
  match r, r' with
  | COk a, COk a' => RA a a'
  | CErr m, CErr m' => m = m'
  | CPanic, CPanic => True
  | CStuck, CStuck => True
  | _, _ => False
  end.
Definition relC {A} (RA : A -> A -> Prop) (c c' : C A) : Prop :=
  forall t t', pair_of t t' -> cres_rel RA (fst (c t)) (fst (c' t')) /\ pair_of (snd (c t)) (snd (c' t')).

Lemma relC_bind {A B} (RA : A -> A -> Prop) (RB : B -> B -> Prop) m m' f f' :
  relC RA m m' -> (forall a a', RA a a' -> relC RB (f a) (f' a')) -> relC RB (cbind m f) (cbind m' f').
Proof.
  intros H Hf s s' Hs. specialize (H s s' Hs). unfold cbind. destruct (m s) as [r u], (m' s') as [r' u']. cbn [fst snd] in H.
  destruct H as [Hr Hu]. destruct r, r'; cbn in Hr; try contradiction.
  - apply (Hf _ _ Hr u u' Hu).
  - subst. split; [reflexivity|exact Hu].
  - split; [exact I|exact Hu].
  - split; [exact I|exact Hu].
Qed.
Lemma relC_ret {A} (RA : A -> A -> Prop) a a' : RA a a' -> relC RA (cret a) (cret a').
Proof. intros H t t' Ht. split; [exact H|exact Ht]. Qed.
Lemma relC_fail {A} (RA : A -> A -> Prop) m : relC RA (cfail m) (cfail m).
Proof. intros t t' Ht. split; [reflexivity|exact Ht]. Qed.
Lemma relC_if {A} (RA : A -> A -> Prop) (b : bool) c1 c2 c1' c2' : relC RA c1 c1' -> relC RA c2 c2' ->
  relC RA (if b then c1 else c2) (if b then c1' else c2').
Proof. destruct b; auto. Qed.

Lemma pair_st t t' s s' : pair_of t t' -> twin s s' -> pair_of (with_st s t) (with_st s' t').
Proof. intros [H _] Hs. split; [exact H|exact Hs]. Qed.

Lemma relC_api {A} (RA : A -> A -> Prop) m m' : relM RA m m' -> relC RA (api m) (api m').
Proof.
  intros H t t' Ht. specialize (H _ _ (proj2 Ht)). unfold api. destruct (m (t_st t)) as [r u], (m' (t_st t')) as [r' u'].
  cbn [fst snd] in *. destruct H as [Hr Hu]. split; [|apply pair_st; assumption].
  destruct r, r'; cbn in Hr |- *; try contradiction; auto. congruence.
Qed.
Lemma relC_api_or {A} (m m' : M A) d : relM eq m m' -> relC eq (api_or m d) (api_or m' d).
Proof.
  intros H t t' Ht. specialize (H _ _ (proj2 Ht)). unfold api_or. destruct (m (t_st t)) as [r u], (m' (t_st t')) as [r' u'].
  cbn [fst snd] in *. destruct H as [Hr Hu]. split; [|apply pair_st; assumption].
  destruct r, r'; cbn in Hr |- *; try contradiction; auto.
Qed.
Lemma relC_api_res {A} (m m' : M A) : relM eq m m' -> relC eq (api_res m) (api_res m').
Proof.
  intros H t t' Ht. specialize (H _ _ (proj2 Ht)). unfold api_res. destruct (m (t_st t)) as [r u], (m' (t_st t')) as [r' u'].
  cbn [fst snd] in *. destruct H as [Hr Hu]. split; [|apply pair_st; assumption].
  destruct r, r'; cbn in Hr |- *; try contradiction; auto; congruence.
Qed.

Lemma rel_print b : relC eq (print b) (print b).
Proof.
  intros t t' [[(e1 & e2 & e3 & e4 & e5 & e6 & e7 & e8) Hi] Hs]. unfold print. rewrite <- e2.
  destruct (last_line (t_buf t ++ b)). split; [reflexivity|]. split; [split; [repeat split; cbn; congruence|exact Hi]|exact Hs].
Qed.
Lemma rel_println b : relC eq (println b) (println b).
Proof. apply rel_print. Qed.
Lemma rel_flush_stdout : relC eq flush_stdout flush_stdout.
Proof.
  intros t t' [[(e1 & e2 & e3 & e4 & e5 & e6 & e7 & e8) Hi] Hs]. split; [reflexivity|]. split; [split; [repeat split; cbn; congruence|exact Hi]|exact Hs].
Qed.
Lemma rel_write b : relC eq (write_direct b) (write_direct b).
Proof.
  intros t t' [[(e1 & e2 & e3 & e4 & e5 & e6 & e7 & e8) Hi] Hs]. split; [reflexivity|]. split; [split; [repeat split; cbn; congruence|exact Hi]|exact Hs].
Qed.
Lemma rel_eprintln m : relC eq (eprintln m) (eprintln m).
Proof.
  intros t t' [[(e1 & e2 & e3 & e4 & e5 & e6 & e7 & e8) Hi] Hs]. split; [reflexivity|]. split; [split; [repeat split; cbn; congruence|exact Hi]|exact Hs].
Qed.
Lemma rel_confirm : relC eq confirm confirm.
Proof.
  intros t t' [[(e1 & e2 & e3 & e4 & e5 & e6 & e7 & e8) Hi] Hs]. unfold confirm. rewrite <- e6. destruct (t_confirms t) as [|a l] eqn:El.
  - split; [exact I|]. split; [split; [repeat split; cbn [snd]; congruence|exact Hi]|exact Hs].
  - split; [reflexivity|]. split; [split; [repeat split; cbn; congruence|exact Hi]|exact Hs].
Qed.
Lemma rel_ask : relC eq ask ask.
Proof.
  intros t t' [[(e1 & e2 & e3 & e4 & e5 & e6 & e7 & e8) Hi] Hs]. unfold ask. rewrite <- e7. destruct (t_asks t) as [|a l] eqn:El.
  - split; [exact I|]. split; [split; [repeat split; cbn [snd]; congruence|exact Hi]|exact Hs].
  - split; [reflexivity|]. split; [split; [repeat split; cbn; congruence|exact Hi]|exact Hs].
Qed.
Definition entry_rel (a a' : bytes) : Prop := a = a' /\ (6 <= length a -> T a).

Lemma prompt_same p t t' : same_screen t t' -> cres_rel eq (fst (prompt_password p sp t)) (fst (prompt_password p sp t')) /\
  same_screen (snd (prompt_password p sp t)) (snd (prompt_password p sp t')) /\
  t_st (snd (prompt_password p sp t)) = t_st t /\ t_st (snd (prompt_password p sp t')) = t_st t'.
Proof.
  intros (e1 & e2 & e3 & e4 & e5 & e6 & e7 & e8). unfold prompt_password, cbind. destruct sp.
  - unfold prompt_secret_text, cbind, write_direct. cbn [t_stdin with_out]. rewrite <- e4. destruct (read_line (t_stdin t)) as [line rest].
    destruct (utf8 line); (split; [reflexivity|]); repeat split; cbn; congruence.
  - unfold tty_password. rewrite <- e5. destruct (t_tty t) as [|[a|] l] eqn:El; (split; [reflexivity|]); repeat split; cbn; congruence.
Qed.
Lemma rel_prompt p : relC entry_rel (prompt_password p sp) (prompt_password p sp).
Proof.
  intros t t' [[He1 (es & He & Hi)] Hs]. destruct (prompt_same p t t' He1) as (H1 & H2 & H3 & H4).
  assert (match fst (prompt_password p sp t) with COk a => 6 <= length a -> T a | _ => True end /\ inputs (snd (prompt_password p sp t))) as [H5 H6].
  { destruct es as [|x es].
    - destruct sp eqn:Esp.
      + destruct He as (ls & Hn & _ & _ & Hm). destruct ls; [contradiction|discriminate].
      + rewrite (prompt_waits p t He). split; [exact I|]. exists []. rewrite Esp. split; [exact He|intros ? []].
    - destruct (prompt_entered p sp t x es He) as (u & -> & Hp & Hr). cbn [fst snd]. split.
      + destruct x as [c|]; [|exact I]. apply Hi. left. reflexivity.
      + destruct Hr as [Hr|(E1 & -> & Hr)]; [exists es; split; [exact Hr|intros e Hin; apply Hi; right; exact Hin]|].
        exists [Some []]. rewrite E1. split; [apply entered_end, Hr|]. intros e [[= <-]|[]]. intros Hl. exfalso. cbn in Hl. lia. }
  split.
  - destruct (fst (prompt_password p sp t)), (fst (prompt_password p sp t')); cbn in H1 |- *; try contradiction; auto. split; [exact H1|exact H5].
  - split; [split; [exact H2|exact H6]|]. rewrite H3, H4. exact Hs.
Qed.

Lemma rel_unlock_loop f : relC eq (unlock_loop f P sp) (unlock_loop f P sp).
Proof.
  induction f as [|f IH]; intros t t' Ht; cbn [unlock_loop]; unfold unlocked; rewrite <- (tw_key _ _ (proj2 Ht)).
  - destruct (s_key (t_st t)); split; try reflexivity; exact Ht.
  - destruct (s_key (t_st t)); [split; [reflexivity|exact Ht]|]. revert t t' Ht.
    eapply relC_bind; [apply rel_prompt|]. intros p ? [<- Hp]. eapply relC_bind; [|intros _ _ _; exact IH].
    destruct (Nat.ltb_spec (length p) 6) as [_|Hl]; [apply rel_eprintln|]. eapply relC_bind; [apply relC_api_res, rel_unlock, Hp, Hl|].
    intros r ? <-. destruct r; [apply relC_ret; reflexivity|apply rel_eprintln|apply relC_ret; reflexivity].
Qed.
Lemma rel_ensure : relC eq (ensure_unlocked P sp) (ensure_unlocked P sp).
Proof.
  intros t t' Ht. unfold ensure_unlocked, initialized, storage_initialized.
  rewrite <- !(same_contains _ _ (proj2 Ht)). destruct (negb _); [split; [reflexivity|exact Ht]|].
  pose proof (proj1 (proj1 Ht)) as (e1 & e2 & e3 & e4 & e5 & e6 & e7 & e8). rewrite <- e4, <- e5. apply rel_unlock_loop, Ht.
Qed.

Lemma rel_state {A} (r : cres A) : relC eq (fun t => (r, t)) (fun t => (r, t)).
Proof. intros t t' Ht. split; [destruct r; reflexivity|exact Ht]. Qed.

Lemma rel_recovery_loop asks acc : relC eq (recovery_loop P asks acc) (recovery_loop P asks acc).
Proof.
  revert acc. induction asks as [|a0 asks IH]; intros acc; cbn [recovery_loop]; (eapply relC_bind; [apply rel_ask|]); intros a ? <-.
  - apply rel_state.
  - destruct a as [[| |line]|]; try apply IH. destruct line as [|c line]; [apply relC_fail|].
    eapply relC_bind; [apply relC_api_res, rel_decode|]. intros r ? <-. destruct r as [v|e|]; [apply relC_ret; reflexivity| |apply rel_state].
    destruct e; try apply relC_fail.
    + eapply relC_bind; [apply rel_state|]. intros x ? <-. eapply relC_bind; [apply rel_confirm|]. intros y ? <-.
      destruct y; try apply relC_fail. apply relC_api, rel_decode.
    + eapply relC_bind; [apply rel_state|]. intros x ? <-. eapply relC_bind; [apply rel_eprintln|]. intros _ _ _. apply IH.
    + eapply relC_bind; [apply rel_eprintln|]. intros _ _ _. apply IH.
Qed.
Lemma rel_recovery : relC eq (prompt_recovery_code P) (prompt_recovery_code P).
Proof.
  intros t t' Ht. unfold prompt_recovery_code. pose proof (proj1 (proj1 Ht)) as (e1 & e2 & e3 & e4 & e5 & e6 & e7 & e8).
  rewrite <- e7. apply rel_recovery_loop, Ht.
Qed.

Ltac cstep := eapply relC_bind; [first [apply rel_ensure|apply rel_println|apply rel_write|apply rel_flush_stdout|apply rel_print|eassumption]|];
  intros ? ? ?; subst.

Lemma rel_overwrite y x n r : relC eq (OVERWRITE P y x n r) (OVERWRITE P y x n r).
Proof.
  unfold OVERWRITE. apply relC_if; [apply relC_ret; reflexivity|].
  eapply relC_bind; [apply relC_api_or, rel_has|]. intros b ? <-. apply relC_if; [|apply relC_ret; reflexivity].
  eapply relC_bind; [apply rel_confirm|]. intros a ? <-. apply relC_ret. reflexivity.
Qed.

Lemma rel_sort l l' : Forall2 (alike_records notes) l l' -> Forall2 (alike_records notes) (sort_by password_key l) (sort_by password_key l').
Proof.
  assert (forall p q, alike_records notes p q -> password_key p = password_key q) as Hk.
  { intros p q H. unfold password_key. assert (pass_id p = pass_id q) as -> by (destruct p, q; cbn in H; try contradiction; apply H). reflexivity. }
  assert (forall p q a b, alike_records notes p q -> Forall2 (alike_records notes) a b ->
    Forall2 (alike_records notes) (insert_by password_key p a) (insert_by password_key q b)) as Hi.
  { intros p q a b Hpq H. induction H as [|u v a b Huv H IH]; cbn [insert_by]; [repeat constructor; exact Hpq|].
    rewrite (Hk _ _ Hpq), (Hk _ _ Huv). destruct (bytes_leb _ _); repeat constructor; assumption. }
  induction 1; cbn [sort_by]; [constructor|]. apply Hi; assumption.
Qed.

Lemma rel_list_password vb x p q : (vb = true -> notes = true) -> alike_records notes p q ->
  relC eq (list_password P false false vb x p) (list_password P false false vb x q).
Proof.
  intros Hv H. unfold list_password.
  assert (password_line p = password_line q) as ->.
  { destruct p, q; cbn in H; try contradiction; destruct H as [H _]; unfold password_line; cbn [pass_id]; rewrite H; reflexivity. }
  cstep. eapply relC_bind; [apply relC_ret; reflexivity|]. intros _ _ _. eapply relC_bind; [apply relC_ret; reflexivity|]. intros _ _ _.
  destruct vb; [|apply relC_ret; reflexivity]. specialize (Hv eq_refl).
  destruct p as [g|a], q as [g'|b]; cbn in H; try contradiction; destruct H as [_ H]; specialize (H Hv).
  - subst g'. eapply relC_bind.
    + destruct (pass_notes (Generated g)); [apply relC_ret; reflexivity|]. cstep. cstep. cstep. apply rel_println.
    + intros _ _ _. cstep. apply rel_println.
  - cbn [pass_notes]. rewrite <- H. eapply relC_bind.
    + destruct (sp_notes a); [apply relC_ret; reflexivity|]. cstep. cstep. cstep. apply rel_println.
    + intros _ _ _. apply relC_ret. reflexivity.
Qed.

Lemma rel_list_loop n vb all sites : (vb = true -> notes = true) ->
  relC eq (list_loop P n false false vb all sites) (list_loop P n false false vb all sites).
Proof.
  intros Hv. induction sites as [|x sites IH]; cbn [list_loop]; [apply relC_ret; reflexivity|].
  eapply relC_bind; [apply relC_api, rel_list|]. intros l l' H. inversion H as [|p q l1 l1' Hpq Hl]; subst.
  - eapply relC_bind; [apply IH|]. intros [f e] ? <-. apply relC_ret. reflexivity.
  - eapply relC_bind.
    { unfold heading. cstep. destruct vb, (aliased all (site_name x)); try (apply relC_ret; reflexivity). apply rel_println. }
    intros _ _ _. eapply relC_bind.
    { apply rel_sort in H. revert H. generalize (sort_by password_key (p :: l1)), (sort_by password_key (q :: l1')).
      intros m m' Hm. induction Hm as [|u v m m' Huv _ IHm]; cbn [each]; [apply relC_ret; reflexivity|].
      eapply relC_bind; [apply rel_list_password; eassumption|]. intros _ _ _. exact IHm. }
    intros _ _ _. eapply relC_bind; [apply IH|]. intros [f e] ? <-. apply relC_ret. reflexivity.
Qed.

Lemma rel_simple E path c : discreet notes c -> relC eq (process_simple P E path sp c) (process_simple P E path sp c).
Proof.
  destruct c as [y|x n r len a b d e y|x n r rc y|x n r|x n r qr|x n r set|x n sh rc vb|x a r|]; cbn [discreet process_simple]; intros Hc; try contradiction.
  - unfold add_cmd. cstep. apply relC_if; [apply relC_fail|]. eapply relC_bind; [apply rel_overwrite|]. intros go ? <-.
    apply relC_if; [|apply relC_ret; reflexivity]. eapply relC_bind; [apply relC_api, rel_set_generated|]. intros _ _ _. apply rel_println.
  - unfold add_stored_cmd. cstep. eapply relC_bind; [apply rel_overwrite|]. intros go ? <-.
    apply relC_if; [|apply relC_ret; reflexivity].
    eapply (relC_bind eq).
    { destruct rc; [apply rel_recovery|]. intros t t' Ht. destruct (rel_prompt (bs "Password to be stored: ") t t' Ht) as [H1 H2].
      split; [|exact H2]. destruct (fst (prompt_password _ sp t)), (fst (prompt_password _ sp t')); cbn in H1 |- *; try contradiction; auto. apply H1. }
    intros pw ? <-.
    eapply relC_bind; [apply relC_api, rel_set_stored|]. intros _ _ _. apply rel_println.
  - unfold remove_cmd. cstep. eapply relC_bind; [apply relC_api, rel_remove_password|]. intros _ _ _. apply rel_println.
  - destruct Hc as [Hn ->]. unfold notes_cmd. cstep. eapply relC_bind; [apply relC_api, rel_get_notes, Hn|]. intros t ? <-.
    eapply relC_bind; [|intros _ _ _; apply relC_ret; reflexivity]. destruct t; [apply rel_println|]. cstep. cstep. apply rel_write.
  - destruct Hc as (-> & -> & Hv). unfold list_cmd. cstep. eapply relC_bind; [apply relC_api, rel_list_sites|]. intros l ? <-.
    eapply relC_bind; [apply rel_list_loop, Hv|]. intros [f e] ? <-.
    eapply relC_bind; [apply relC_api, rel_remove_sites|]. intros _ _ _. apply relC_if; [apply relC_ret; reflexivity|apply rel_println].
  - unfold alias_cmd. cstep. destruct a as [a|].
    + eapply relC_bind; [apply relC_api, rel_set_alias|]. intros _ _ _. apply rel_println.
    + apply relC_if.
      * eapply relC_bind; [apply relC_api, rel_remove_alias|]. intros _ _ _. apply rel_println.
      * eapply relC_bind; [apply relC_api, rel_get_alias|]. intros y ? <-. apply rel_println.
  - apply relC_ret. reflexivity.
Qed.

Lemma rel_with_lines {A} (RA : A -> A -> Prop) l c c' : relC RA c c' -> relC RA (fun t => c (with_lines l t)) (fun t => c' (with_lines l t)).
Proof.
  intros H t t' [[(e1 & e2 & e3 & e4 & e5 & e6 & e7 & e8) Hi] Hs]. apply H. split; [split; [repeat split; cbn; congruence|exact Hi]|exact Hs].
Qed.

Lemma rel_shell_step E path line :
  (forall c, e_parse E line = SCommand c -> (forall y, c <> SetPrimary y) -> discreet notes c) ->
  relC eq (shell_step P E path sp line) (shell_step P E path sp line).
Proof.
  intros H. unfold shell_step. destruct (e_parse E line) as [m| | |c] eqn:Ep.
  - eapply relC_bind; [apply rel_eprintln|]. intros _ _ _. apply relC_ret. reflexivity.
  - apply relC_ret. reflexivity.
  - eapply relC_bind; [apply relC_api, rel_lock|]. intros _ _ _. cstep. apply relC_ret. reflexivity.
  - assert (relC eq (fun t => match process_simple P E path sp c t with
        | (COk _, t') => (let& _ := flush_stdout in cret true) t'
        | (CErr m, t') => (let& _ := eprintln m in cret true) t'
        | (CPanic, t') => (CPanic, t')
        | (CStuck, t') => (CStuck, t')
        end) (fun t => match process_simple P E path sp c t with
        | (COk _, t') => (let& _ := flush_stdout in cret true) t'
        | (CErr m, t') => (let& _ := eprintln m in cret true) t'
        | (CPanic, t') => (CPanic, t')
        | (CStuck, t') => (CStuck, t')
        end) \/ exists y, c = SetPrimary y) as [Hg|[y ->]].
    { destruct c; try (left; intros t t' Ht; pose proof (rel_simple E path _ (H _ eq_refl ltac:(discriminate)) t t' Ht) as Hp;
        destruct (process_simple P E path sp _ t) as [r u], (process_simple P E path sp _ t') as [r' u']; cbn [fst snd] in Hp;
        destruct Hp as [Hr Hu]; destruct r, r'; cbn in Hr; try contradiction;
        [|subst| |]; [revert u u' Hu; eapply relC_bind; [apply rel_flush_stdout|intros _ _ _; apply relC_ret; reflexivity]
                     |revert u u' Hu; eapply relC_bind; [apply rel_eprintln|intros _ _ _; apply relC_ret; reflexivity]
                     |split; [exact I|exact Hu]|split; [exact I|exact Hu]]).
      right. eauto. }
    + destruct c; try exact Hg; (eapply relC_bind; [apply rel_eprintln|]; intros _ _ _; apply relC_ret; reflexivity).
    + eapply relC_bind; [apply rel_eprintln|]. intros _ _ _. apply relC_ret. reflexivity.
Qed.

Lemma rel_shell_loop E path lines : discreet_lines E notes lines ->
  relC eq (shell_loop P E path sp lines) (shell_loop P E path sp lines).
Proof.
  induction lines as [|x lines IH]; intros H; cbn [shell_loop]; [apply rel_state|].
  assert (discreet_lines E notes lines) as H' by (intros line c Hin; apply H; right; exact Hin). specialize (IH H').
  destruct x as [line| | |].
  - eapply relC_bind; [apply rel_with_lines, rel_shell_step; intros c; apply H; left; reflexivity|].
    intros go ? <-. apply relC_if; [exact IH|apply relC_ret; reflexivity].
  - apply rel_with_lines, IH.
  - apply (rel_with_lines eq lines (fun t => (COk tt, t)) (fun t => (COk tt, t))), rel_state.
  - apply (rel_with_lines eq lines (let& _ := eprintln (Text (bs "Error: ")) in shell_loop P E path sp lines)
      (let& _ := eprintln (Text (bs "Error: ")) in shell_loop P E path sp lines)).
    eapply relC_bind; [apply rel_eprintln|]. intros _ _ _. exact IH.
Qed.

Lemma rel_command E path c t t' : discreet notes c -> discreet_lines E notes (t_lines t) -> pair_of t t' ->
  cres_rel eq (fst (process_command P E path sp c t)) (fst (process_command P E path sp c t')) /\
  pair_of (snd (process_command P E path sp c t)) (snd (process_command P E path sp c t')).
Proof.
  intros Hc Hl Ht. destruct c; try (apply rel_simple; assumption). cbn [process_command]. unfold shell_cmd, cbind.
  pose proof (rel_println SHELL_HELP t t' Ht) as [_ H1]. unfold println, print in *.
  destruct (last_line (t_buf t ++ _)) as [a b], (last_line (t_buf t' ++ _)) as [a' b']. cbn [snd] in H1.
  pose proof (rel_flush_stdout _ _ H1) as [_ H2]. unfold flush_stdout in *. cbn [snd] in H2.
  pose proof (proj1 (proj1 H2)) as (_ & _ & _ & _ & _ & _ & _ & e8). rewrite <- e8. apply rel_shell_loop; [exact Hl|exact H2].
Qed.
End screen.

(** * Processes *)

Lemma same_printed P E path notes a t es disk d d' : order_of_slots P ->
  load P (s_disk (t_st t)) = Ok d -> load P disk = Ok d' ->
  entered (a_stdin_passwords a) t es -> alike_data P notes (candidate es) d d' ->
  discreet notes (a_command a) -> discreet_lines E notes (t_lines t) ->
  let '(x, u) := main P E path a t in let '(x', u') := main P E path a (with_disk disk t) in x = x' /\ same_screen u u'.
Proof.
  intros Ho Hd Hd' He Ha Hc Hl. unfold main, main_inner, start_process, cbind. cbn [with_disk t_st with_st s_disk]. rewrite Hd, Hd'.
  set (u := with_st (passwords_new d (t_st t)) t).
  set (u' := with_st (passwords_new d' _) _).
  assert (pair_of P notes (candidate es) d (a_stdin_passwords a) u u') as Hp.
  { split; [split; [repeat split|]|].
    - exists es. split; [exact He|]. intros e Hin Hle. split; [exact Hle|]. exists e. auto.
    - constructor; try reflexivity; cbn; [discriminate|exact Ha]. }
  pose proof (rel_command P Ho notes _ d (a_stdin_passwords a) E path (a_command a) u u' Hc Hl Hp) as [H1 H2].
  assert (forall y, a_command a <> SetPrimary y) as Hns by (intros y Ey; rewrite Ey in Hc; exact Hc).
  destruct (a_command a) as [y| | | | | | | |] eqn:Ec; [destruct (Hns y eq_refl)|..];
    (destruct (process_command P E path (a_stdin_passwords a) _ u) as [r v], (process_command P E path (a_stdin_passwords a) _ u') as [r' v'];
     cbn [fst snd] in H1, H2; destruct r, r'; cbn in H1; try contradiction;
     (split; [reflexivity|]); destruct H2 as [[(e1 & e2 & e3 & e4 & e5 & e6 & e7 & e8) _] _]; repeat split; cbn; congruence).
Qed.

(** * Files of vaults that differ in secrets only *)

Lemma encrypts_read P key text c : prims_ok P -> length key = 32 -> encrypts P key text c -> decrypt_data P c key = Ok text.
Proof.
  intros HP Hk [rnd ->]. cbv zeta. rewrite decrypt_data_parts by (exact Hk || apply (ok_random_len P HP)).
  rewrite (ok_open_seal P HP) by (exact Hk || apply (ok_random_len P HP)). reflexivity.
Qed.

Lemma entry_readable P key x n r e c : prims_ok P -> length key = 32 ->
  utf8 x = true /\ utf8 n = true /\ utf8 r = true /\ utf8 (e_notes e) = true /\
    match e_secret e with SGenerated len _ => (len < 18446744073709551616)%N | SFixed t => utf8 t = true end ->
  encrypts P key (password_to_vec (entry_of (x, n, r) e)) c -> reads_as P key c (entry_of (x, n, r) e).
Proof.
  intros HP Hk (Hx & Hn & Hr & Ho & Hs) Hc. eexists. split; [apply encrypts_read; eassumption|]. apply password_roundtrip.
  unfold entry_of. destruct (e_secret e) as [len cs|t]; cbn.
  - split; [split; [|split]; assumption|]. split; [|exact Ho]. unfold u64_max. lia.
  - split; [split; [|split]; assumption|]. auto.
Qed.

Lemma alike_entry notes i e e' : alike_entries notes e e' -> alike_records notes (entry_of i e) (entry_of i e').
Proof.
  intros [Hn Hs]. unfold entry_of. destruct (e_secret e), (e_secret e'); try contradiction; cbn.
  - split; [reflexivity|]. intros Ho. destruct (Hs Ho) as [-> ->]. rewrite (Hn Ho). reflexivity.
  - auto.
Qed.

Lemma alike_contents P notes pp i d v d' v' T : prims_ok P -> contents P pp i d v -> contents P pp i d' v' ->
  d !! bs "hmac-secret" = d' !! bs "hmac-secret" -> alike_vaults notes v v' -> texts_only v -> texts_only v' ->
  (forall key, accepted_key P d T key -> key = key_for P pp i) -> alike_data P notes T d d'.
Proof.
  intros HP Hc Hc' Hh Hv Ht Ht' Hk.
  assert (length (key_for P pp i) = 32) as Hl by apply (ok_scrypt_len P HP).
  assert (forall x, ~ password_slot (bs "site:" ++ hashed P i x)) as Hno.
  { intros x (a & b & E). apply app_inv_head in E. unfold hashed in E.
    apply (b64_encode_no (p_hmac P (p_random P (i + 1) 32) x) ":"%byte); [tauto|]. rewrite E. apply in_or_app. right. left. reflexivity. }
  assert (forall x n r, password_slot (bs "site:" ++ hashed P i x ++ ":"%byte :: hashed P i (id_string x n r))) as Hyes.
  { intros x n r. eexists _, _. reflexivity. }
  assert (forall da va db vb, contents P pp i da va -> contents P pp i db vb -> v_sites va = v_sites vb ->
    (forall i, v_pw vb !! i = None -> v_pw va !! i = None) -> forall slot, db !! slot = None -> da !! slot = None) as Hsl.
  { intros da va db vb Ca Cb Es Ep slot E. destruct (da !! slot) as [c|] eqn:Ea; [|reflexivity]. exfalso.
    destruct (co_nothing_else _ _ _ _ _ Ca slot ltac:(eauto)) as [-> |[-> |[(x & [a Hx] & ->)|(x & n & r & [e He] & ->)]]].
    - rewrite (co_salt _ _ _ _ _ Cb) in E. discriminate.
    - destruct (co_hmac _ _ _ _ _ Cb) as (c' & E' & _). rewrite E' in E. discriminate.
    - rewrite Es in Hx. destruct (co_site _ _ _ _ _ Cb _ _ Hx) as (c' & E' & _). rewrite E' in E. discriminate.
    - destruct (v_pw vb !! (x, n, r)) as [e'|] eqn:Eb; [|rewrite (Ep _ Eb) in He; discriminate].
      destruct (co_pw _ _ _ _ _ Cb _ _ _ _ Eb) as (c' & E' & _). rewrite E' in E. discriminate. }
  constructor.
  - rewrite (co_salt _ _ _ _ _ Hc), (co_salt _ _ _ _ _ Hc'). reflexivity.
  - intros key _. unfold get_hmac_secret. change HMAC_SECRET_KEY with (bs "hmac-secret"). rewrite Hh. reflexivity.
  - intros slot. split.
    + apply (Hsl d' v' d v Hc' Hc); [symmetry; apply Hv|]. intros j. apply (av_names _ _ _ Hv).
    + apply (Hsl d v d' v' Hc Hc'); [apply Hv|]. intros j. apply (av_names _ _ _ Hv).
  - intros key slot c c' Ha Hs E E'. apply Hk in Ha. subst key.
    destruct (co_nothing_else _ _ _ _ _ Hc slot ltac:(eauto)) as [-> |[-> |[(x & [a Hx] & ->)|(x & n & r & [e He] & ->)]]].
    + left. rewrite (co_salt _ _ _ _ _ Hc) in E. rewrite (co_salt _ _ _ _ _ Hc') in E'. congruence.
    + left. congruence.
    + right. destruct (co_site _ _ _ _ _ Hc _ _ Hx) as (c1 & E1 & R1). rewrite (av_sites _ _ _ Hv) in Hx.
      destruct (co_site _ _ _ _ _ Hc' _ _ Hx) as (c2 & E2 & R2). exists (site_to_vec (mk_site x a)).
      split; apply encrypts_read; try assumption; congruence.
    + destruct (Hs (Hyes x n r)).
  - intros key slot c c' Ha Hs E E'. apply Hk in Ha. subst key. right.
    destruct (co_nothing_else _ _ _ _ _ Hc slot ltac:(eauto)) as [-> |[-> |[(x & [a Hx] & ->)|(x & n & r & [e He] & ->)]]].
    + destruct Hs as (a & b & X). discriminate X.
    + destruct Hs as (a & b & X). discriminate X.
    + destruct (Hno x Hs).
    + destruct (v_pw v' !! (x, n, r)) as [e'|] eqn:He'; [|apply (av_names _ _ _ Hv) in He'; congruence].
      destruct (co_pw _ _ _ _ _ Hc _ _ _ _ He) as (c1 & E1 & R1). destruct (co_pw _ _ _ _ _ Hc' _ _ _ _ He') as (c2 & E2 & R2).
      assert (c = c1) as -> by congruence. assert (c' = c2) as -> by congruence.
      exists (entry_of (x, n, r) e), (entry_of (x, n, r) e'). split; [|split].
      * eapply entry_readable; eauto.
      * eapply entry_readable; eauto.
      * apply alike_entry. eapply (av_entries _ _ _ Hv); eassumption.
Qed.

Lemma same_vault_printed P E path notes a t es disk pp i d v d' v' : prims_ok P -> order_of_slots P ->
  load P (s_disk (t_st t)) = Ok d -> load P disk = Ok d' ->
  contents P pp i d v -> contents P pp i d' v' -> d !! bs "hmac-secret" = d' !! bs "hmac-secret" ->
  alike_vaults notes v v' -> texts_only v -> texts_only v' ->
  entered (a_stdin_passwords a) t es -> (forall key, accepted_key P d (candidate es) key -> key = key_for P pp i) ->
  discreet notes (a_command a) -> discreet_lines E notes (t_lines t) ->
  let '(x, u) := main P E path a t in let '(x', u') := main P E path a (with_disk disk t) in x = x' /\ same_screen u u'.
Proof.
  intros HP Ho Hd Hd' Hc Hc' Hh Hv Ht Ht' He Hk Hq Hl. eapply same_printed; try eassumption. eapply alike_contents; eassumption.
Qed.
