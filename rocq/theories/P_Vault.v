(** The library refines the abstract vault. *)
From stdpp Require Import gmap.
From Coq Require Import Permutation ZArith ZifyBool ZifyNat ZifyN.
From Verif Require Import M_Base M_Base64 M_Utf8 M_Prims M_Types M_Crypto M_Recovery M_Json M_Serde M_Storage
  M_Passwords M_History S_Json S_Serde S_Vault P_Base P_Base64 P_Crypto P_Recovery P_Json P_Serde P_Utf8
  P_File P_Storage.

Definition to_id (x : pid) : password_id := mk_id x.1.1 x.1.2 x.2.
Definition to_password (x : pid) (e : entry) : password :=
  match e_secret e with
  | SGenerated len cs => Generated (mk_generated (to_id x) len cs (e_notes e))
  | SFixed t => Stored (mk_stored (to_id x) t (e_notes e))
  end.
Definition entry_valid (e : entry) : Prop :=
  utf8 (e_notes e) = true /\
  match e_secret e with SGenerated len _ => (len <= u64_max)%N | SFixed t => utf8 t = true end.

Lemma show_to_password x e : show_password (to_password x e) = (x, e).
Proof. destruct x as [[a b] c], e as [[l cs|t] n]; reflexivity. Qed.

Lemma pass_id_to_password x e : pass_id (to_password x e) = to_id x.
Proof. destruct e as [[l cs|t] n]; reflexivity. Qed.

Lemma to_id_inj x y : to_id x = to_id y -> x = y.
Proof. destruct x as [[a b] c], y as [[a' b'] c']. unfold to_id. cbn. congruence. Qed.

Section vault.
Context (P : prims) (HP : prims_ok P).
Context (Ds : list bytes) (Ids : list (bytes * bytes)) (Qs : list bytes) (bound : nat).
Context (HDs : forall s, In s Ds -> utf8 s = true).
Context (HIds : forall n r, In (n, r) Ids -> utf8 n = true /\ utf8 r = true /\ ~ In x00 n).
Context (HA : assumptions P Ds Ids Qs bound).

Definition hsec (i : nat) : bytes := p_random P (i + 1) 32.
Definition ekey (pp : bytes) (i : nat) : bytes := key_for P pp i.

Lemma ekey_len pp i : length (ekey pp i) = 32.
Proof. apply (ok_scrypt_len P HP). Qed.

Definition skey (i : nat) (s : bytes) : bytes := get_site_key P s (hsec i).
Definition pkey (i : nat) (x : pid) : bytes := get_password_key P (to_id x) (hsec i).
Definition in_ids (x : pid) : Prop := In x.1.1 Ds /\ In (x.1.2, x.2) Ids.

Record data_rep (i : nat) (pp : bytes) (d : kvmap) (v : vault) : Prop := {
  dr_bound : i + 2 < bound;
  dr_pp : In pp Qs;
  dr_salt : d !! SALT_KEY = Some (b64_encode (p_random P i 16));
  dr_hmac : d !! HMAC_SECRET_KEY = Some (sealed P (ekey pp i) (i + 2) (string_to_vec (b64_encode (hsec i))));
  dr_site : forall s o, v_sites v !! s = Some o ->
    In s Ds /\ (forall a, o = Some a -> In a Ds) /\
    exists rnd, d !! skey i s = Some (sealed P (ekey pp i) rnd (site_to_vec (mk_site s o)));
  dr_pw : forall x e, v_pw v !! x = Some e ->
    in_ids x /\ entry_valid e /\
    exists rnd, d !! pkey i x = Some (sealed P (ekey pp i) rnd (password_to_vec (to_password x e)));
  dr_dom : forall k, is_Some (d !! k) ->
    k = SALT_KEY \/ k = HMAC_SECRET_KEY \/
    (exists s, is_Some (v_sites v !! s) /\ k = skey i s) \/
    (exists x, is_Some (v_pw v !! x) /\ k = pkey i x)
}.

(** * Keys do not clash *)

Lemma skey_inj i s s' : i + 2 < bound -> In s Ds -> In s' Ds -> skey i s = skey i s' -> s = s'.
Proof.
  intros Hi H1 H2 H. apply site_key_digest in H. eapply (as_site _ _ _ _ _ HA); [|exact H1|exact H2|exact H]. lia.
Qed.

Lemma pkey_inj i x y : i + 2 < bound -> in_ids x -> in_ids y -> pkey i x = pkey i y -> x = y.
Proof.
  intros Hi [Hx1 Hx2] [Hy1 Hy2] H. apply password_key_digest in H. destruct H as [H1 H2].
  assert (x.1.1 = y.1.1) as Es by (eapply (as_site _ _ _ _ _ HA); [|exact Hx1|exact Hy1|exact H1]; lia).
  apply to_id_inj, id_text_inj; [exact Es|apply (HIds _ _ Hx2)|apply (HIds _ _ Hy2)|].
  unfold id_text, to_id in *; cbn [id_site id_name id_revision] in *. rewrite <- Es in *.
  eapply (as_id _ _ _ _ _ HA); [|exact Hx1|exact Hx2|exact Hy2|exact H2]. lia.
Qed.

Lemma skey_pkey i s x : skey i s <> pkey i x.
Proof. apply site_key_not_password. Qed.

Lemma skey_salt i s : skey i s <> SALT_KEY.
Proof. exact (proj1 (site_key_not_reserved P (hsec i) s)). Qed.
Lemma skey_hmac i s : skey i s <> HMAC_SECRET_KEY.
Proof. exact (proj2 (site_key_not_reserved P (hsec i) s)). Qed.
Lemma pkey_salt i x : pkey i x <> SALT_KEY.
Proof. exact (proj1 (password_key_not_reserved P (hsec i) (to_id x))). Qed.
Lemma pkey_hmac i x : pkey i x <> HMAC_SECRET_KEY.
Proof. exact (proj2 (password_key_not_reserved P (hsec i) (to_id x))). Qed.

Lemma site_lookup i pp d v s : data_rep i pp d v -> In s Ds ->
  match v_sites v !! s with
  | Some o => exists rnd, d !! skey i s = Some (sealed P (ekey pp i) rnd (site_to_vec (mk_site s o)))
  | None => d !! skey i s = None
  end.
Proof.
  intros R Hs. destruct (v_sites v !! s) as [o|] eqn:E; [apply (dr_site _ _ _ _ R _ _ E)|].
  destruct (d !! skey i s) as [c|] eqn:Ed; [exfalso|reflexivity].
  destruct (dr_dom _ _ _ _ R (skey i s) (mk_is_Some _ _ Ed)) as [H|[H|[(s' & [o Hs'] & H)|(x & _ & H)]]].
  - revert H. apply skey_salt.
  - revert H. apply skey_hmac.
  - destruct (dr_site _ _ _ _ R _ _ Hs') as [Hs2 _].
    pose proof (skey_inj _ _ _ (dr_bound _ _ _ _ R) Hs Hs2 H). congruence.
  - apply skey_pkey in H. exact H.
Qed.

Lemma pw_lookup i pp d v x : data_rep i pp d v -> in_ids x ->
  match v_pw v !! x with
  | Some e => exists rnd, d !! pkey i x = Some (sealed P (ekey pp i) rnd (password_to_vec (to_password x e)))
  | None => d !! pkey i x = None
  end.
Proof.
  intros R Hx. destruct (v_pw v !! x) as [e|] eqn:E; [apply (dr_pw _ _ _ _ R _ _ E)|].
  destruct (d !! pkey i x) as [c|] eqn:Ed; [exfalso|reflexivity].
  destruct (dr_dom _ _ _ _ R (pkey i x) (mk_is_Some _ _ Ed)) as [H|[H|[(s' & _ & H)|(y & [e' Hy] & H)]]].
  - revert H. apply pkey_salt.
  - revert H. apply pkey_hmac.
  - symmetry in H. apply skey_pkey in H. exact H.
  - destruct (dr_pw _ _ _ _ R _ _ Hy) as [Hy2 _].
    pose proof (pkey_inj _ _ _ (dr_bound _ _ _ _ R) Hx Hy2 H). congruence.
Qed.

(** * Reading *)

Lemma entry_password_valid x e : in_ids x -> entry_valid e -> password_valid (to_password x e).
Proof.
  intros [H1 H2] [Hn He]. apply HDs in H1. destruct (HIds _ _ H2) as (H3 & H4 & _).
  destruct e as [[l cs|t] n]; cbn in *; repeat split; assumption.
Qed.

Lemma read_site i pp d v s : data_rep i pp d v -> In s Ds ->
  storage_get P site_of_json d (skey i s) (ekey pp i) =
  match v_sites v !! s with Some o => Ok (mk_site s o) | None => Err KeyMissing end.
Proof.
  intros R Hs. pose proof (site_lookup _ _ _ _ _ R Hs) as H. destruct (v_sites v !! s) as [o|] eqn:E.
  - destruct H as [rnd H]. rewrite (storage_get_sealed P _ d _ _ _ _ HP (ekey_len _ _) H).
    apply site_roundtrip. destruct (dr_site _ _ _ _ R _ _ E) as (H1 & H2 & _).
    split; cbn; [apply HDs, H1|]. intros a Ha. apply HDs, H2, Ha.
  - apply storage_get_missing, H.
Qed.

Lemma read_password i pp d v x : data_rep i pp d v -> in_ids x ->
  storage_get P password_of_json d (pkey i x) (ekey pp i) =
  match v_pw v !! x with Some e => Ok (to_password x e) | None => Err KeyMissing end.
Proof.
  intros R Hx. pose proof (pw_lookup _ _ _ _ _ R Hx) as H. destruct (v_pw v !! x) as [e|] eqn:E.
  - destruct H as [rnd H]. rewrite (storage_get_sealed P _ d _ _ _ _ HP (ekey_len _ _) H).
    apply password_roundtrip. destruct (dr_pw _ _ _ _ R _ _ E) as (H1 & H2 & _).
    apply entry_password_valid; assumption.
  - apply storage_get_missing, H.
Qed.

Lemma read_alias i pp d v s : data_rep i pp d v -> In s Ds ->
  storage_get_alias P d s (hsec i) (ekey pp i) =
  match v_sites v !! s with Some (Some a) => Ok a | _ => Err NoSuchAlias end.
Proof.
  intros R Hs. unfold storage_get_alias, get_site. fold (skey i s). rewrite (read_site _ _ _ _ _ R Hs).
  destruct (v_sites v !! s) as [[a|]|]; reflexivity.
Qed.

Lemma resolve_rep i pp d v s : data_rep i pp d v -> In (host s) Ds ->
  resolve_site P d s (hsec i) (ekey pp i) = Ok (target v s).
Proof.
  intros R Hs. unfold resolve_site. rewrite normalize_host, (read_alias _ _ _ _ _ R Hs). unfold target.
  destruct (v_sites v !! host s) as [[a|]|]; reflexivity.
Qed.

Lemma target_in i pp d v s : data_rep i pp d v -> In (host s) Ds -> In (target v s) Ds.
Proof.
  intros R Hs. unfold target. destruct (v_sites v !! host s) as [[a|]|] eqn:E; try exact Hs.
  apply (dr_site _ _ _ _ R _ _ E). reflexivity.
Qed.

(** * Changing *)

Lemma put_site i pp d v s o rnd : data_rep i pp d v -> In s Ds -> (forall a, o = Some a -> In a Ds) ->
  data_rep i pp (<[skey i s := sealed P (ekey pp i) rnd (site_to_vec (mk_site s o))]> d)
           (mk_vault (<[s := o]> (v_sites v)) (v_pw v)).
Proof.
  intros R Hs Ho. pose proof (dr_bound _ _ _ _ R) as Hb. split; cbn [v_sites v_pw].
  - exact Hb.
  - apply (dr_pp _ _ _ _ R).
  - rewrite lookup_insert_ne by (apply skey_salt). apply (dr_salt _ _ _ _ R).
  - rewrite lookup_insert_ne by (apply skey_hmac). apply (dr_hmac _ _ _ _ R).
  - intros s' o' H. destruct (decide (s = s')) as [<-|Hne].
    + rewrite lookup_insert in H. injection H as <-. repeat split; try assumption.
      exists rnd. apply lookup_insert.
    + rewrite lookup_insert_ne in H by exact Hne. destruct (dr_site _ _ _ _ R _ _ H) as (H1 & H2 & H3).
      repeat split; try assumption. rewrite lookup_insert_ne; [exact H3|].
      intros Hk. apply Hne. eapply skey_inj; eassumption.
  - intros x e H. destruct (dr_pw _ _ _ _ R _ _ H) as (H1 & H2 & H3). repeat split; try assumption; try apply H1; try apply H2.
    rewrite lookup_insert_ne by (apply skey_pkey). exact H3.
  - intros k Hk. destruct (decide (k = skey i s)) as [->|Hne].
    + right. right. left. exists s. split; [|reflexivity]. rewrite lookup_insert. eexists; reflexivity.
    + rewrite lookup_insert_ne in Hk by congruence.
      destruct (dr_dom _ _ _ _ R k Hk) as [H|[H|[(s' & H1 & ->)|H]]]; auto.
      right. right. left. exists s'. split; [|reflexivity]. rewrite lookup_insert_ne by congruence. exact H1.
Qed.

Lemma put_pw i pp d v x e rnd : data_rep i pp d v -> in_ids x -> entry_valid e ->
  data_rep i pp (<[pkey i x := sealed P (ekey pp i) rnd (password_to_vec (to_password x e))]> d)
           (mk_vault (v_sites v) (<[x := e]> (v_pw v))).
Proof.
  intros R Hx He. pose proof (dr_bound _ _ _ _ R) as Hb. split; cbn [v_sites v_pw].
  - exact Hb.
  - apply (dr_pp _ _ _ _ R).
  - rewrite lookup_insert_ne by (apply pkey_salt). apply (dr_salt _ _ _ _ R).
  - rewrite lookup_insert_ne by (apply pkey_hmac). apply (dr_hmac _ _ _ _ R).
  - intros s o H. destruct (dr_site _ _ _ _ R _ _ H) as (H1 & H2 & H3). repeat split; try assumption.
    rewrite lookup_insert_ne by (intros Hk; symmetry in Hk; revert Hk; apply skey_pkey). exact H3.
  - intros x' e' H. destruct (decide (x = x')) as [<-|Hne].
    + rewrite lookup_insert in H. injection H as <-. split; [exact Hx|]. split; [exact He|].
      exists rnd. apply lookup_insert.
    + rewrite lookup_insert_ne in H by exact Hne. destruct (dr_pw _ _ _ _ R _ _ H) as (H1 & H2 & H3).
      split; [exact H1|]. split; [exact H2|]. rewrite lookup_insert_ne; [exact H3|].
      intros Hk. apply Hne. eapply pkey_inj; eassumption.
  - intros k Hk. destruct (decide (k = pkey i x)) as [->|Hne].
    + right. right. right. exists x. split; [|reflexivity]. rewrite lookup_insert. eexists; reflexivity.
    + rewrite lookup_insert_ne in Hk by congruence.
      destruct (dr_dom _ _ _ _ R k Hk) as [H|[H|[H|(x' & H1 & ->)]]]; auto.
      right. right. right. exists x'. split; [|reflexivity]. rewrite lookup_insert_ne by congruence. exact H1.
Qed.

Lemma drop_site i pp d v s : data_rep i pp d v -> In s Ds ->
  data_rep i pp (delete (skey i s) d) (mk_vault (delete s (v_sites v)) (v_pw v)).
Proof.
  intros R Hs. pose proof (dr_bound _ _ _ _ R) as Hb. split; cbn [v_sites v_pw].
  - exact Hb.
  - apply (dr_pp _ _ _ _ R).
  - rewrite lookup_delete_ne by (apply skey_salt). apply (dr_salt _ _ _ _ R).
  - rewrite lookup_delete_ne by (apply skey_hmac). apply (dr_hmac _ _ _ _ R).
  - intros s' o' H. destruct (decide (s = s')) as [<-|Hne]; [rewrite lookup_delete in H; discriminate|].
    rewrite lookup_delete_ne in H by exact Hne. destruct (dr_site _ _ _ _ R _ _ H) as (H1 & H2 & H3).
    repeat split; try assumption. rewrite lookup_delete_ne; [exact H3|].
    intros Hk. apply Hne. eapply skey_inj; eassumption.
  - intros x e H. destruct (dr_pw _ _ _ _ R _ _ H) as (H1 & H2 & H3). split; [exact H1|]. split; [exact H2|].
    rewrite lookup_delete_ne by (apply skey_pkey). exact H3.
  - intros k Hk. destruct (decide (k = skey i s)) as [->|Hne].
    + rewrite lookup_delete in Hk. destruct Hk; discriminate.
    + rewrite lookup_delete_ne in Hk by congruence.
      destruct (dr_dom _ _ _ _ R k Hk) as [H|[H|[(s' & H1 & ->)|H]]]; auto.
      right. right. left. exists s'. split; [|reflexivity]. rewrite lookup_delete_ne by congruence. exact H1.
Qed.

Lemma drop_pw i pp d v x : data_rep i pp d v -> in_ids x ->
  data_rep i pp (delete (pkey i x) d) (mk_vault (v_sites v) (delete x (v_pw v))).
Proof.
  intros R Hx. pose proof (dr_bound _ _ _ _ R) as Hb. split; cbn [v_sites v_pw].
  - exact Hb.
  - apply (dr_pp _ _ _ _ R).
  - rewrite lookup_delete_ne by (apply pkey_salt). apply (dr_salt _ _ _ _ R).
  - rewrite lookup_delete_ne by (apply pkey_hmac). apply (dr_hmac _ _ _ _ R).
  - intros s o H. destruct (dr_site _ _ _ _ R _ _ H) as (H1 & H2 & H3). repeat split; try assumption.
    rewrite lookup_delete_ne by (intros Hk; symmetry in Hk; revert Hk; apply skey_pkey). exact H3.
  - intros x' e' H. destruct (decide (x = x')) as [<-|Hne]; [rewrite lookup_delete in H; discriminate|].
    rewrite lookup_delete_ne in H by exact Hne. destruct (dr_pw _ _ _ _ R _ _ H) as (H1 & H2 & H3).
    split; [exact H1|]. split; [exact H2|]. rewrite lookup_delete_ne; [exact H3|].
    intros Hk. apply Hne. eapply pkey_inj; eassumption.
  - intros k Hk. destruct (decide (k = pkey i x)) as [->|Hne].
    + rewrite lookup_delete in Hk. destruct Hk; discriminate.
    + rewrite lookup_delete_ne in Hk by congruence.
      destruct (dr_dom _ _ _ _ R k Hk) as [H|[H|[H|(x' & H1 & ->)]]]; auto.
      right. right. right. exists x'. split; [|reflexivity]. rewrite lookup_delete_ne by congruence. exact H1.
Qed.

Lemma data_text_ok i pp d v : data_rep i pp d v -> text_ok d.
Proof.
  intros R k c Hk. destruct (dr_dom _ _ _ _ R k (mk_is_Some _ _ Hk)) as [->|[->|[(s & [o Hs] & ->)|(x & [e Hx] & ->)]]].
  - rewrite (dr_salt _ _ _ _ R) in Hk. injection Hk as <-. split; [reflexivity|apply utf8_b64].
  - rewrite (dr_hmac _ _ _ _ R) in Hk. injection Hk as <-. split; [reflexivity|apply utf8_sealed].
  - destruct (dr_site _ _ _ _ R _ _ Hs) as (_ & _ & rnd & H). rewrite H in Hk. injection Hk as <-.
    split; [apply utf8_site_key|apply utf8_sealed].
  - destruct (dr_pw _ _ _ _ R _ _ Hx) as (_ & _ & rnd & H). rewrite H in Hk. injection Hk as <-.
    split; [apply utf8_password_key|apply utf8_sealed].
Qed.

(** * Listing *)

Lemma filter_map_ok {A B} (f : A -> res (option B)) (g : A -> option B) l :
  (forall x, In x l -> f x = Ok (g x)) -> filter_map f l = Ok (omap g l).
Proof.
  induction l as [|x l IH]; intros H; [reflexivity|]. cbn [filter_map]. rewrite H by (left; reflexivity).
  cbn [bind]. rewrite IH by (intros y Hy; apply H; right; exact Hy). cbn [bind].
  cbn. destruct (g x); reflexivity.
Qed.

Lemma find_map_ok {A B} (f : A -> res (option B)) (g : A -> option B) l :
  (forall x, In x l -> f x = Ok (g x)) -> find_map f l = Ok (head (omap g l)).
Proof.
  induction l as [|x l IH]; intros H; [reflexivity|]. cbn [find_map]. rewrite H by (left; reflexivity).
  cbn [bind]. destruct (g x) as [y|] eqn:E; cbn; rewrite E; [reflexivity|].
  apply IH. intros y Hy. apply H. right. exact Hy.
Qed.

Lemma filter_perm {A} (f : A -> bool) l l' : l ≡ₚ l' -> List.filter f l ≡ₚ List.filter f l'.
Proof.
  induction 1 as [|x l l' _ IH|x y l|l1 l2 l3 _ IH1 _ IH2]; cbn.
  - reflexivity.
  - destruct (f x); [constructor|]; assumption.
  - destruct (f x), (f y); try reflexivity. constructor.
  - etransitivity; eassumption.
Qed.

Lemma filter_map_comm {A B} (f : B -> bool) (g : A -> B) l :
  List.filter f (map g l) = map g (List.filter (fun x => f (g x)) l).
Proof. induction l as [|x l IH]; [reflexivity|]. cbn. destruct (f (g x)); cbn; rewrite IH; reflexivity. Qed.

Lemma filter_and {A} (f g : A -> bool) l :
  List.filter f (List.filter g l) = List.filter (fun x => g x && f x) l.
Proof.
  induction l as [|x l IH]; [reflexivity|]. cbn. destruct (g x); cbn; [destruct (f x)|]; rewrite IH; reflexivity.
Qed.

Lemma filter_ext_all {A} (f g : A -> bool) l : (forall x, f x = g x) -> List.filter f l = List.filter g l.
Proof. intros H. induction l as [|x l IH]; [reflexivity|]. cbn. rewrite H, IH. reflexivity. Qed.

Lemma keys_perm i pp d v : data_rep i pp d v ->
  (map_to_list d).*1 ≡ₚ SALT_KEY :: HMAC_SECRET_KEY :: (skey i <$> (map_to_list (v_sites v)).*1) ++
                        (pkey i <$> (map_to_list (v_pw v)).*1).
Proof.
  intros R. pose proof (dr_bound _ _ _ _ R) as Hb.
  assert (forall s, s ∈ (map_to_list (v_sites v)).*1 <-> is_Some (v_sites v !! s)) as Es.
  { intros s. rewrite elem_of_list_fmap. split.
    - intros ([s' o] & -> & H). apply elem_of_map_to_list in H. eexists; exact H.
    - intros [o H]. exists (s, o). split; [reflexivity|]. apply elem_of_map_to_list, H. }
  assert (forall x, x ∈ (map_to_list (v_pw v)).*1 <-> is_Some (v_pw v !! x)) as Ex.
  { intros s. rewrite elem_of_list_fmap. split.
    - intros ([s' o] & -> & H). apply elem_of_map_to_list in H. eexists; exact H.
    - intros [o H]. exists (s, o). split; [reflexivity|]. apply elem_of_map_to_list, H. }
  apply list.NoDup_Permutation.
  - apply NoDup_fst_map_to_list.
  - constructor; [|constructor; [|apply list.NoDup_app; split; [|split]]].
    + rewrite elem_of_cons, elem_of_app, !elem_of_list_fmap.
      intros [H|[(s & H & _)|(x & H & _)]]; [discriminate|..]; symmetry in H; revert H.
      * apply skey_salt.
      * apply pkey_salt.
    + rewrite elem_of_app, !elem_of_list_fmap.
      intros [(s & H & _)|(x & H & _)]; symmetry in H; revert H.
      * apply skey_hmac.
      * apply pkey_hmac.
    + apply NoDup_fmap_2_strong; [|apply NoDup_fst_map_to_list]. intros s s' H1 H2.
      apply Es in H1, H2. destruct H1 as [o H1], H2 as [o' H2].
      apply skey_inj; [exact Hb|exact (proj1 (dr_site _ _ _ _ R _ _ H1))|exact (proj1 (dr_site _ _ _ _ R _ _ H2))].
    + intros k. rewrite !elem_of_list_fmap. intros (s & -> & _) (x & H & _). revert H. apply skey_pkey.
    + apply NoDup_fmap_2_strong; [|apply NoDup_fst_map_to_list]. intros s s' H1 H2.
      apply Ex in H1, H2. destruct H1 as [o H1], H2 as [o' H2].
      apply pkey_inj; [exact Hb|apply (dr_pw _ _ _ _ R _ _ H1)|apply (dr_pw _ _ _ _ R _ _ H2)].
  - intros k. rewrite !elem_of_cons, elem_of_app, !(elem_of_list_fmap _ _ k). split.
    + intros ([k' c] & -> & H). apply elem_of_map_to_list in H. cbn.
      destruct (dr_dom _ _ _ _ R k' (mk_is_Some _ _ H)) as [E|[E|[(s & H1 & E)|(x & H1 & E)]]]; auto.
      * right. right. left. exists s. split; [exact E|apply Es, H1].
      * right. right. right. exists x. split; [exact E|apply Ex, H1].
    + assert (is_Some (d !! k) -> exists y, k = y.1 /\ y ∈ map_to_list d) as Hd.
      { intros [c H]. exists (k, c). split; [reflexivity|]. apply elem_of_map_to_list, H. }
      intros [->|[->|[(s & -> & H)|(x & -> & H)]]]; apply Hd.
      * rewrite (dr_salt _ _ _ _ R). eexists; reflexivity.
      * rewrite (dr_hmac _ _ _ _ R). eexists; reflexivity.
      * apply Es in H. destruct H as [o H]. destruct (dr_site _ _ _ _ R _ _ H) as (_ & _ & rnd & ->).
        eexists; reflexivity.
      * apply Ex in H. destruct H as [e H]. destruct (dr_pw _ _ _ _ R _ _ H) as (_ & _ & rnd & ->).
        eexists; reflexivity.
Qed.

(** What the two listing closures do on the existing keys. *)
Lemma item_reserved i pp d v s : data_rep i pp d v ->
  password_item P d s (hsec i) (ekey pp i) SALT_KEY = Ok None /\
  password_item P d s (hsec i) (ekey pp i) HMAC_SECRET_KEY = Ok None /\
  site_item P d (ekey pp i) SALT_KEY = Ok None /\
  site_item P d (ekey pp i) HMAC_SECRET_KEY = Ok None.
Proof. intros _. repeat split; reflexivity. Qed.

Lemma password_item_site i pp d s s' : password_item P d s (hsec i) (ekey pp i) (skey i s') = Ok None.
Proof. unfold password_item, skey. rewrite password_filter_site. reflexivity. Qed.

Lemma password_item_password i pp d v s x e : data_rep i pp d v -> In s Ds -> v_pw v !! x = Some e ->
  password_item P d s (hsec i) (ekey pp i) (pkey i x) =
  Ok (if bytes_eqb (pid_site x) s then Some (to_password x e) else None).
Proof.
  intros R Hs Hx. destruct (dr_pw _ _ _ _ R _ _ Hx) as (Hin & _ & _).
  unfold password_item. fold (pkey i x). rewrite (read_password _ _ _ _ _ R Hin), Hx.
  destruct (starts_with _ _) eqn:E.
  - apply password_filter_password in E. cbn [to_id id_site] in E.
    assert (s = x.1.1) as ->.
    { eapply (as_site _ _ _ _ _ HA); [|exact Hs|apply Hin|exact E]. pose proof (dr_bound _ _ _ _ R). lia. }
    unfold pid_site. rewrite bytes_eqb_refl. reflexivity.
  - destruct (bytes_eqb (pid_site x) s) eqn:Eb; [|reflexivity]. apply bytes_eqb_eq in Eb. subst s.
    exfalso. assert (starts_with (get_site_prefix P (pid_site x) (hsec i)) (pkey i x) = true) as E'
      by (apply password_filter_password; reflexivity). congruence.
Qed.

Lemma site_item_site i pp d v s o : data_rep i pp d v -> v_sites v !! s = Some o ->
  site_item P d (ekey pp i) (skey i s) = Ok (Some (mk_site s o)).
Proof.
  intros R Hs. destruct (dr_site _ _ _ _ R _ _ Hs) as (Hin & _ & _).
  unfold site_item. fold (site_filter (skey i s)).
  assert (site_filter (skey i s) = true) as -> by apply site_filter_site.
  rewrite (read_site _ _ _ _ _ R Hin), Hs. reflexivity.
Qed.

Lemma site_item_password i pp d x : site_item P d (ekey pp i) (pkey i x) = Ok None.
Proof.
  unfold site_item. fold (site_filter (pkey i x)).
  assert (site_filter (pkey i x) = false) as -> by apply site_filter_password. reflexivity.
Qed.

Lemma omap_step {A B} (f : A -> option B) x l :
  omap f (x :: l) = match f x with Some y => y :: omap f l | None => omap f l end.
Proof. reflexivity. Qed.

Definition the_item {A} (f : bytes -> res (option A)) (k : bytes) : option A :=
  match f k with Ok o => o | _ => None end.

Lemma in_keys i pp d v k : data_rep i pp d v -> In k (map_to_list d).*1 ->
  k = SALT_KEY \/ k = HMAC_SECRET_KEY \/
  (exists s o, v_sites v !! s = Some o /\ k = skey i s) \/ (exists x e, v_pw v !! x = Some e /\ k = pkey i x).
Proof.
  intros R H. apply elem_of_list_In in H. apply elem_of_list_fmap in H. destruct H as ([k' c] & -> & H).
  apply elem_of_map_to_list in H. cbn.
  destruct (dr_dom _ _ _ _ R k' (mk_is_Some _ _ H)) as [E|[E|[(s & [o H1] & E)|(x & [e H1] & E)]]]; eauto 10.
Qed.

Lemma list_rep i pp d v s order : data_rep i pp d v -> In s Ds -> order ≡ₚ (map_to_list d).*1 ->
  (forall k, In k order -> password_item P d s (hsec i) (ekey pp i) k =
                           Ok (the_item (password_item P d s (hsec i) (ekey pp i)) k)) /\
  omap (the_item (password_item P d s (hsec i) (ekey pp i))) order ≡ₚ
  map (fun '(x, e) => to_password x e)
      (List.filter (fun '(x, _) => bytes_eqb (pid_site x) s) (map_to_list (v_pw v))).
Proof.
  intros R Hs Ho. destruct (item_reserved _ _ _ _ s R) as (I1 & I2 & _). split.
  - intros k Hk. assert (In k (map_to_list d).*1) as Hk' by (apply elem_of_list_In; rewrite <- Ho; apply elem_of_list_In, Hk).
    unfold the_item.
    destruct (in_keys _ _ _ _ _ R Hk') as [->|[->|[(s' & o & _ & ->)|(x & e & Hx & ->)]]].
    + rewrite I1. reflexivity.
    + rewrite I2. reflexivity.
    + rewrite password_item_site. reflexivity.
    + rewrite (password_item_password _ _ _ _ _ _ _ R Hs Hx). reflexivity.
  - rewrite Ho, (keys_perm _ _ _ _ R). rewrite !omap_step.
    replace (the_item (password_item P d s (hsec i) (ekey pp i)) SALT_KEY) with (@None password)
      by (unfold the_item; rewrite I1; reflexivity).
    replace (the_item (password_item P d s (hsec i) (ekey pp i)) HMAC_SECRET_KEY) with (@None password)
      by (unfold the_item; rewrite I2; reflexivity).
    rewrite omap_app.
    assert (forall l : list bytes, omap (the_item (password_item P d s (hsec i) (ekey pp i))) (skey i <$> l) = []) as ->.
    { induction l as [|s' l IH]; [reflexivity|]. rewrite fmap_cons, omap_step. unfold the_item at 1. rewrite password_item_site. exact IH. }
    cbn [app].
    assert (forall l, (forall x e, In (x, e) l -> v_pw v !! x = Some e) ->
      omap (the_item (password_item P d s (hsec i) (ekey pp i))) (pkey i <$> l.*1) =
      map (fun '(x, e) => to_password x e) (List.filter (fun '(x, _) => bytes_eqb (pid_site x) s) l)) as Hl.
    { induction l as [|[x e] l IH]; intros H; [reflexivity|]. rewrite !fmap_cons, omap_step.
      unfold the_item at 1. cbn [fst]. rewrite (password_item_password _ _ _ _ _ _ _ R Hs (H x e (or_introl eq_refl))).
      specialize (IH (fun x e Hin => H x e (or_intror Hin))).
      cbn [List.filter]. destruct (bytes_eqb (pid_site x) s); cbn [map]; rewrite <- IH; reflexivity. }
    rewrite Hl; [reflexivity|]. intros x e H. apply elem_of_map_to_list, elem_of_list_In, H.
Qed.

Lemma sites_rep i pp d v order : data_rep i pp d v -> order ≡ₚ (map_to_list d).*1 ->
  (forall k, In k order -> site_item P d (ekey pp i) k = Ok (the_item (site_item P d (ekey pp i)) k)) /\
  omap (the_item (site_item P d (ekey pp i))) order ≡ₚ map (fun '(s, o) => mk_site s o) (map_to_list (v_sites v)).
Proof.
  intros R Ho. destruct (item_reserved _ _ _ _ [] R) as (_ & _ & I1 & I2). split.
  - intros k Hk. assert (In k (map_to_list d).*1) as Hk' by (apply elem_of_list_In; rewrite <- Ho; apply elem_of_list_In, Hk).
    unfold the_item.
    destruct (in_keys _ _ _ _ _ R Hk') as [->|[->|[(s' & o & Hs & ->)|(x & e & Hx & ->)]]].
    + rewrite I1. reflexivity.
    + rewrite I2. reflexivity.
    + rewrite (site_item_site _ _ _ _ _ _ R Hs). reflexivity.
    + rewrite site_item_password. reflexivity.
  - rewrite Ho, (keys_perm _ _ _ _ R). rewrite !omap_step.
    replace (the_item (site_item P d (ekey pp i)) SALT_KEY) with (@None M_Types.site)
      by (unfold the_item; rewrite I1; reflexivity).
    replace (the_item (site_item P d (ekey pp i)) HMAC_SECRET_KEY) with (@None M_Types.site)
      by (unfold the_item; rewrite I2; reflexivity).
    rewrite omap_app.
    assert (forall l : list pid, omap (the_item (site_item P d (ekey pp i))) (pkey i <$> l) = []) as ->.
    { induction l as [|s' l IH]; [reflexivity|]. rewrite fmap_cons, omap_step. unfold the_item at 1. rewrite site_item_password. exact IH. }
    rewrite app_nil_r.
    assert (forall l, (forall s o, In (s, o) l -> v_sites v !! s = Some o) ->
      omap (the_item (site_item P d (ekey pp i))) (skey i <$> l.*1) = map (fun '(s, o) => mk_site s o) l) as Hl.
    { induction l as [|[s o] l IH]; intros H; [reflexivity|]. rewrite !fmap_cons, omap_step.
      unfold the_item at 1. cbn [fst]. rewrite (site_item_site _ _ _ _ _ _ R (H s o (or_introl eq_refl))).
      specialize (IH (fun x e Hin => H x e (or_intror Hin))). exact (f_equal (cons (mk_site s o)) IH). }
    rewrite Hl; [reflexivity|]. intros s o H. apply elem_of_map_to_list, elem_of_list_In, H.
Qed.

(** * The simulation relation *)

Definition secrets_rep (s : st) (opened : bool) (pp : bytes) (i : nat) : Prop :=
  if opened then s_key s = Some (ekey pp i) /\ s_hmac s = Some (hsec i) /\ s_primary s = Some pp
  else s_key s = None /\ s_hmac s = None /\ s_primary s = None.

Definition mem_rep (s : st) (w : world) : Prop :=
  match w_mem w with
  | None => s_data s = ∅ /\ w_open w = false /\ s_key s = None /\ s_hmac s = None /\ s_primary s = None
  | Some (pp, v) => exists i, data_rep i pp (s_data s) v /\ secrets_rep s (w_open w) pp i
  end.

Definition file_rep (disk : option bytes) (f : option (bytes * vault)) : Prop :=
  match f with
  | None => is_ok (load P disk) = false
  | Some (pp, v) => exists i d, load P disk = Ok d /\ data_rep i pp d v
  end.

Definition srep (s : st) (w : world) : Prop := mem_rep s w /\ file_rep (s_disk s) (w_file w).

(** Everything but the data and the counters is the same. *)
Definition frame (s s' : st) : Prop :=
  s_key s' = s_key s /\ s_hmac s' = s_hmac s /\ s_primary s' = s_primary s /\ s_disk s' = s_disk s /\
  s_flushes s' = s_flushes s.

Lemma frame_refl s : frame s s.
Proof. repeat split. Qed.
Lemma frame_trans s1 s2 s3 : frame s1 s2 -> frame s2 s3 -> frame s1 s3.
Proof. unfold frame. intuition congruence. Qed.

Lemma allowed_exists o : exists wr, allowed o wr.
Proof. destruct o; eexists; cbn; eauto. Qed.

Definition unit_out (r : res unit) : out := match r with Ok _ => ODone | Err e => OErr e | Panic => OPanic end.

Lemma flush_same s : s_data (snd (flush P s)) = s_data s /\ s_key (snd (flush P s)) = s_key s /\
  s_hmac (snd (flush P s)) = s_hmac s /\ s_primary (snd (flush P s)) = s_primary s.
Proof. unfold flush. destruct (p_write P (s_flushes s)); repeat split. Qed.

Lemma flush_file s w i pp v :
  data_rep i pp (s_data s) v -> file_rep (s_disk s) (w_file w) ->
  exists wr, allowed (p_write P (s_flushes s)) wr /\
    file_rep (s_disk (snd (flush P s))) (w_file (fst (commit wr w pp v))) /\
    unit_out (fst (flush P s)) = snd (commit wr w pp v).
Proof.
  intros R Hfile.
  assert (load P (Some (flush_text P s)) = Ok (s_data s)) as Hl by (apply load_flush; [exact HP|eapply data_text_ok, R]).
  unfold flush. destruct (p_write P (s_flushes s)) as [| | |n] eqn:E.
  - exists Saved. split; [reflexivity|]. split; [|reflexivity]. exists i, (s_data s). split; [exact Hl|exact R].
  - exists (Kept CreateDirFailure). split; [reflexivity|]. split; [|reflexivity]. exact Hfile.
  - exists (Kept FileWriteFailure). split; [reflexivity|]. split; [|reflexivity]. exact Hfile.
  - destruct (Nat.le_gt_cases (length (flush_text P s)) n) as [Hn|Hn].
    + exists SavedLate. split; [right; reflexivity|]. split; [|reflexivity].
      exists i, (s_data s). cbn [snd s_disk]. rewrite firstn_all2 by exact Hn. split; [exact Hl|exact R].
    + exists Torn. split; [left; reflexivity|]. split; [|reflexivity].
      unfold file_rep; cbn [fst snd commit w_file s_disk].
      destruct (load_prefix P s (firstn n (flush_text P s)) (skipn n (flush_text P s))) as [-> | ->]; try reflexivity.
      * eapply data_text_ok, R.
      * symmetry. apply firstn_skipn.
      * intros H. apply (f_equal (@length byte)) in H. rewrite skipn_length in H.
        change (length (@nil byte)) with 0 in H. lia.
Qed.

Lemma commit_mem wr w pp v : w_mem (fst (commit wr w pp v)) = Some (pp, v) /\ w_open (fst (commit wr w pp v)) = w_open w.
Proof. destruct wr; split; reflexivity. Qed.

Lemma flush_rep s0 s w i pp v :
  frame s0 s -> data_rep i pp (s_data s) v -> secrets_rep s0 (w_open w) pp i ->
  file_rep (s_disk s0) (w_file w) ->
  exists wr, allowed (p_write P (s_flushes s0)) wr /\ srep (snd (flush P s)) (fst (commit wr w pp v)) /\
    unit_out (fst (flush P s)) = snd (commit wr w pp v).
Proof.
  intros (F1 & F2 & F3 & F4 & F5) R Hsec Hfile.
  rewrite <- F4 in Hfile. rewrite <- F5.
  destruct (flush_file s w i pp v R Hfile) as (wr & Hwr & Hf & Ho). exists wr. split; [exact Hwr|]. split; [|exact Ho].
  split; [|exact Hf]. unfold mem_rep. destruct (commit_mem wr w pp v) as [-> ->]. exists i.
  destruct (flush_same s) as (-> & K1 & K2 & K3). split; [exact R|].
  unfold secrets_rep in *. rewrite K1, K2, K3, F1, F2, F3. exact Hsec.
Qed.

Lemma set_encrypted_eq key m ek s : length ek = 32 ->
  exists s', set_encrypted P key m ek s = (Ok tt, s') /\ frame s s' /\ s_rand s' = S (s_rand s) /\
    s_data s' = <[key := sealed P ek (s_rand s) m]> (s_data s).
Proof.
  intros H. unfold set_encrypted. rewrite encrypt_sealed by exact H. eexists. split; [reflexivity|].
  repeat split; reflexivity.
Qed.

Definition ensured (v : vault) (t : bytes) : vault :=
  mk_vault (match v_sites v !! t with Some _ => v_sites v | None => <[t := None]> (v_sites v) end) (v_pw v).

Lemma ensure_rep i pp v t s : data_rep i pp (s_data s) v -> In t Ds ->
  exists s', ensure_site_data P t (hsec i) (ekey pp i) s = (Ok tt, s') /\ frame s s' /\
    data_rep i pp (s_data s') (ensured v t).
Proof.
  intros R Ht. unfold ensure_site_data. fold (skey i t). rewrite (read_site _ _ _ _ _ R Ht). unfold ensured.
  destruct (v_sites v !! t) as [o|].
  - exists s. split; [reflexivity|]. split; [apply frame_refl|]. destruct v; exact R.
  - unfold storage_set.
    destruct (set_encrypted_eq (skey i t) (site_to_vec (mk_site t None)) (ekey pp i) s (ekey_len _ _))
      as (s' & E & F & _ & D).
    exists s'. split; [exact E|]. split; [exact F|]. rewrite D. apply put_site; [exact R|exact Ht|discriminate].
Qed.

Lemma set_password_rep i pp v x e s : data_rep i pp (s_data s) v -> in_ids x -> entry_valid e ->
  exists s', set_password P (to_password x e) (hsec i) (ekey pp i) s = (Ok tt, s') /\ frame s s' /\
    data_rep i pp (s_data s') (mk_vault (v_sites v) (<[x := e]> (v_pw v))).
Proof.
  intros R Hx He. unfold set_password, storage_set. rewrite pass_id_to_password. fold (pkey i x).
  destruct (set_encrypted_eq (pkey i x) (password_to_vec (to_password x e)) (ekey pp i) s (ekey_len _ _))
    as (s' & E & F & _ & D).
  exists s'. split; [exact E|]. split; [exact F|]. rewrite D. apply put_pw; assumption.
Qed.

Lemma io_remove_some key s c : s_data s !! key = Some c ->
  exists s', io_remove key s = (Ok tt, s') /\ frame s s' /\ s_data s' = delete key (s_data s).
Proof.
  intros H. unfold io_remove. rewrite H. eexists. split; [reflexivity|]. repeat split; reflexivity.
Qed.

Definition in_scope (o : op) : Prop :=
  op_valid o /\ (forall s, In s (op_sites o) -> In s Ds) /\ (forall n r, In (n, r) (op_ids o) -> In (n, r) Ids) /\
  (forall q, In q (op_passwords o) -> In q Qs).

Definition step_ok (o : op) (s : st) (w : world) : Prop :=
  exists wr, allowed (p_write P (s_flushes s)) wr /\ srep (snd (exec P o s)) (fst (vstep P wr w o)) /\
    agrees P (fst (exec P o s)) (snd (vstep P wr w o)).

Lemma step_read o s w :
  srep s w -> snd (exec P o s) = s -> (forall wr, fst (vstep P wr w o) = w) ->
  (forall wr, agrees P (fst (exec P o s)) (snd (vstep P wr w o))) -> step_ok o s w.
Proof.
  intros R H1 H2 H3. destruct (allowed_exists (p_write P (s_flushes s))) as [wr Hwr].
  exists wr. rewrite H1, H2. auto.
Qed.

Lemma agrees_commit a wr w pp v : a = snd (commit wr w pp v) -> agrees P a (snd (commit wr w pp v)).
Proof. destruct wr; cbn; trivial. Qed.

(** * Locked instances *)

Lemma locked_secrets s w : srep s w -> (w_open w = false \/ w_mem w = None) ->
  s_key s = None /\ s_hmac s = None /\ s_primary s = None.
Proof.
  intros [Hm _] H. unfold mem_rep in Hm. destruct (w_mem w) as [[pp v]|].
  - destruct H as [H|H]; [|discriminate]. destruct Hm as (i & _ & Hs). rewrite H in Hs. exact Hs.
  - apply Hm.
Qed.

Lemma open_cases w : (w_open w = false \/ w_mem w = None) \/
  (w_open w = true /\ exists pp v, w_mem w = Some (pp, v)).
Proof. destruct (w_open w); [|auto]. destruct (w_mem w) as [[pp v]|]; eauto. Qed.

Lemma open_secrets s w pp v : srep s w -> w_open w = true -> w_mem w = Some (pp, v) ->
  exists i, data_rep i pp (s_data s) v /\
    s_key s = Some (ekey pp i) /\ s_hmac s = Some (hsec i) /\ s_primary s = Some pp.
Proof.
  intros [Hm _] Ho Hw. unfold mem_rep in Hm. rewrite Hw, Ho in Hm. exact Hm.
Qed.

(** * Single steps *)

Ltac run_model := cbv [exec as_out get_alias set_alias remove_alias remove_sites set_generated set_stored has get
  get_notes set_notes remove get_recovery_code decode_recovery_code bindM the_hmac the_key the_primary reads lift ret].

Ltac locked_step R L :=
  let Lk := fresh in let Lh := fresh in let Lp := fresh in
  destruct (locked_secrets _ _ R L) as (Lk & Lh & Lp);
  apply step_read; [exact R| | |];
  [run_model; rewrite ?Lk, ?Lh, ?Lp; reflexivity
  |intros wr; cbn [vstep]; destruct L as [L|L]; rewrite L; [|destruct (w_open _)]; reflexivity
  |intros wr; run_model; rewrite ?Lk, ?Lh, ?Lp; cbn [vstep]; destruct L as [L|L]; rewrite L;
   [|destruct (w_open _)]; reflexivity].

Ltac open_step R w :=
  destruct (open_cases w) as [L|(Ho & pp & v & Hw)]; [locked_step R L|];
  destruct (open_secrets _ _ _ _ R Ho Hw) as (i & D & Hk & Hh & Hp).

Ltac read_step R :=
  lazymatch goal with
  | Hk : s_key _ = Some _, Hh : s_hmac _ = Some _, Hp : s_primary _ = Some _,
    Ho : w_open _ = true, Hw : w_mem _ = Some _ |- _ =>
      apply step_read; [exact R|..];
      [run_model; rewrite ?Hh, ?Hk, ?Hp; cbn [ok_or fst snd]
      |intros wr; cbn [vstep]; rewrite Ho, Hw; cbv beta iota
      |intros wr; run_model; rewrite ?Hh, ?Hk, ?Hp; cbn [vstep ok_or fst snd]; rewrite Ho, Hw; cbv beta iota]
  end.

Lemma step_get_alias x s w : srep s w -> in_scope (GetAlias x) -> step_ok (GetAlias x) s w.
Proof.
  intros R (_ & HD & _). assert (In (host x) Ds) as Hx by (apply HD; left; reflexivity).
  open_step R w. read_step R.
  - reflexivity.
  - reflexivity.
  - rewrite normalize_host, (read_alias _ _ _ _ _ D Hx). destruct (v_sites v !! host x) as [[a|]|]; reflexivity.
Qed.

Lemma id_in v i pp d x n r : data_rep i pp d v -> In (host x) Ds -> In (n, rev_of r) Ids ->
  in_ids (target v x, n, rev_of r).
Proof. intros D Hx Hn. split; [exact (target_in _ _ _ _ _ D Hx)|exact Hn]. Qed.

Lemma to_id_new v x n r : password_id_new (target v x) n r = to_id (target v x, n, rev_of r).
Proof. apply password_id_new_eq. Qed.

Lemma step_has x n r s w : srep s w -> in_scope (Has x n r) -> step_ok (Has x n r) s w.
Proof.
  intros R (_ & HD & HI & _). assert (In (host x) Ds) as Hx by (apply HD; left; reflexivity).
  assert (In (n, rev_of r) Ids) as Hn by (apply HI; left; reflexivity).
  open_step R w. pose proof (id_in _ _ _ _ _ _ _ D Hx Hn) as Hid. read_step R.
  - rewrite (resolve_rep _ _ _ _ _ D Hx). reflexivity.
  - reflexivity.
  - rewrite (resolve_rep _ _ _ _ _ D Hx). unfold has_password, io_contains.
    rewrite to_id_new. fold (pkey i (target v x, n, rev_of r)).
    pose proof (pw_lookup _ _ _ _ _ D Hid) as Hl.
    destruct (v_pw v !! _) as [e|]; [destruct Hl as [rnd ->]|rewrite Hl]; reflexivity.
Qed.

Lemma reveal_value pp x e : text_out (password_value P pp (to_password x e)) = reveal P pp x (e_secret e).
Proof.
  destruct x as [[a b] c], e as [[len cs|t] notes]; [|reflexivity]. unfold to_password, password_value, reveal.
  cbn [e_secret gp_length gp_charset]. f_equal. f_equal. unfold generated_salt, generation_input, to_id.
  cbn [gp_id id_site id_name id_revision fst snd]. destruct c as [|c0 c]; [reflexivity|].
  rewrite <- !app_assoc. reflexivity.
Qed.

Lemma step_get x n r s w : srep s w -> in_scope (Get x n r) -> step_ok (Get x n r) s w.
Proof.
  intros R (_ & HD & HI & _). assert (In (host x) Ds) as Hx by (apply HD; left; reflexivity).
  assert (In (n, rev_of r) Ids) as Hn by (apply HI; left; reflexivity).
  open_step R w. pose proof (id_in _ _ _ _ _ _ _ D Hx Hn) as Hid.
  assert (get_password P (s_data s) (password_id_new (target v x) n r) (hsec i) (ekey pp i) =
    match v_pw v !! (target v x, n, rev_of r) with
    | Some e => Ok (to_password (target v x, n, rev_of r) e) | None => Err KeyMissing end) as Hg.
  { unfold get_password. rewrite to_id_new. apply (read_password _ _ _ _ _ D Hid). }
  read_step R.
  - rewrite (resolve_rep _ _ _ _ _ D Hx), Hg. destruct (v_pw v !! _); reflexivity.
  - destruct (v_pw v !! _); reflexivity.
  - rewrite (resolve_rep _ _ _ _ _ D Hx), Hg. destruct (v_pw v !! _) as [e|]; [|reflexivity].
    pose proof (reveal_value pp (target v x, n, rev_of r) e) as Hr. cbn [fst snd]. unfold text_out in Hr. rewrite Hr.
    unfold reveal. destruct (e_secret e) as [len cs|t]; [|reflexivity]. unfold text_out.
    destruct (derive_password _ _ _ _ _); reflexivity.
Qed.

Lemma step_get_notes x n r s w : srep s w -> in_scope (GetNotes x n r) -> step_ok (GetNotes x n r) s w.
Proof.
  intros R (_ & HD & HI & _). assert (In (host x) Ds) as Hx by (apply HD; left; reflexivity).
  assert (In (n, rev_of r) Ids) as Hn by (apply HI; left; reflexivity).
  open_step R w. pose proof (id_in _ _ _ _ _ _ _ D Hx Hn) as Hid.
  assert (get_password P (s_data s) (password_id_new (target v x) n r) (hsec i) (ekey pp i) =
    match v_pw v !! (target v x, n, rev_of r) with
    | Some e => Ok (to_password (target v x, n, rev_of r) e) | None => Err KeyMissing end) as Hg.
  { unfold get_password. rewrite to_id_new. apply (read_password _ _ _ _ _ D Hid). }
  read_step R.
  - rewrite (resolve_rep _ _ _ _ _ D Hx), Hg. destruct (v_pw v !! _); reflexivity.
  - destruct (v_pw v !! _); reflexivity.
  - rewrite (resolve_rep _ _ _ _ _ D Hx), Hg. destruct (v_pw v !! _) as [e|]; [|reflexivity].
    destruct e as [[len cs|t] notes]; reflexivity.
Qed.

Lemma step_decode c s w : srep s w -> step_ok (DecodeCode c) s w.
Proof.
  intros R. open_step R w. read_step R.
  - reflexivity.
  - reflexivity.
  - unfold text_out. destruct (decode P c pp); reflexivity.
Qed.

(** Finish a modifying operation: the data are in place, now they are written. *)
Lemma step_commit o s0 s w i pp v :
  srep s0 w -> w_open w = true -> frame s0 s -> data_rep i pp (s_data s) v ->
  s_key s0 = Some (ekey pp i) /\ s_hmac s0 = Some (hsec i) /\ s_primary s0 = Some pp ->
  exec P o s0 = as_out (fun _ => ODone) (flush P s) ->
  (forall wr, vstep P wr w o = commit wr w pp v) ->
  step_ok o s0 w.
Proof.
  intros R Ho F D Hs He Hv.
  destruct (flush_rep s0 s w i pp v F D) as (wr & Hwr & R' & Hr).
  - unfold secrets_rep. rewrite Ho. exact Hs.
  - apply R.
  - exists wr. split; [exact Hwr|]. rewrite He, Hv. split; [exact R'|]. apply agrees_commit. exact Hr.
Qed.

Lemma put_ensured v x e : mk_vault (v_sites (ensured v (pid_site x))) (<[x := e]> (v_pw (ensured v (pid_site x)))) = put v x e.
Proof. reflexivity. Qed.

Lemma set_steps i pp v x e s : data_rep i pp (s_data s) v -> in_ids x -> entry_valid e ->
  exists s1 s2, ensure_site_data P (pid_site x) (hsec i) (ekey pp i) s = (Ok tt, s1) /\
    set_password P (to_password x e) (hsec i) (ekey pp i) s1 = (Ok tt, s2) /\ frame s s2 /\
    data_rep i pp (s_data s2) (put v x e).
Proof.
  intros D Hx He. destruct (ensure_rep _ _ _ _ _ D (proj1 Hx)) as (s1 & E1 & F1 & D1).
  destruct (set_password_rep _ _ _ _ _ _ D1 Hx He) as (s2 & E2 & F2 & D2).
  exists s1, s2. split; [exact E1|]. split; [exact E2|]. split; [eapply frame_trans; eassumption|].
  rewrite <- put_ensured. exact D2.
Qed.

Lemma step_set_generated x n r len cs s w :
  srep s w -> in_scope (SetGenerated x n r len cs) -> step_ok (SetGenerated x n r len cs) s w.
Proof.
  intros R (HV & HD & HI & _). assert (In (host x) Ds) as Hx by (apply HD; left; reflexivity).
  assert (In (n, rev_of r) Ids) as Hn by (apply HI; left; reflexivity).
  open_step R w. pose proof (id_in _ _ _ _ _ _ _ D Hx Hn) as Hid.
  destruct (set_steps _ _ _ _ (mk_entry (SGenerated len cs) []) _ D Hid) as (s1 & s2 & E1 & E2 & F & D2).
  { split; [reflexivity|]. apply HV. }
  eapply (step_commit _ s s2 w i pp); [exact R|exact Ho|exact F|exact D2|auto| |].
  - run_model. rewrite Hh, Hk. cbn [ok_or]. rewrite (resolve_rep _ _ _ _ _ D Hx).
    unfold pid_site in E1. cbn [fst] in E1. rewrite E1.
    unfold generated_password_new. rewrite to_id_new.
    change (Generated (mk_generated (to_id (target v x, n, rev_of r)) len cs []))
      with (to_password (target v x, n, rev_of r) (mk_entry (SGenerated len cs) [])).
    rewrite E2. reflexivity.
  - intros wr. cbn [vstep]. rewrite Ho, Hw. reflexivity.
Qed.

Lemma step_set_stored x n r t s w :
  srep s w -> in_scope (SetStored x n r t) -> step_ok (SetStored x n r t) s w.
Proof.
  intros R (HV & HD & HI & _). assert (In (host x) Ds) as Hx by (apply HD; left; reflexivity).
  assert (In (n, rev_of r) Ids) as Hn by (apply HI; left; reflexivity).
  open_step R w. pose proof (id_in _ _ _ _ _ _ _ D Hx Hn) as Hid.
  destruct (set_steps _ _ _ _ (mk_entry (SFixed t) []) _ D Hid) as (s1 & s2 & E1 & E2 & F & D2).
  { split; [reflexivity|]. apply HV. }
  eapply (step_commit _ s s2 w i pp); [exact R|exact Ho|exact F|exact D2|auto| |].
  - run_model. rewrite Hh, Hk. cbn [ok_or]. rewrite (resolve_rep _ _ _ _ _ D Hx).
    unfold pid_site in E1. cbn [fst] in E1. rewrite E1.
    unfold stored_password_new. rewrite to_id_new.
    change (Stored (mk_stored (to_id (target v x, n, rev_of r)) t []))
      with (to_password (target v x, n, rev_of r) (mk_entry (SFixed t) [])).
    rewrite E2. reflexivity.
  - intros wr. cbn [vstep]. rewrite Ho, Hw. reflexivity.
Qed.

Lemma set_notes_password x e notes :
  pass_set_notes (to_password x e) notes = to_password x (mk_entry (e_secret e) notes).
Proof. destruct e as [[len cs|t] n]; reflexivity. Qed.

Lemma step_set_notes x n r t s w :
  srep s w -> in_scope (SetNotes x n r t) -> step_ok (SetNotes x n r t) s w.
Proof.
  intros R (HV & HD & HI & _). assert (In (host x) Ds) as Hx by (apply HD; left; reflexivity).
  assert (In (n, rev_of r) Ids) as Hn by (apply HI; left; reflexivity).
  open_step R w. pose proof (id_in _ _ _ _ _ _ _ D Hx Hn) as Hid.
  assert (get_password P (s_data s) (password_id_new (target v x) n r) (hsec i) (ekey pp i) =
    match v_pw v !! (target v x, n, rev_of r) with
    | Some e => Ok (to_password (target v x, n, rev_of r) e) | None => Err KeyMissing end) as Hg.
  { unfold get_password. rewrite to_id_new. apply (read_password _ _ _ _ _ D Hid). }
  destruct (v_pw v !! (target v x, n, rev_of r)) as [e|] eqn:Ee.
  - destruct (set_password_rep _ _ _ (target v x, n, rev_of r) (mk_entry (e_secret e) t) _ D Hid) as (s2 & E2 & F & D2).
    { split; [apply HV|]. apply (dr_pw _ _ _ _ D _ _ Ee). }
    eapply (step_commit _ s s2 w i pp); [exact R|exact Ho|exact F|exact D2|auto| |].
    + run_model. rewrite Hh, Hk. cbn [ok_or]. rewrite (resolve_rep _ _ _ _ _ D Hx), Hg, set_notes_password, E2.
      reflexivity.
    + intros wr. cbn [vstep]. rewrite Ho, Hw; cbv beta iota; rewrite Ee. reflexivity.
  - read_step R.
    + rewrite (resolve_rep _ _ _ _ _ D Hx), Hg. reflexivity.
    + rewrite Ee. reflexivity.
    + rewrite (resolve_rep _ _ _ _ _ D Hx), Hg, Ee. reflexivity.
Qed.

Lemma step_remove x n r s w :
  srep s w -> in_scope (Remove x n r) -> step_ok (Remove x n r) s w.
Proof.
  intros R (_ & HD & HI & _). assert (In (host x) Ds) as Hx by (apply HD; left; reflexivity).
  assert (In (n, rev_of r) Ids) as Hn by (apply HI; left; reflexivity).
  open_step R w. pose proof (id_in _ _ _ _ _ _ _ D Hx Hn) as Hid.
  pose proof (pw_lookup _ _ _ _ _ D Hid) as Hl.
  destruct (v_pw v !! (target v x, n, rev_of r)) as [e|] eqn:Ee.
  - destruct Hl as [rnd Hl]. destruct (io_remove_some _ _ _ Hl) as (s2 & E2 & F & D2).
    pose proof (drop_pw _ _ _ _ _ D Hid) as D3. rewrite <- D2 in D3.
    eapply (step_commit _ s s2 w i pp); [exact R|exact Ho|exact F|exact D3|auto| |].
    + run_model. rewrite Hh, Hk. cbn [ok_or]. rewrite (resolve_rep _ _ _ _ _ D Hx).
      unfold remove_password. rewrite to_id_new. fold (pkey i (target v x, n, rev_of r)). rewrite E2. reflexivity.
    + intros wr. cbn [vstep]. rewrite Ho, Hw; cbv beta iota; rewrite Ee. reflexivity.
  - assert (io_remove (pkey i (target v x, n, rev_of r)) s = (Err KeyMissing, s)) as E2
      by (unfold io_remove; rewrite Hl; reflexivity).
    read_step R.
    + rewrite (resolve_rep _ _ _ _ _ D Hx). unfold remove_password. rewrite to_id_new.
      fold (pkey i (target v x, n, rev_of r)). rewrite E2. reflexivity.
    + rewrite Ee. reflexivity.
    + rewrite (resolve_rep _ _ _ _ _ D Hx), Ee. unfold remove_password. rewrite to_id_new.
      fold (pkey i (target v x, n, rev_of r)). rewrite E2. reflexivity.
Qed.

Lemma step_remove_alias x s w :
  srep s w -> in_scope (RemoveAlias x) -> step_ok (RemoveAlias x) s w.
Proof.
  intros R (_ & HD & HI & _). assert (In (host x) Ds) as Hx by (apply HD; left; reflexivity).
  open_step R w. pose proof (site_lookup _ _ _ _ _ D Hx) as Hl. pose proof (read_site _ _ _ _ _ D Hx) as Hr.
  destruct (v_sites v !! host x) as [[a|]|] eqn:Ee.
  - destruct Hl as [rnd Hl]. destruct (io_remove_some _ _ _ Hl) as (s2 & E2 & F & D2).
    pose proof (drop_site _ _ _ _ _ D Hx) as D3. rewrite <- D2 in D3.
    eapply (step_commit _ s s2 w i pp); [exact R|exact Ho|exact F|exact D3|auto| |].
    + run_model. rewrite Hh, Hk. cbn [ok_or]. unfold storage_remove_alias, bindM, reads.
      rewrite normalize_host. fold (skey i (host x)). rewrite Hr. cbn [map_err site_alias]. rewrite E2. reflexivity.
    + intros wr. cbn [vstep]. rewrite Ho, Hw; cbv beta iota; rewrite Ee. reflexivity.
  - read_step R.
    + unfold storage_remove_alias, bindM, reads. rewrite normalize_host. fold (skey i (host x)). rewrite Hr. reflexivity.
    + rewrite Ee. reflexivity.
    + unfold storage_remove_alias, bindM, reads. rewrite normalize_host. fold (skey i (host x)). rewrite Hr, Ee. reflexivity.
  - read_step R.
    + unfold storage_remove_alias, bindM, reads. rewrite normalize_host. fold (skey i (host x)). rewrite Hr. reflexivity.
    + rewrite Ee. reflexivity.
    + unfold storage_remove_alias, bindM, reads. rewrite normalize_host. fold (skey i (host x)). rewrite Hr, Ee. reflexivity.
Qed.

Lemma any_rep i pp v s x : data_rep i pp (s_data s) v -> In x Ds ->
  any_password P s x (hsec i) (ekey pp i) = Ok (has_passwords v x).
Proof.
  intros D Hx. unfold any_password, io_keys.
  destruct (list_rep _ _ _ _ _ _ D Hx (ok_order P HP (s_tick s) (s_data s))) as [H1 H2].
  rewrite (find_map_ok _ _ _ H1). cbn [bind]. f_equal. unfold has_passwords.
  set (l := omap _ _) in *. clearbody l. apply Permutation_length in H2. rewrite map_length in H2.
  generalize dependent (map_to_list (v_pw v)). intros m Hl.
  destruct l as [|y l]; cbn [head].
  - symmetry. apply not_true_iff_false. intros Hex. apply existsb_exists in Hex. destruct Hex as ([x' e] & Hin & He).
    assert (In (x', e) (List.filter (fun '(x0, _) => bytes_eqb (pid_site x0) x) m)) as Hf
      by (apply filter_In; split; assumption).
    destruct (List.filter _ m); [destruct Hf|discriminate Hl].
  - symmetry. apply existsb_exists. destruct (List.filter _ m) as [|z f] eqn:Ef; [discriminate Hl|].
    exists z. apply (filter_In (fun '(x0, _) => bytes_eqb (pid_site x0) x)). rewrite Ef. left. reflexivity.
Qed.

Lemma step_set_alias x a s w :
  srep s w -> in_scope (SetAlias x a) -> step_ok (SetAlias x a) s w.
Proof.
  intros R (_ & HD & HI & _). assert (In (host x) Ds) as Hx by (apply HD; left; reflexivity).
  assert (In (host a) Ds) as Ha by (apply HD; right; left; reflexivity).
  open_step R w. pose proof (any_rep _ _ _ _ _ D Hx) as Hany.
  destruct (has_passwords v (host x)) eqn:Ep.
  { read_step R.
    - rewrite (resolve_rep _ _ _ _ _ D Ha), normalize_host, Hany. reflexivity.
    - rewrite Ep. reflexivity.
    - rewrite (resolve_rep _ _ _ _ _ D Ha), normalize_host, Hany, Ep. reflexivity. }
  destruct (bytes_eqb (host x) (target v a)) eqn:Es.
  { read_step R.
    - rewrite (resolve_rep _ _ _ _ _ D Ha), normalize_host, Hany. unfold storage_set_alias. rewrite Es. reflexivity.
    - rewrite Ep, Es. reflexivity.
    - rewrite (resolve_rep _ _ _ _ _ D Ha), normalize_host, Hany, Ep. unfold storage_set_alias. rewrite Es. reflexivity. }
  destruct (set_encrypted_eq (skey i (host x)) (site_to_vec (mk_site (host x) (Some (target v a)))) (ekey pp i) s (ekey_len _ _))
      as (s2 & E2 & F & _ & D2).
  assert (data_rep i pp (s_data s2) (mk_vault (<[host x := Some (target v a)]> (v_sites v)) (v_pw v))) as D3.
  { rewrite D2. apply put_site; [exact D|exact Hx|]. intros a' [= <-]. exact (target_in _ _ _ _ _ D Ha). }
  eapply (step_commit _ s s2 w i pp); [exact R|exact Ho|exact F|exact D3|auto| |].
  - run_model. rewrite Hh, Hk. cbn [ok_or]. rewrite (resolve_rep _ _ _ _ _ D Ha), normalize_host, Hany.
    unfold storage_set_alias. rewrite Es. unfold storage_set. fold (skey i (host x)). rewrite E2. reflexivity.
  - intros wr. cbn [vstep]. rewrite Ho, Hw; cbv beta iota; rewrite Ep, Es. reflexivity.
Qed.

Lemma remove_loop_rep i pp l : forall v s, data_rep i pp (s_data s) v -> (forall x, In x l -> In x Ds) ->
  exists s', remove_sites_loop P l (hsec i) s =
      ((if snd (drop_sites (v_sites v) l) then Ok tt else Err KeyMissing), s') /\ frame s s' /\
    data_rep i pp (s_data s') (mk_vault (fst (drop_sites (v_sites v) l)) (v_pw v)).
Proof.
  induction l as [|x l IH]; intros v s D HD.
  - exists s. split; [reflexivity|]. split; [apply frame_refl|]. destruct v; exact D.
  - assert (In x Ds) as Hx by (apply HD; left; reflexivity).
    pose proof (site_lookup _ _ _ _ _ D Hx) as Hl. cbn [remove_sites_loop drop_sites].
    unfold bindM, storage_remove_site. fold (skey i x).
    destruct (v_sites v !! x) as [o|] eqn:E.
    + destruct Hl as [rnd Hl]. destruct (io_remove_some _ _ _ Hl) as (s2 & E2 & F & D2). rewrite E2.
      pose proof (drop_site _ _ _ _ _ D Hx) as D3. rewrite <- D2 in D3.
      destruct (IH _ _ D3) as (s' & E' & F' & D'); [intros y Hy; apply HD; right; exact Hy|].
      exists s'. split; [exact E'|]. split; [eapply frame_trans; eassumption|exact D'].
    + unfold io_remove. rewrite Hl. exists s. split; [reflexivity|]. split; [apply frame_refl|]. destruct v; exact D.
Qed.

Lemma step_remove_sites l s w :
  srep s w -> in_scope (RemoveSites l) -> step_ok (RemoveSites l) s w.
Proof.
  intros R (_ & HD & HI & _). destruct l as [|x l].
  { apply step_read; [exact R|reflexivity|reflexivity|reflexivity]. }
  open_step R w. destruct (remove_loop_rep _ _ (x :: l) _ _ D HD) as (s2 & E2 & F & D2).
  assert (exec P (RemoveSites (x :: l)) s = as_out (fun _ => ODone)
    ((let! _ := remove_sites_loop P (x :: l) (hsec i) in flush P) s)) as He.
  { unfold exec. f_equal. unfold remove_sites, the_hmac, reads. unfold bindM at 1. rewrite Hh. reflexivity. }
  unfold bindM in He. rewrite E2 in He.
  destruct (drop_sites (v_sites v) (x :: l)) as [m b] eqn:Em. destruct b; cbn [fst snd] in *.
  - eapply (step_commit _ s s2 w i pp); [exact R|exact Ho|exact F|exact D2|auto| |].
    + exact He.
    + intros wr. cbn [vstep]. rewrite Ho, Hw; cbv beta iota; rewrite Em. reflexivity.
  - destruct (allowed_exists (p_write P (s_flushes s))) as [wr Hwr]. exists wr. split; [exact Hwr|].
    rewrite He. cbn [vstep]. rewrite Ho, Hw; cbv beta iota; rewrite Em. split; [|reflexivity].
    destruct F as (F1 & F2 & F3 & F4 & F5). split; cbn [fst snd as_out].
    + exists i. split; [exact D2|]. unfold secrets_rep. cbn [w_open]. rewrite F1, F2, F3, ?Ho. auto.
    + rewrite F4. apply R.
Qed.

Lemma step_list x wc s w : srep s w -> in_scope (ListPasswords x wc) -> step_ok (ListPasswords x wc) s w.
Proof.
  intros R (_ & HD & _). assert (In (host x) Ds) as Hx by (apply HD; left; reflexivity).
  destruct (open_cases w) as [L|(Ho & pp & v & Hw)].
  { destruct (locked_secrets _ _ R L) as (Lk & _ & _).
    assert (exec P (ListPasswords x wc) s = (OPanic, s)) as He
      by (cbv [exec as_out list_ reads unlocked]; rewrite Lk; reflexivity).
    apply step_read; [exact R|rewrite He; reflexivity| |]; intros wr; try rewrite He; cbn [vstep];
      (destruct L as [L|L]; rewrite L; [|destruct (w_open _)]; reflexivity). }
  destruct (open_secrets _ _ _ _ R Ho Hw) as (i & D & Hk & Hh & Hp).
  destruct (list_rep _ _ _ _ _ _ D (target_in _ _ _ _ _ D Hx) (ok_order P HP (s_tick s) (s_data s))) as [H1 H2].
  set (L := omap _ _) in H2.
  assert (exec P (ListPasswords x wc) s =
    (OPasswords (map show_password (List.filter (fun p => p_wild P wc (id_name (pass_id p))) L)), s)) as He.
  { cbv [exec as_out list_ reads unlocked]. rewrite Hk, Hh. cbn [negb unwrap bind].
    rewrite (resolve_rep _ _ _ _ _ D Hx). cbn [bind]. unfold list_passwords, io_keys.
    rewrite (filter_map_ok _ _ _ H1). reflexivity. }
  apply step_read; [exact R|rewrite He; reflexivity| |]; intros wr; [|rewrite He]; cbn [vstep]; rewrite Ho, Hw; cbv beta iota.
  - reflexivity.
  - cbn [fst snd agrees]. eexists. split; [reflexivity|].
    rewrite (filter_perm _ _ _ H2), filter_map_comm, filter_and, map_map.
    assert (forall l : list (pid * entry), map (fun y => show_password (let '(x0, e) := y in to_password x0 e)) l = l) as ->.
    { induction l as [|[y e] l IH]; [reflexivity|]. cbn [map]. rewrite show_to_password, IH. reflexivity. }
    rewrite (filter_ext_all _ (fun '(y, _) => bytes_eqb (pid_site y) (target v x) && p_wild P wc (pid_name y))); [reflexivity|].
    intros [y e]. rewrite pass_id_to_password. reflexivity.
Qed.

Lemma step_list_sites wc s w : srep s w -> step_ok (ListSites wc) s w.
Proof.
  intros R. destruct (open_cases w) as [L|(Ho & pp & v & Hw)].
  { destruct (locked_secrets _ _ R L) as (Lk & _ & _).
    assert (exec P (ListSites wc) s = (OPanic, s)) as He
      by (cbv [exec as_out list_sites reads unlocked]; rewrite Lk; reflexivity).
    apply step_read; [exact R|rewrite He; reflexivity| |]; intros wr; try rewrite He; cbn [vstep];
      (destruct L as [L|L]; rewrite L; [|destruct (w_open _)]; reflexivity). }
  destruct (open_secrets _ _ _ _ R Ho Hw) as (i & D & Hk & Hh & Hp).
  destruct (sites_rep _ _ _ _ _ D (ok_order P HP (s_tick s) (s_data s))) as [H1 H2].
  set (L := omap _ _) in H2.
  set (f := fun x : M_Types.site => match site_alias x with Some a => p_wild P wc a | None => false end || p_wild P wc (site_name x)).
  assert (exec P (ListSites wc) s = (OSites (map show_site (List.filter f L)), s)) as He.
  { cbv [exec as_out list_sites reads unlocked]. rewrite Hk. cbn [negb unwrap bind]. unfold storage_list_sites, io_keys.
    rewrite (filter_map_ok _ _ _ H1). reflexivity. }
  apply step_read; [exact R|rewrite He; reflexivity| |]; intros wr; [|rewrite He]; cbn [vstep]; rewrite Ho, Hw; cbv beta iota.
  - reflexivity.
  - cbn [fst snd agrees]. eexists. split; [reflexivity|].
    rewrite (filter_perm _ _ _ H2), filter_map_comm, map_map.
    assert (forall l : list (bytes * option bytes), map (fun y => show_site (let '(x0, e) := y in mk_site x0 e)) l = l) as ->.
    { induction l as [|[y e] l IH]; [reflexivity|]. cbn [map]. rewrite IH. reflexivity. }
    rewrite (filter_ext_all _ (fun '(s, a) =>
                match a with Some t => p_wild P wc t | None => false end || p_wild P wc s)); [reflexivity|].
    intros [y o]. reflexivity.
Qed.

Lemma step_initialized s w : srep s w -> step_ok Initialized s w.
Proof.
  intros R. apply step_read; [exact R|reflexivity|reflexivity|]. intros wr.
  cbn [exec vstep fst snd agrees]. f_equal. destruct R as [Hm _]. unfold mem_rep in Hm.
  unfold initialized, storage_initialized, io_contains. destruct (w_mem w) as [[pp v]|].
  - destruct Hm as (i & D & _). rewrite (dr_salt _ _ _ _ D), (dr_hmac _ _ _ _ D). reflexivity.
  - destruct Hm as (-> & _). rewrite !lookup_empty. reflexivity.
Qed.

Lemma step_unlocked s w : srep s w -> step_ok Unlocked s w.
Proof.
  intros R. apply step_read; [exact R|reflexivity|reflexivity|]. intros wr.
  cbn [exec vstep fst snd agrees]. f_equal. unfold unlocked. destruct (open_cases w) as [L|(Ho & pp & v & Hw)].
  - destruct (locked_secrets _ _ R L) as (-> & _ & _). destruct L as [->|L]; [reflexivity|].
    destruct R as [Hm _]. unfold mem_rep in Hm. rewrite L in Hm. destruct Hm as (_ & -> & _). reflexivity.
  - destruct (open_secrets _ _ _ _ R Ho Hw) as (i & _ & -> & _). rewrite Ho. reflexivity.
Qed.

Lemma step_lock s w : srep s w -> step_ok Lock s w.
Proof.
  intros R. destruct (allowed_exists (p_write P (s_flushes s))) as [wr Hwr]. exists wr. split; [exact Hwr|].
  split; [|reflexivity]. destruct R as [Hm Hf]. split; [|exact Hf]. unfold mem_rep in *.
  cbn [vstep fst snd w_mem w_open exec as_out lock set_secrets s_data]. destruct (w_mem w) as [[pp v]|].
  - destruct Hm as (i & D & _). exists i. split; [exact D|]. repeat split.
  - destruct Hm as (-> & _). repeat split.
Qed.

Lemma step_restart s w : srep s w -> step_ok Restart s w.
Proof.
  intros R. destruct (allowed_exists (p_write P (s_flushes s))) as [wr Hwr]. exists wr. split; [exact Hwr|].
  split; [|reflexivity]. destruct R as [_ Hf]. split; [|exact Hf]. unfold mem_rep, file_rep in *.
  cbn [vstep fst snd w_mem w_open exec passwords_new s_data].
  destruct (w_file w) as [[pp v]|].
  - destruct Hf as (i & d & -> & D). exists i. split; [exact D|]. repeat split.
  - destruct (load P (s_disk s)); [discriminate Hf|..]; repeat split.
Qed.

Lemma key_for_eq pp i : get_encryption_key P pp (p_random P i 16) = Ok (ekey pp i).
Proof. apply get_encryption_key_eq. Qed.

Lemma read_salt i pp d v : data_rep i pp d v -> get_salt d = Ok (p_random P i 16).
Proof. intros D. unfold get_salt. rewrite (dr_salt _ _ _ _ D). cbn [ok_or bind]. rewrite b64_roundtrip. reflexivity. Qed.

Lemma read_hmac i pp d v q : data_rep i pp d v -> In q Qs ->
  get_hmac_secret P d (ekey q i) = if bytes_eqb q pp then Ok (hsec i) else Err DecryptionFailure.
Proof.
  intros D Hq. unfold get_hmac_secret. rewrite (dr_hmac _ _ _ _ D). cbn [ok_or bind].
  destruct (bytes_eqb q pp) eqn:E.
  - apply bytes_eqb_eq in E. subst q. rewrite decrypt_sealed by (exact HP || apply ekey_len). cbn [bind].
    rewrite string_roundtrip by apply utf8_b64. cbn [bind]. rewrite b64_roundtrip. reflexivity.
  - apply bytes_eqb_neq in E. unfold sealed.
    rewrite decrypt_data_parts by (apply ekey_len || apply (ok_random_len P HP)).
    unfold hsec, ekey. rewrite (as_open _ _ _ _ _ HA i pp q); [reflexivity| |apply (dr_pp _ _ _ _ D)|exact Hq|congruence].
    pose proof (dr_bound _ _ _ _ D). lia.
Qed.

Lemma step_unlock q s w : srep s w -> in_scope (Unlock q) -> step_ok (Unlock q) s w.
Proof.
  intros R (_ & _ & _ & HQ). assert (In q Qs) as Hq by (apply HQ; left; reflexivity).
  destruct (allowed_exists (p_write P (s_flushes s))) as [wr Hwr]. exists wr. split; [exact Hwr|].
  destruct R as [Hm Hf]. destruct (w_mem w) as [[pp v]|] eqn:Ew.
  - pose proof Hm as Hm'. unfold mem_rep in Hm'. rewrite Ew in Hm'. destruct Hm' as (i & D & Hs).
    assert (unlock P q s = if bytes_eqb q pp then set_secrets (Some (ekey q i)) (Some (hsec i)) (Some q) s
                           else (Err DecryptionFailure, s)) as He.
    { unfold unlock, bindM, reads, lift. rewrite (read_salt _ _ _ _ D), key_for_eq, (read_hmac _ _ _ _ _ D Hq).
      destruct (bytes_eqb q pp); reflexivity. }
    cbn [exec as_out vstep]. rewrite He, Ew. cbv beta iota. destruct (bytes_eqb q pp) eqn:E.
    + apply bytes_eqb_eq in E. subst q. split; [|reflexivity]. split; [|exact Hf]. unfold mem_rep. cbn [fst w_mem w_open].
      exists i. split; [exact D|]. repeat split.
    + split; [|reflexivity]. split; [exact Hm|exact Hf].
  - cbn [exec as_out vstep]. rewrite Ew. cbv beta iota.
    pose proof Hm as Hm'. unfold mem_rep in Hm'. rewrite Ew in Hm'. destruct Hm' as (Hd & _).
    assert (unlock P q s = (Err StorageNotInitialized, s)) as ->.
    { unfold unlock, bindM, reads, get_salt. rewrite Hd, lookup_empty. reflexivity. }
    split; [|reflexivity]. split; [exact Hm|exact Hf].
Qed.

Lemma step_recovery x n r t s w : srep s w -> in_scope (RecoveryCode x n r t) -> step_ok (RecoveryCode x n r t) s w.
Proof.
  intros R (HV & _). destruct (allowed_exists (p_write P (s_flushes s))) as [wr Hwr]. exists wr. split; [exact Hwr|].
  destruct (w_mem w) as [[pp v]|] eqn:Ew.
  - pose proof (proj1 R) as Hm'. unfold mem_rep in Hm'. rewrite Ew in Hm'. destruct Hm' as (i & D & Hs).
    cbn [exec vstep]. rewrite Ew. cbv beta iota.
    unfold get_recovery_code, bindM, reads, the_key. rewrite (read_salt _ _ _ _ D). cbv beta iota.
    destruct (w_open w) eqn:Eo.
    + destruct Hs as (Hk & Hh & Hp). unfold reads; cbv beta; rewrite Hk. cbn [ok_or]. unfold as_out. cbn [fst snd].
      split; [rewrite <- Hk; exact R|]. cbn [agrees]. change (sp_password (stored_password_new x n r t)) with t.
      destruct (generate_outcome P (s_rand s) t (p_random P i 16) (ekey pp i) HP (ekey_len _ _))
        as [[Hl _]|[(_ & H1 & H2 & ->)|(_ & _ & code & Hc)]].
      * exfalso. apply Hl, (ok_random_len P HP).
      * right. split; [reflexivity|]. split; [exact H2|].
        change 256 with (N.to_nat 256) in H1. pose proof (Nat.div_mod_eq (45 + length t + 13) 14).
        pose proof (Nat.mod_upper_bound (45 + length t + 13) 14). lia.
      * left. exists code. rewrite Hc. split; [reflexivity|]. intros Hne Hnul.
        rewrite (recovery_roundtrip P _ t _ _ code pp HP (key_for_eq pp i) HV Hc).
        apply strip_nuls_id in Hnul. rewrite Hnul. destruct t; [contradiction|]. rewrite andb_false_r. reflexivity.
    + destruct Hs as (Hk & _). unfold reads; cbv beta; rewrite Hk. split; [exact R|reflexivity].
  - pose proof (proj1 R) as Hm'. unfold mem_rep in Hm'. rewrite Ew in Hm'. destruct Hm' as (Hd & _).
    cbn [exec vstep]. rewrite Ew. cbv beta iota.
    unfold get_recovery_code, bindM, reads, get_salt. rewrite Hd, lookup_empty. split; [exact R|reflexivity].
Qed.

Lemma fresh_rep i pp : i + 2 < bound -> In pp Qs ->
  data_rep i pp (<[HMAC_SECRET_KEY := sealed P (ekey pp i) (i + 2) (string_to_vec (b64_encode (hsec i)))]>
                   (<[SALT_KEY := b64_encode (p_random P i 16)]> ∅)) empty_vault.
Proof.
  intros Hb Hq. split; cbn [empty_vault v_sites v_pw].
  - exact Hb.
  - exact Hq.
  - rewrite lookup_insert_ne by discriminate. apply lookup_insert.
  - apply lookup_insert.
  - intros s o H. rewrite lookup_empty in H. discriminate.
  - intros x e H. rewrite lookup_empty in H. discriminate.
  - intros k [c H]. apply lookup_insert_Some in H. destruct H as [[<- _]|[_ H]]; [auto|].
    apply lookup_insert_Some in H. destruct H as [[<- _]|[_ H]]; [auto|]. rewrite lookup_empty in H. discriminate.
Qed.

Lemma step_reset pp s w : srep s w -> in_scope (Reset pp) -> s_rand s + 2 < bound ->
  (unlocked s = true -> fst (exec P (Reset pp) s) = ODone) -> step_ok (Reset pp) s w.
Proof.
  intros R (_ & _ & _ & HQ) Hb Hok. assert (In pp Qs) as Hq by (apply HQ; left; reflexivity).
  set (i := s_rand s) in *.
  set (s1 := mk_st (<[HMAC_SECRET_KEY := sealed P (ekey pp i) (i + 2) (string_to_vec (b64_encode (hsec i)))]>
                   (<[SALT_KEY := b64_encode (p_random P i 16)]> ∅)) (s_key s) (s_hmac s) (s_primary s) (s_disk s)
                   (S (S (S (s_tick s)))) (s_flushes s) (S (S (S i)))).
  assert (reset P pp s = (let! _ := flush P in set_secrets (Some (ekey pp i)) (Some (hsec i)) (Some pp)) s1) as He.
  { unfold reset. unfold draw at 1. unfold bindM at 1. unfold lift. unfold bindM at 1. fold i. rewrite key_for_eq.
    unfold draw. unfold bindM at 1. cbn [s_rand]. replace (p_random P (S i) 32) with (hsec i)
      by (unfold hsec; rewrite Nat.add_1_r; reflexivity).
    unfold storage_clear, io_clear, put_data, set_salt, io_set, set_hmac_secret.
    unfold bindM at 1. unfold bindM at 1. cbn [s_data s_key s_hmac s_primary s_disk s_tick s_flushes s_rand].
    unfold bindM at 1. unfold put_data at 1. unfold set_encrypted. cbn [s_data s_key s_hmac s_primary s_disk s_tick s_flushes s_rand].
    rewrite encrypt_sealed by apply ekey_len. unfold io_set, put_data.
    cbn [s_data s_key s_hmac s_primary s_disk s_tick s_flushes s_rand].
    replace (sealed P (ekey pp i) (S (S i))) with (sealed P (ekey pp i) (i + 2)) by (f_equal; lia). reflexivity. }
  pose proof (fresh_rep i pp Hb Hq) as D.
  destruct (flush_file s1 w i pp empty_vault D (proj2 R)) as (wr & Hwr & Hf & Hout).
  exists wr. split; [exact Hwr|]. destruct (commit_mem wr w pp empty_vault) as [Hcm Hco].
  assert (snd (vstep P wr w (Reset pp)) = snd (commit wr w pp empty_vault) /\
          w_mem (fst (vstep P wr w (Reset pp))) = Some (pp, empty_vault) /\
          w_file (fst (vstep P wr w (Reset pp))) = w_file (fst (commit wr w pp empty_vault)) /\
          w_open (fst (vstep P wr w (Reset pp))) =
            match snd (commit wr w pp empty_vault) with ODone => true | _ => w_open w end) as (V1 & V2 & V3 & V4).
  { cbn [vstep]. destruct (commit wr w pp empty_vault) as [w' r]. cbn [fst snd] in *. auto. }
  destruct (flush_same s1) as (K0 & K1 & K2 & K3).
  cbn [exec] in Hok |- *. rewrite He in Hok |- *. unfold bindM in Hok |- *.
  destruct (flush P s1) as [[[]|e|] s2] eqn:Ef; cbn [fst snd as_out unit_out] in *.
  - split; [|rewrite V1, <- Hout; reflexivity]. split.
    + unfold mem_rep. rewrite V2, V4, <- Hout. exists i. cbn [s_data set_secrets snd]. rewrite K0. split; [exact D|].
      repeat split.
    + rewrite V3. exact Hf.
  - assert (w_open w = false /\ s_key s = None /\ s_hmac s = None /\ s_primary s = None) as (Ho & S1 & S2 & S3).
    { unfold unlocked in Hok. destruct (s_key s) as [k|] eqn:Ek; [discriminate (Hok eq_refl)|].
      destruct (open_cases w) as [L|(Ho & pp' & v' & Hw)].
      - pose proof (locked_secrets _ _ R L) as (_ & L2 & L3). split; [|auto]. destruct L as [L|L]; [exact L|].
        destruct R as [Hm _]. unfold mem_rep in Hm. rewrite L in Hm. apply Hm.
      - destruct (open_secrets _ _ _ _ R Ho Hw) as (i' & _ & Hk & _). congruence. }
    split; [|rewrite V1, <- Hout; reflexivity]. split.
    + unfold mem_rep. rewrite V2, V4, <- Hout, Ho. exists i. rewrite K0. split; [exact D|].
      unfold secrets_rep. rewrite K1, K2, K3. cbn [s1 s_key s_hmac s_primary]. auto.
    + rewrite V3. exact Hf.
  - exfalso. unfold flush in Ef. destruct (p_write P (s_flushes s1)); discriminate Ef.
Qed.

Definition calm (o : op) (s : st) : Prop :=
  match o with
  | Reset _ => unlocked s = true -> fst (exec P o s) = ODone
  | _ => True
  end.

Lemma step_any o s w : srep s w -> in_scope o -> calm o s -> (forall pp, o = Reset pp -> s_rand s + 2 < bound) ->
  step_ok o s w.
Proof.
  intros R Hs Hc Hb. destruct o.
  - apply step_reset; auto. eapply Hb; reflexivity.
  - apply step_unlock; assumption.
  - apply step_lock; assumption.
  - apply step_restart; assumption.
  - apply step_initialized; assumption.
  - apply step_unlocked; assumption.
  - apply step_get_alias; assumption.
  - apply step_set_alias; assumption.
  - apply step_remove_alias; assumption.
  - apply step_remove_sites; assumption.
  - apply step_set_generated; assumption.
  - apply step_set_stored; assumption.
  - apply step_has; assumption.
  - apply step_get; assumption.
  - apply step_get_notes; assumption.
  - apply step_set_notes; assumption.
  - apply step_remove; assumption.
  - apply step_list; assumption.
  - apply step_list_sites; assumption.
  - apply step_recovery; assumption.
  - apply step_decode; assumption.
Qed.

End vault.
