(** The calls of the library use the storage through its trait only. *)
From stdpp Require Import gmap.
From Verif Require Import M_Base M_Utf8 M_Prims M_Types M_Crypto M_Recovery M_Json M_Serde M_Storage M_Passwords S_Vault M_History M_Double S_Double
  P_Base P_File P_Double.
From Verif Require P_Api P_Storage.

Section client.
Context (P : prims) (HP : prims_ok P).

Fixpoint client_bind {A B : Type} (c : client A) (k : A -> client B) : client B :=
  match c with
  | Finish a => k a
  | AskKey key f => AskKey key (fun r => client_bind (f r) k)
  | GetValue key f => GetValue key (fun r => client_bind (f r) k)
  | SetValue key value f => SetValue key value (client_bind f k)
  | DropValue key f => DropValue key (fun r => client_bind (f r) k)
  | ClearAll f => ClearAll (client_bind f k)
  | AllKeys f => AllKeys (fun r => client_bind (f r) k)
  | SaveAll f => SaveAll (fun r => client_bind (f r) k)
  end.
Lemma with_file_bind {A B : Type} (c : client A) (k : A -> client B) : forall s,
  with_file P (client_bind c k) s = let '(a, s') := with_file P c s in with_file P (k a) s'.
Proof.
  induction c as [a|key f IH|key f IH|key value f IH|key f IH|f IH|f IH|f IH]; intros s; cbn [client_bind with_file]; auto.
  - destruct (io_remove key s) as [r s']. apply IH.
  - destruct (flush P s) as [r s']. apply IH.
Qed.
Lemma with_file_owned {A : Type} (c : client A) a : forall s,
  with_file P c (with_owned a s) = (fst (with_file P c s), with_owned a (snd (with_file P c s))).
Proof.
  induction c as [x|key f IH|key f IH|key value f IH|key f IH|f IH|f IH|f IH]; intros s; cbn [with_file].
  - reflexivity.
  - apply IH.
  - apply IH.
  - exact (IH (snd (io_set key value s))).
  - unfold io_remove. cbn [s_data with_owned]. destruct (s_data s !! key); [|apply IH].
    exact (IH (ok_or None KeyMissing) s) || exact (IH (Ok tt) (snd (put_data (delete key (s_data s)) s))).
  - exact (IH (snd (io_clear s))).
  - exact (IH _ s).
  - assert (flush P (with_owned a s) = (fst (flush P s), with_owned a (snd (flush P s)))) as ->.
    { unfold flush. cbn [s_flushes with_owned]. destruct (p_write P (s_flushes s)); reflexivity. }
    destruct (flush P s) as [r s']. cbn [fst snd]. apply IH.
Qed.

Lemma texts_bind {A B : Type} (c : client A) (k : A -> client B) : sets_texts c -> (forall a, sets_texts (k a)) -> sets_texts (client_bind c k).
Proof.
  intros Hc Hk. induction c as [x|key f IH|key f IH|key value f IH|key f IH|f IH|f IH|f IH]; cbn in *; auto.
  destruct Hc as (H1 & H2 & H3). auto.
Qed.

Definition isc {A : Type} (m : M A) : Type :=
  { c : owned -> client (res A * owned) | (forall s, m s = library P c s) /\ forall a, sets_texts (c a) }.

Lemma isc_ext {A : Type} (m m' : M A) : (forall s, m' s = m s) -> isc m -> isc m'.
Proof. intros H [c [Hc Ht]]. exists c. split; [|exact Ht]. intros s. rewrite H. apply Hc. Defined.
Lemma isc_pure {A : Type} (f : owned -> res A * owned) :
  isc (fun s => (fst (f (owned_of s)), with_owned (snd (f (owned_of s))) s)).
Proof. exists (fun a => Finish (f a)). split; [|intros a; exact I]. intros s. unfold library. cbn [with_file]. destruct (f (owned_of s)); reflexivity. Defined.
Lemma owned_id s : with_owned (owned_of s) s = s. Proof. destruct s; reflexivity. Qed.
Lemma isc_lift {A : Type} (r : res A) : isc (lift r).
Proof. apply (isc_ext (fun s => (r, with_owned (owned_of s) s))); [intros s; rewrite owned_id; reflexivity|]. apply (isc_pure (fun a => (r, a))). Defined.
Lemma isc_ret {A : Type} (x : A) : isc (ret x). Proof. exact (isc_lift (Ok x)). Defined.
Lemma isc_bind {A B : Type} (m : M A) (f : A -> M B) : isc m -> (forall x, isc (f x)) -> isc (bindM m f).
Proof.
  intros [c [Hc Ht]] Hf.
  exists (fun a => client_bind (c a) (fun '(r, a') => match r with Ok x => proj1_sig (Hf x) a' | Err e => Finish (Err e, a') | Panic => Finish (Panic, a') end)).
  split.
  2: { intros a. apply texts_bind; [apply Ht|]. intros [[x|e|] a']; [exact (proj2 (proj2_sig (Hf x)) a')|exact I|exact I]. }
  intros s. unfold bindM. rewrite Hc. unfold library. rewrite with_file_bind.
  destruct (with_file P (c (owned_of s)) s) as [[r a] s'] eqn:E. destruct r as [x|e|]; [|reflexivity|reflexivity].
  destruct (Hf x) as [cf [Hcf Htf]]. cbn [proj1_sig]. rewrite Hcf. unfold library.
  change (owned_of (with_owned a s')) with (mk_owned (o_key a) (o_hmac a) (o_primary a) (o_rand a)).
  replace (mk_owned (o_key a) (o_hmac a) (o_primary a) (o_rand a)) with a by (destruct a; reflexivity).
  rewrite with_file_owned. destruct (with_file P (cf a) s') as [[r' a'] s'']. reflexivity.
Defined.

(** Reading the whole map by means of the trait. *)
Fixpoint collect {A : Type} (l : list bytes) (d : kvmap) (k : kvmap -> client A) : client A :=
  match l with
  | [] => k d
  | x :: l' => GetValue x (fun r => collect l' (match r with Ok v => <[x := v]> d | _ => d end) k)
  end.
Lemma collected {A : Type} (s : st) (k : kvmap -> client A) l : forall d,
  (forall x v, d !! x = Some v -> s_data s !! x = Some v) -> (forall x v, s_data s !! x = Some v -> In x l \/ d !! x = Some v) ->
  with_file P (collect l d k) s = with_file P (k (s_data s)) s.
Proof.
  induction l as [|y l IH]; intros d H1 H2; cbn [collect with_file].
  - assert (d = s_data s) as ->; [|reflexivity]. apply map_eq. intros x. destruct (s_data s !! x) as [v|] eqn:E.
    + destruct (H2 x v E) as [[]|H]. exact H.
    + destruct (d !! x) as [v|] eqn:E'; [|reflexivity]. rewrite (H1 _ _ E') in E. discriminate E.
  - unfold io_get. destruct (s_data s !! y) as [v|] eqn:E; cbn [ok_or].
    + apply IH.
      * intros x w Hx. destruct (decide (y = x)) as [<-|Hne]; [rewrite lookup_insert in Hx; congruence|rewrite lookup_insert_ne in Hx by exact Hne; auto].
      * intros x w Hx. destruct (decide (y = x)) as [<-|Hne]; [right; rewrite lookup_insert; congruence|rewrite lookup_insert_ne by exact Hne].
        destruct (H2 x w Hx) as [[->|H]|H]; [contradiction|auto|auto].
    + apply IH; [exact H1|]. intros x w Hx. destruct (H2 x w Hx) as [[->|H]|H]; [congruence|auto|auto].
Qed.
Lemma texts_collect {A : Type} (k : kvmap -> client A) l : (forall d, sets_texts (k d)) -> forall d, sets_texts (collect l d k).
Proof. intros Hk. induction l as [|y l IH]; intros d; cbn; [apply Hk|]. intros x. apply IH. Qed.
Lemma isc_reads {A : Type} (g : kvmap -> list bytes -> owned -> res A) : isc (reads (fun s => g (s_data s) (io_keys P s) (owned_of s))).
Proof.
  exists (fun a => AllKeys (fun l => collect l ∅ (fun d => Finish (g d l a, a)))).
  split; [|intros a l; apply texts_collect; intros d; exact I]. intros s. unfold library, reads. cbn [with_file].
  rewrite collected; [cbn [with_file]; rewrite owned_id; reflexivity|intros x v H; rewrite lookup_empty in H; discriminate H|].
  intros x v H. left. apply elem_of_list_In. unfold io_keys. rewrite (ok_order P HP). apply elem_of_list_fmap. exists (x, v).
  split; [reflexivity|]. apply elem_of_map_to_list, H.
Defined.

Lemma isc_draw n : isc (draw P n).
Proof. exact (isc_pure (fun a => (Ok (p_random P (o_rand a) n), mk_owned (o_key a) (o_hmac a) (o_primary a) (S (o_rand a))))). Defined.
Lemma isc_secrets a b c : isc (set_secrets a b c).
Proof. exact (isc_pure (fun o => (Ok tt, mk_owned a b c (o_rand o)))). Defined.
Lemma isc_set key value : utf8 key = true -> utf8 value = true -> isc (io_set key value).
Proof. intros Hk Hv. exists (fun a => SetValue key value (Finish (Ok tt, a))). split; [intros s; reflexivity|intros a; cbn; auto]. Defined.
Lemma isc_remove key : isc (io_remove key).
Proof.
  exists (fun a => DropValue key (fun r => Finish (r, a))). split; [|intros a r; exact I]. intros s. unfold library. cbn [with_file]. unfold io_remove, put_data.
  destruct (s_data s !! key); [reflexivity|]. rewrite owned_id. reflexivity.
Defined.
Lemma isc_clear : isc io_clear.
Proof. exists (fun a => ClearAll (Finish (Ok tt, a))). split; [intros s; reflexivity|intros a; exact I]. Defined.
Lemma isc_flush : isc (flush P).
Proof.
  exists (fun a => SaveAll (fun r => Finish (r, a))). split; [|intros a r; exact I]. intros s. unfold library. cbn [with_file]. unfold flush.
  destruct (p_write P (s_flushes s)); reflexivity.
Defined.
Lemma isc_encrypted key plaintext k : utf8 key = true -> isc (set_encrypted P key plaintext k).
Proof.
  intros Hk.
  exists (fun a => match encrypt_data P (o_rand a) plaintext k with
    | Ok c => SetValue key c (Finish (Ok tt, mk_owned (o_key a) (o_hmac a) (o_primary a) (S (o_rand a))))
    | Err e => Finish (Err e, a) | Panic => Finish (Panic, a) end).
  split; [|intros a; destruct (encrypt_data P (o_rand a) plaintext k) as [c|e|] eqn:E; cbn; auto; split; [exact Hk|]; split; [exact (P_Api.encrypt_utf8 _ _ _ _ _ E)|exact I]].
  intros s. unfold library, set_encrypted. cbn [owned_of o_rand].
  destruct (encrypt_data P (s_rand s) plaintext k); cbn [with_file]; [reflexivity|rewrite owned_id; reflexivity|rewrite owned_id; reflexivity].
Defined.
Lemma isc_resolve x h k : isc (reads (fun s => resolve_site P (s_data s) x h k)).
Proof. exact (isc_reads (fun d _ _ => resolve_site P d x h k)). Defined.
Lemma isc_the_hmac : isc the_hmac.
Proof. exact (isc_reads (fun _ _ a => ok_or (o_hmac a) PasswordsLocked)). Defined.
Lemma isc_the_key : isc the_key.
Proof. exact (isc_reads (fun _ _ a => ok_or (o_key a) PasswordsLocked)). Defined.
Lemma isc_the_primary : isc the_primary.
Proof. exact (isc_reads (fun _ _ a => ok_or (o_primary a) PasswordsLocked)). Defined.
Lemma isc_password d h k : isc (reads (fun s => get_password P (s_data s) d h k)).
Proof. exact (isc_reads (fun m _ _ => get_password P m d h k)). Defined.
Lemma isc_salt : isc (reads (fun s => get_salt (s_data s))).
Proof. exact (isc_reads (fun m _ _ => get_salt m)). Defined.
Lemma isc_ensure x h k : isc (ensure_site_data P x h k).
Proof.
  apply (isc_ext (let! r := reads (fun s => Ok (storage_get P site_of_json (s_data s) (get_site_key P x h) k)) in
    match r with Ok _ => ret tt | Err _ => storage_set P (get_site_key P x h) (site_to_vec (mk_site x None)) k | Panic => lift Panic end)).
  - intros s. unfold ensure_site_data, bindM, reads. destruct (storage_get _ _ _ _ _); reflexivity.
  - apply isc_bind; [exact (isc_reads (fun d _ _ => Ok (storage_get P site_of_json d (get_site_key P x h) k)))|].
    intros [?|?|]; [apply isc_ret|apply isc_encrypted, P_Storage.utf8_site_key|apply isc_lift].
Defined.
Lemma isc_loop l h : isc (remove_sites_loop P l h).
Proof. induction l as [|x l IH]; [apply isc_ret|]. cbn [remove_sites_loop]. apply isc_bind; [apply isc_remove|intros _; exact IH]. Defined.

Ltac go := repeat first
  [ apply isc_flush | (apply isc_encrypted; first [apply P_Storage.utf8_site_key | apply P_Storage.utf8_password_key | reflexivity]) | apply isc_remove | apply isc_ensure | apply isc_loop | apply isc_the_hmac | apply isc_the_key
  | apply isc_the_primary | apply isc_resolve | apply isc_password | apply isc_salt | apply isc_draw | apply isc_secrets | apply isc_clear
  | (apply isc_set; [reflexivity|apply P_Storage.utf8_b64]) | apply isc_lift | apply isc_ret | (apply isc_bind; [|intros ?]) ].

Lemma isc_storage_remove_alias x h k : isc (storage_remove_alias P x h k).
Proof.
  apply isc_bind; [exact (isc_reads (fun d _ _ => map_err (storage_get P site_of_json d (get_site_key P x h) k) NoSuchAlias))|].
  intros y. destruct (site_alias y); go.
Defined.
Lemma isc_set_alias x a : isc (set_alias P x a).
Proof.
  unfold set_alias. go.
  - match goal with |- isc (reads (fun s => any_password P s ?u ?v ?w)) =>
      exact (isc_reads (fun d l _ => let? o := find_map (password_item P d u v w) l in Ok (match o with Some _ => true | None => false end))) end.
  - match goal with |- isc (if ?b then _ else _) => destruct b end; [go|]. apply isc_bind; [|intros _; go]. unfold storage_set_alias. destruct (bytes_eqb _ _); go.
Defined.

Definition out_client {A : Type} (f : A -> out) (m : M A) : isc m ->
  { c : owned -> client (out * owned) | (forall s, as_out f (m s) = library P c s) /\ forall a, sets_texts (c a) }.
Proof.
  intros [c [Hc Ht]]. exists (fun a => client_bind (c a) (fun '(r, a') => Finish (match r with Ok x => f x | Err e => OErr e | Panic => OPanic end, a'))).
  split; [|intros a; apply texts_bind; [apply Ht|intros [? ?]; exact I]].
  intros s. rewrite Hc. unfold library. rewrite with_file_bind. destruct (with_file P (c (owned_of s)) s) as [[r a] s'].
  cbn [with_file]. destruct r; reflexivity.
Defined.

Lemma isc_recovery p : isc (get_recovery_code P p).
Proof.
  unfold get_recovery_code. go.
  match goal with |- isc (fun s => (generate P (s_rand s) ?a ?b ?c, _)) =>
    exact (isc_pure (fun o => (generate P (o_rand o) a b c, mk_owned (o_key o) (o_hmac o) (o_primary o) (S (o_rand o))))) end.
Defined.
Lemma isc_list x n : isc (list_ P x n).
Proof.
  exact (isc_reads (fun d l a =>
    if negb (match o_key a with Some _ => true | None => false end) then Panic
    else
      let? hmac_secret := unwrap (o_hmac a) in
      let? key := unwrap (o_key a) in
      let? site_resolved := resolve_site P d x hmac_secret key in
      let? ps := filter_map (password_item P d site_resolved hmac_secret key) l in
      Ok (List.filter (fun p => p_wild P n (id_name (pass_id p))) ps))).
Defined.
Lemma isc_list_sites x : isc (list_sites P x).
Proof.
  exact (isc_reads (fun d l a =>
    if negb (match o_key a with Some _ => true | None => false end) then Panic
    else
      let? key := unwrap (o_key a) in
      let? l := filter_map (site_item P d key) l in
      Ok (List.filter (fun y => match site_alias y with Some b => p_wild P x b | None => false end || p_wild P x (site_name y)) l))).
Defined.

Definition call_client (o : op) : o <> Restart ->
  { c : owned -> client (out * owned) | (forall s, exec P o s = library P c s) /\ forall a, sets_texts (c a) }.
Proof.
  intros Ho. destruct o as [pp|pp| | | | |x|x a|x|l|x n r len cs|x n r t|x n r|x n r|x n r|x n r t|x n r|x n|x|x n r t|c]; unfold exec.
  all: try (refine (out_client _ _ _); unfold reset, unlock, lock, get_alias, remove_alias, set_generated, set_stored, set_password, storage_set, has, get, get_notes,
     set_notes, remove, remove_password, decode_recovery_code, storage_clear, set_salt, set_hmac_secret; go; fail).
  - refine (out_client _ _ _). unfold unlock. go.
    match goal with |- isc (reads (fun s => get_hmac_secret P (s_data s) ?k)) => exact (isc_reads (fun d _ _ => get_hmac_secret P d k)) end.
  - destruct (Ho eq_refl).
  - exact (out_client OBool _ (isc_reads (fun d _ _ => Ok (storage_initialized d)))).
  - exact (out_client OBool _ (isc_reads (fun _ _ a => Ok (match o_key a with Some _ => true | None => false end)))).
  - refine (out_client _ _ _). unfold get_alias. go.
    match goal with |- isc (reads (fun s => storage_get_alias P (s_data s) ?u ?v ?w)) => exact (isc_reads (fun d _ _ => storage_get_alias P d u v w)) end.
  - exact (out_client _ _ (isc_set_alias x a)).
  - refine (out_client _ _ _). unfold remove_alias. apply isc_bind; [apply isc_the_hmac|intros h]. apply isc_bind; [apply isc_the_key|intros k].
    apply isc_bind; [apply isc_storage_remove_alias|intros _; apply isc_flush].
  - refine (out_client _ _ _). unfold remove_sites. destruct l; go.
  - refine (out_client _ _ _). unfold has. go.
    match goal with |- isc (reads (fun s => Ok (has_password P (s_data s) ?u ?v))) => exact (isc_reads (fun d _ _ => Ok (has_password P d u v))) end.
  - exact (out_client _ _ (isc_list x n)).
  - exact (out_client _ _ (isc_list_sites x)).
  - exact (out_client _ _ (isc_recovery _)).
Defined.
End client.

(** Histories *)
Definition run_client (P : prims) (HP : prims_ok P) (l : list op) : Forall (fun o => o <> Restart) l ->
  { c : owned -> client (list out * owned) | (forall s, run P l s = library P c s) /\ forall a, sets_texts (c a) }.
Proof.
  induction l as [|o l IH]; intros Hl.
  - exists (fun a => Finish ([], a)). split; [|intros a; exact I]. intros s. unfold library. cbn [with_file run]. rewrite owned_id. reflexivity.
  - assert (o <> Restart) as Ho by (inversion Hl; assumption). assert (Forall (fun o => o <> Restart) l) as Hl' by (inversion Hl; assumption).
    destruct (call_client P HP o Ho) as [c [Hc Ht]]. destruct (IH Hl') as [k [Hk Hu]].
    exists (fun a => client_bind (c a) (fun '(r, a') => client_bind (k a') (fun '(rs, a'') => Finish (r :: rs, a'')))).
    split; [|intros a; apply texts_bind; [apply Ht|intros [r a']; apply texts_bind; [apply Hu|intros [rs a'']; exact I]]].
    intros s. cbn [run]. rewrite Hc. unfold library. rewrite with_file_bind.
    destruct (with_file P (c (owned_of s)) s) as [[r a] s'] eqn:E. rewrite with_file_bind, Hk. unfold library.
    change (owned_of (with_owned a s')) with (mk_owned (o_key a) (o_hmac a) (o_primary a) (o_rand a)).
    replace (mk_owned (o_key a) (o_hmac a) (o_primary a) (o_rand a)) with a by (destruct a; reflexivity).
    rewrite with_file_owned. destruct (with_file P (k a) s') as [[rs a'] s'']. reflexivity.
Defined.

(** With [MemoryIO] instead of [FileIO] *)
Lemma tests_stand_for P : prims_ok P -> (forall n, p_write P n = WriteOk) -> forall l, Forall (fun o => o <> Restart) l ->
  (exists c : owned -> client (list out * owned), (forall s, run P l s = library P c s) /\ forall a, sets_texts (c a)) /\
  forall c : owned -> client (list out * owned), (forall s, run P l s = library P c s) ->
  forall m s, holds_same m s ->
    let end_ := with_memory (p_order P) (c (owned_of s)) m in
    fst (fst end_) = fst (run P l s) /\ m_data (snd end_) = s_data (snd (run P l s)) /\
    ((forall a, sets_texts (c a)) -> (forall k v, s_data s !! k = Some v -> utf8 k = true /\ utf8 v = true) -> saved_same P m s ->
     load P (s_disk (snd (run P l s))) = Ok (m_file_data (snd end_))).
Proof.
  intros HP Hw l Hl. split; [destruct (run_client P HP l Hl) as [c Hc]; exists c; exact Hc|].
  intros c Hc m s Hm. cbn zeta.
  destruct (same_answers P (p_order P) (c (owned_of s)) HP Hw (ok_order P HP) (or_introl (fun _ _ => eq_refl)) m s Hm) as [H1 [H2 _]].
  split; [|split].
  - rewrite H1, Hc. unfold library. destruct (with_file P (c (owned_of s)) s) as [[r a] s']. reflexivity.
  - rewrite H2, Hc. unfold library. destruct (with_file P (c (owned_of s)) s) as [[r a] s']. reflexivity.
  - intros Ht Hx Hs.
    pose proof (proj1 (same_saves P (p_order P) (c (owned_of s)) HP Hw (ok_order P HP) (or_introl (fun _ _ => eq_refl)) (Ht _) m s Hm Hx Hs)) as H3.
    unfold saved_same in H3. rewrite <- H3, Hc. unfold library. destruct (with_file P (c (owned_of s)) s) as [[r a] s']. reflexivity.
Qed.

(** A test that starts with [MemoryIO::new], and a process that starts with a file of the same entries. *)
Definition shifted (b : nat) (m : memory) : memory := mk_memory (m_file_data m) (m_data m) (b + m_changes m).
Lemma with_shifted {A : Type} order order' b (c : client A) : (forall n d, order' (b + n) d = order n d) ->
  forall m, with_memory order' c (shifted b m) = (fst (with_memory order c m), shifted b (snd (with_memory order c m))).
Proof.
  intros Ho. induction c as [a|key k IH|key k IH|key value k IH|key k IH|k IH|k IH|k IH]; intros m; cbn [with_memory].
  - reflexivity.
  - apply IH.
  - apply IH.
  - rewrite <- IH. f_equal. unfold shifted, memory_set. cbn. f_equal. lia.
  - unfold memory_remove. cbn [shifted m_data]. destruct (m_data m !! key); [|apply IH].
    rewrite <- IH. f_equal. unfold shifted. cbn. f_equal. lia.
  - rewrite <- IH. f_equal. unfold shifted, memory_clear. cbn. f_equal. lia.
  - cbn [shifted m_changes m_data]. rewrite Ho. apply IH.
  - unfold memory_flush. rewrite <- IH. reflexivity.
Qed.

Lemma started_same {A : Type} P order (c : client A) s d : prims_ok P -> (forall n, p_write P n = WriteOk) ->
  (forall n d, order n d ≡ₚ (map_to_list d).*1) -> load P (s_disk s) = Ok d ->
  (forall n d, order n d = p_order P (S (s_tick s) + n) d) \/ orderless c -> sets_texts c ->
  let m' := snd (with_memory order c (memory_new d)) in
  let s' := snd (with_file P c (snd (exec P Restart s))) in
  fst (with_memory order c (memory_new d)) = fst (with_file P c (snd (exec P Restart s))) /\
  m_data m' = s_data s' /\ load P (s_disk s') = Ok (m_file_data m').
Proof.
  intros HP Hw Ho Hl Hc Hs. cbn zeta. set (b := S (s_tick s)).
  set (order' := fun n x => if n <? b then p_order P n x else order (n - b) x).
  assert (Hsh : forall n x, order' (b + n) x = order n x).
  { intros n x. unfold order'. replace (b + n <? b) with false by (symmetry; apply Nat.ltb_ge; lia). f_equal. lia. }
  assert (Ho' : forall n x, order' n x ≡ₚ (map_to_list x).*1).
  { intros n x. unfold order'. destruct (n <? b); [apply ok_order, HP|apply Ho]. }
  assert (Hc' : (forall n x, order' n x = p_order P n x) \/ orderless c).
  { destruct Hc as [Hc|Hc]; [left|right; exact Hc]. intros n x. unfold order'. destruct (n <? b) eqn:E; [reflexivity|].
    apply Nat.ltb_ge in E. rewrite Hc. f_equal. fold b. lia. }
  cbn [exec snd]. rewrite Hl. set (s0 := passwords_new d s).
  assert (Hm : holds_same (shifted b (memory_new d)) s0).
  { split; [reflexivity|]. unfold shifted, memory_new, s0, passwords_new, b. cbn [m_changes s_tick]. lia. }
  destruct (same_answers P order' c HP Hw Ho' Hc' _ _ Hm) as [Hr Hh].
  assert (Hx : text_ok (s_data s0)).
  { exact (P_Api.load_texts P _ _ Hl). }
  pose proof (proj1 (same_saves P order' c HP Hw Ho' Hc' Hs _ _ Hm Hx Hl)) as Hd.
  rewrite (with_shifted order order' b c Hsh) in Hr, Hh, Hd. cbn [fst snd] in Hr, Hh, Hd.
  split; [exact Hr|]. split; [exact (proj1 Hh)|exact Hd].
Qed.

Lemma test_is_process P l s d : prims_ok P -> (forall n, p_write P n = WriteOk) -> Forall (fun o => o <> Restart) l ->
  load P (s_disk s) = Ok d ->
  forall c : owned -> client (list out * owned), (forall s, run P l s = library P c s) -> (forall a, sets_texts (c a)) ->
  let process := run P (Restart :: l) s in
  let test := with_memory (fun n => p_order P (S (s_tick s) + n)) (c (mk_owned None None None (s_rand s))) (memory_new d) in
  fst process = ODone :: fst (fst test) /\ s_data (snd process) = m_data (snd test) /\ load P (s_disk (snd process)) = Ok (m_file_data (snd test)).
Proof.
  intros HP Hw Hl Hd c Hc Ht. cbn zeta.
  destruct (started_same P (fun n => p_order P (S (s_tick s) + n)) (c (mk_owned None None None (s_rand s))) s d HP Hw (fun n x => ok_order P HP _ x) Hd
    (or_introl (fun _ _ => eq_refl)) (Ht _)) as (H1 & H2 & H3).
  cbn [run]. change (exec P Restart s) with (ODone, snd (exec P Restart s)). cbv beta iota.
  set (s0 := snd (exec P Restart s)) in *.
  assert (owned_of s0 = mk_owned None None None (s_rand s)) as Ho by reflexivity.
  rewrite (surjective_pairing (run P l s0)). rewrite Hc. unfold library. rewrite Ho.
  destruct (with_file P (c (mk_owned None None None (s_rand s))) s0) as [[r a] s'] eqn:E. cbn [fst snd] in *.
  rewrite H1, H2. split; [reflexivity|]. split; [reflexivity|exact H3].
Qed.
