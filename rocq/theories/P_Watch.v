(** What somebody sees who watches the storage file (C77). *)
From stdpp Require Import gmap.
From Coq Require Import Permutation ZArith ZifyBool ZifyNat ZifyN.
From Verif Require Import M_Base M_Base64 M_Utf8 M_Prims M_Types M_Crypto M_Recovery M_Json M_Serde M_Storage
  M_Passwords M_History S_Base64 S_Json S_Serde S_Vault S_Api S_History S_Watch P_Base P_Base64 P_Crypto P_Recovery P_Json P_Serde P_Utf8
  P_File P_Storage P_Api P_Vault P_History P_Calls P_Sound P_Size P_Similar P_Props P_CliLives.

(** * Vaults *)

Section vaults.
Context (f : renaming) (Ff : fair f).

Definition rid (i : pid) : pid := (on_site f i.1.1, (on_id f (i.1.2, i.2)).1, (on_id f (i.1.2, i.2)).2).
Lemma rid_inj i j : rid i = rid j -> i = j.
Proof.
  destruct i as [[x n] r], j as [[y m] q]. unfold rid. cbn [fst snd]. intros E.
  assert (on_site f x = on_site f y) as E1 by congruence. apply (fa_site f Ff) in E1.
  assert (on_id f (n, r) = on_id f (m, q)) as E2.
  { destruct (on_id f (n, r)), (on_id f (m, q)). cbn [fst snd] in E. congruence. }
  apply (fa_id f Ff) in E2. congruence.
Qed.

Definition like_secret (a b : secret) : Prop :=
  match a, b with
  | SGenerated n c, SGenerated n' c' => length (write_number n) = length (write_number n') /\ cs_len c = cs_len c'
  | SFixed t, SFixed t' => same_size t t'
  | _, _ => False
  end.
Definition like_entry (a b : entry) : Prop := like_secret (e_secret a) (e_secret b) /\ same_size (e_notes a) (e_notes b).
Definition both (a b : option entry) : Prop :=
  match a, b with Some e, Some e' => like_entry e e' | None, None => True | _, _ => False end.
Record like_vault (a b : vault) : Prop := {
  lv_site : forall x, v_sites b !! on_site f x = option_map (option_map (on_site f)) (v_sites a !! x);
  lv_sites : forall y, is_Some (v_sites b !! y) -> exists x, y = on_site f x;
  lv_pw : forall i, both (v_pw a !! i) (v_pw b !! rid i);
  lv_pws : forall j, is_Some (v_pw b !! j) -> exists i, j = rid i
}.
Definition like_saved (a b : option (bytes * vault)) : Prop :=
  match a, b with
  | Some (p, v), Some (p', v') => p' = on_primary f p /\ like_vault v v'
  | None, None => True
  | _, _ => False
  end.
Definition like_world (a b : world) : Prop :=
  like_saved (w_mem a) (w_mem b) /\ w_open a = w_open b /\ like_saved (w_file a) (w_file b).

Lemma like_empty : like_vault empty_vault empty_vault.
Proof.
  split; cbn; intros.
  - rewrite !lookup_empty. reflexivity.
  - rewrite lookup_empty in H. destruct H; discriminate.
  - rewrite !lookup_empty. exact I.
  - rewrite lookup_empty in H. destruct H; discriminate.
Qed.

Lemma like_target a b x x' : like_vault a b -> site_for f x x' -> target b x' = on_site f (target a x).
Proof.
  intros H Hx. unfold site_for in Hx. unfold target. rewrite Hx, (lv_site _ _ H). destruct (v_sites a !! host x) as [[y|]|]; reflexivity.
Qed.
Lemma like_id a b x x' n r n' r' : like_vault a b -> site_for f x x' -> id_for f n r n' r' ->
  (target b x', n', rev_of r') = rid (target a x, n, rev_of r).
Proof.
  intros H Hx Hn. unfold rid. cbn [fst snd]. rewrite (like_target _ _ _ _ H Hx), <- Hn. reflexivity.
Qed.

Lemma like_some a b i : like_vault a b -> is_Some (v_pw a !! i) <-> is_Some (v_pw b !! rid i).
Proof.
  intros H. pose proof (lv_pw _ _ H i) as E. destruct (v_pw a !! i), (v_pw b !! rid i); try contradiction; split; intros [? E']; try discriminate E'; eauto.
Qed.
Lemma like_has_passwords a b x : like_vault a b -> has_passwords b (on_site f x) = has_passwords a x.
Proof.
  intros H. apply Bool.eq_true_iff_eq. rewrite !has_passwords_iff. split.
  - intros (j & Hj & Hs). destruct (lv_pws _ _ H j Hs) as [i ->]. exists i. split; [|apply (like_some a b i H), Hs].
    apply (fa_site f Ff). exact Hj.
  - intros (i & <- & Hs). exists (rid i). split; [reflexivity|apply (like_some a b i H), Hs].
Qed.

Lemma like_set_site a b x o : like_vault a b ->
  like_vault (mk_vault (<[x := o]> (v_sites a)) (v_pw a)) (mk_vault (<[on_site f x := option_map (on_site f) o]> (v_sites b)) (v_pw b)).
Proof.
  intros H. split; cbn; try apply H.
  - intros y. destruct (decide (x = y)) as [<-|Hn]; [rewrite !lookup_insert; reflexivity|].
    rewrite !lookup_insert_ne by (try exact Hn; intros E; apply Hn, (fa_site f Ff), E). apply H.
  - intros y Hy. destruct (decide (on_site f x = y)) as [<-|Hn]; [eauto|]. rewrite lookup_insert_ne in Hy by exact Hn. apply (lv_sites _ _ H y Hy).
Qed.
Lemma like_drop_site a b x : like_vault a b ->
  like_vault (mk_vault (delete x (v_sites a)) (v_pw a)) (mk_vault (delete (on_site f x) (v_sites b)) (v_pw b)).
Proof.
  intros H. split; cbn; try apply H.
  - intros y. destruct (decide (x = y)) as [<-|Hn]; [rewrite !lookup_delete; reflexivity|].
    rewrite !lookup_delete_ne by (try exact Hn; intros E; apply Hn, (fa_site f Ff), E). apply H.
  - intros y Hy. destruct (decide (on_site f x = y)) as [<-|Hn]; [eauto|]. rewrite lookup_delete_ne in Hy by exact Hn. apply (lv_sites _ _ H y Hy).
Qed.
Lemma like_set a b i e e' : like_vault a b -> like_entry e e' ->
  like_vault (mk_vault (v_sites a) (<[i := e]> (v_pw a))) (mk_vault (v_sites b) (<[rid i := e']> (v_pw b))).
Proof.
  intros H He. split; cbn; try apply H.
  - intros j. destruct (decide (i = j)) as [<-|Hn]; [rewrite !lookup_insert; exact He|].
    rewrite !lookup_insert_ne by (try exact Hn; intros E; apply Hn, rid_inj, E). apply H.
  - intros j Hj. destruct (decide (rid i = j)) as [<-|Hn]; [eauto|]. rewrite lookup_insert_ne in Hj by exact Hn. apply (lv_pws _ _ H j Hj).
Qed.
Lemma like_drop a b i : like_vault a b ->
  like_vault (mk_vault (v_sites a) (delete i (v_pw a))) (mk_vault (v_sites b) (delete (rid i) (v_pw b))).
Proof.
  intros H. split; cbn; try apply H.
  - intros j. destruct (decide (i = j)) as [<-|Hn]; [rewrite !lookup_delete; exact I|].
    rewrite !lookup_delete_ne by (try exact Hn; intros E; apply Hn, rid_inj, E). apply H.
  - intros j Hj. destruct (decide (rid i = j)) as [<-|Hn]; [eauto|]. rewrite lookup_delete_ne in Hj by exact Hn. apply (lv_pws _ _ H j Hj).
Qed.
Lemma like_put a b i e e' : like_vault a b -> like_entry e e' -> like_vault (put a i e) (put b (rid i) e').
Proof.
  intros H He. unfold put. change (pid_site (rid i)) with (on_site f (pid_site i)). rewrite (lv_site _ _ H).
  destruct (v_sites a !! pid_site i) as [o|]; cbn [option_map].
  - apply (like_set a b i e e' H He).
  - pose proof (like_set_site a b (pid_site i) None H) as H1. apply (like_set _ _ i e e' H1 He).
Qed.
Lemma like_drop_sites a b l : like_vault a b ->
  let (m, k) := drop_sites (v_sites a) l in let (m', k') := drop_sites (v_sites b) (map (on_site f) l) in
  k = k' /\ like_vault (mk_vault m (v_pw a)) (mk_vault m' (v_pw b)).
Proof.
  revert a b. induction l as [|x l IH]; intros a b H; cbn [drop_sites map].
  - split; [reflexivity|]. destruct a, b. exact H.
  - rewrite (lv_site _ _ H). destruct (v_sites a !! x) as [o|]; cbn [option_map].
    + apply (IH _ _ (like_drop_site a b x H)).
    + split; [reflexivity|]. destruct a, b. exact H.
Qed.

(** Calls that only read do not change the vault. *)
Lemma reading_step P w o : reading o = true -> fst (vstep P Saved w o) = w.
Proof.
  destruct w as [[[p v]|] [] fl]; destruct o as [| | | | | |s|s a|s|l| | |s n r|s n r|s n r| | |s q|q| |c]; intros H; try discriminate H; try reflexivity;
    try (destruct l; [reflexivity|discriminate H]); cbn; try (destruct (v_pw v !! _); reflexivity); try reflexivity.
Qed.

Lemma like_step P P' o o' w w' : corresponds f o o' -> like_world w w' ->
  like_world (fst (vstep P Saved w o)) (fst (vstep P' Saved w' o')).
Proof.
  intros Ho Hw. pose proof Hw as [Hm [Hop Hf]]. destruct w as [m op fl], w' as [m' op' fl']. cbn in Hm, Hop, Hf. subst op'.
  assert (forall p v v', like_vault v v' ->
    like_world (fst (commit Saved (mk_world m op fl) p v)) (fst (commit Saved (mk_world m' op fl') (on_primary f p) v'))) as Hc.
  { intros p v v' Hv. split; [|split]; cbn; auto. }
  assert (forall (k k' : bytes -> vault -> world * out),
    (forall p v v', m = Some (p, v) -> m' = Some (on_primary f p, v') -> like_vault v v' -> like_world (fst (k p v)) (fst (k' (on_primary f p) v'))) ->
    like_world (fst match op, m with true, Some (pp, v) => k pp v | _, _ => (mk_world m op fl, OErr PasswordsLocked) end)
              (fst match op, m' with true, Some (pp, v) => k' pp v | _, _ => (mk_world m' op fl', OErr PasswordsLocked) end)) as Hopened.
  { intros k k' H. destruct op; [|exact Hw]. destruct m as [[p v]|], m' as [[p' v']|]; try contradiction; [|exact Hw].
    destruct Hm as [-> Hv]. apply H; auto. }
  destruct Ho as [o o' H1 H2|p|p| | |s a s' a' Hs Ha|s s' Hs|l|s n r len cs s' n' r' len' cs' Hs Hn Hlen Hcs|s n r t s' n' r' t' Hs Hn Ht|s n r t s' n' r' t' Hs Hn Ht|s n r s' n' r' Hs Hn].
  - rewrite !reading_step by assumption. exact Hw.
  - repeat split; cbn; try apply like_empty.
  - cbn. destruct m as [[q v]|], m' as [[q' v']|]; try contradiction; [|exact Hw]. destruct Hm as [-> Hv].
    destruct (bytes_eqb p q) eqn:E.
    + apply bytes_eqb_eq in E. subst. rewrite bytes_eqb_refl. split; [|split]; cbn; auto.
    + replace (bytes_eqb (on_primary f p) (on_primary f q)) with false; [exact Hw|]. symmetry.
      destruct (bytes_eqb (on_primary f p) (on_primary f q)) eqn:E'; [|reflexivity]. apply bytes_eqb_eq, (fa_primary f Ff) in E'.
      subst. rewrite bytes_eqb_refl in E. discriminate E.
  - split; [|split]; cbn; auto.
  - split; [|split]; cbn; auto.
  - apply Hopened. intros p v v' -> -> Hv. pose proof (like_target _ _ _ _ Hv Ha) as Et. rewrite Et. unfold site_for in Hs. rewrite Hs.
    rewrite (like_has_passwords _ _ _ Hv). destruct (has_passwords v (host s)); [exact Hw|].
    destruct (bytes_eqb (host s) (target v a)) eqn:E.
    + apply bytes_eqb_eq in E. rewrite E, bytes_eqb_refl. exact Hw.
    + replace (bytes_eqb (on_site f (host s)) (on_site f (target v a))) with false.
      * apply Hc. apply (like_set_site v v' (host s) (Some (target v a)) Hv).
      * symmetry. destruct (bytes_eqb (on_site f (host s)) _) eqn:E'; [|reflexivity]. apply bytes_eqb_eq, (fa_site f Ff) in E'.
        rewrite E', bytes_eqb_refl in E. discriminate E.
  - apply Hopened. intros p v v' -> -> Hv. unfold site_for in Hs. rewrite Hs, (lv_site _ _ Hv).
    destruct (v_sites v !! host s) as [[a|]|]; cbn [option_map]; try exact Hw. apply Hc, like_drop_site, Hv.
  - destruct l as [|y l]; [exact Hw|]. apply Hopened. intros p v v' -> -> Hv.
    pose proof (like_drop_sites v v' (y :: l) Hv) as H.
    destruct (drop_sites (v_sites v) (y :: l)) as [ms k], (drop_sites (v_sites v') (map (on_site f) (y :: l))) as [ms' k'].
    destruct H as [<- Hl]. destruct k; [apply Hc, Hl|]. split; [|split]; cbn; auto.
  - apply Hopened. intros p v v' -> -> Hv. rewrite (like_id _ _ _ _ _ _ _ _ Hv Hs Hn). apply Hc, like_put; [exact Hv|]. repeat split; assumption.
  - apply Hopened. intros p v v' -> -> Hv. rewrite (like_id _ _ _ _ _ _ _ _ Hv Hs Hn). apply Hc, like_put; [exact Hv|]. repeat split; assumption.
  - apply Hopened. intros p v v' -> -> Hv. rewrite (like_id _ _ _ _ _ _ _ _ Hv Hs Hn).
    pose proof (lv_pw _ _ Hv (target v s, n, rev_of r)) as He. unfold both in He.
    destruct (v_pw v !! _) as [e|], (v_pw v' !! _) as [e'|]; try contradiction; [|exact Hw].
    apply Hc, like_set; [exact Hv|]. split; [apply He|exact Ht].
  - apply Hopened. intros p v v' -> -> Hv. rewrite (like_id _ _ _ _ _ _ _ _ Hv Hs Hn).
    pose proof (lv_pw _ _ Hv (target v s, n, rev_of r)) as He. unfold both in He.
    destruct (v_pw v !! _) as [e|], (v_pw v' !! _) as [e'|]; try contradiction; [|exact Hw].
    apply Hc, like_drop, Hv.
Qed.

Lemma like_run P P' l l' : Forall2 (corresponds f) l l' -> forall w w', like_world w w' ->
  like_world (fst (vrun P (repeat Saved (length l)) w l)) (fst (vrun P' (repeat Saved (length l')) w' l')).
Proof.
  induction 1 as [|o o' l l' Ho _ IH]; intros w w' Hw; [exact Hw|]. cbn [repeat length vrun].
  pose proof (like_step P P' o o' w w' Ho Hw) as H1. destruct (vstep P Saved w o) as [w1 r], (vstep P' Saved w' o') as [w1' r'].
  specialize (IH w1 w1' H1). destruct (vrun P _ w1 l), (vrun P' _ w1' l'). exact IH.
Qed.

(** * Sizes *)

Notation alike_members := (Forall2 (fun a b => length (member_text a) = length (member_text b))).
Lemma member_size_eq k a b : length (write_json a) = length (write_json b) -> length (member_text (member k a)) = length (member_text (member k b)).
Proof. intros H. unfold member_text, member. rewrite !app_length. cbn [length]. rewrite H. reflexivity. Qed.

Lemma like_id_members x n r : alike_members (id_members (mk_id x n r)) (id_members (mk_id (on_site f x) (on_id f (n, r)).1 (on_id f (n, r)).2)).
Proof.
  destruct (fa_id_size f Ff n r) as [H1 H2]. unfold id_members. cbn [id_site id_name id_revision].
  repeat (constructor; [apply member_size_eq; first [apply (fa_site_size f Ff)|exact H1|exact H2]|]). constructor.
Qed.


Lemma charset_size c c' : cs_len c = cs_len c' ->
  total (map (fun m => length (member_text m)) (charset_members c)) = total (map (fun m => length (member_text m)) (charset_members c')).
Proof. destruct c as [[] [] [] []], c' as [[] [] [] []]; intros H; try discriminate H; reflexivity. Qed.

Lemma obj_total ms : length (write_json (JObj ms)) =
  match ms with [] => 2 | _ => 1 + total (map (fun m => length (member_text m) + 1) ms) end.
Proof.
  change (write_json (JObj ms)) with ("{"%byte :: join [","%byte] (map member_text ms) ++ ["}"%byte]).
  cbn [length]. rewrite app_length. cbn [length]. destruct ms as [|m ms]; [reflexivity|].
  pose proof (join_length (map member_text (m :: ms)) ltac:(discriminate)) as H. rewrite map_map in H. lia.
Qed.
Lemma total_succ (ms : list (bool * bytes * json)) :
  total (map (fun m => length (member_text m) + 1) ms) = total (map (fun m => length (member_text m)) ms) + length ms.
Proof. induction ms as [|m ms IH]; cbn [map total length]; [reflexivity|]. rewrite IH. lia. Qed.
Lemma obj_same ms ms' : length ms = length ms' ->
  total (map (fun m => length (member_text m)) ms) = total (map (fun m => length (member_text m)) ms') ->
  length (write_json (JObj ms)) = length (write_json (JObj ms')).
Proof.
  intros H1 H2. rewrite !obj_total. destruct ms as [|m ms], ms' as [|m' ms']; try discriminate H1; [reflexivity|].
  rewrite !total_succ, H1, H2. reflexivity.
Qed.
Lemma alike_total ms ms' : alike_members ms ms' ->
  length ms = length ms' /\ total (map (fun m => length (member_text m)) ms) = total (map (fun m => length (member_text m)) ms').
Proof. induction 1 as [|a b ms ms' Hab _ [IH1 IH2]]; [auto|]. cbn [length map total]. rewrite IH1, IH2, Hab. auto. Qed.

Lemma like_json x n r e e' : like_entry e e' ->
  length (password_to_vec (to_password (x, n, r) e)) = length (password_to_vec (to_password (rid (x, n, r)) e')).
Proof.
  destruct e as [s nt], e' as [s' nt']. unfold like_entry. cbn [e_secret e_notes]. intros [Hs Hn].
  destruct (alike_total _ _ (like_id_members x n r)) as [I1 I2]. destruct (alike_total _ _ (sim_notes_members nt nt' Hn)) as [N1 N2].
  unfold password_to_vec, to_password, rid. cbn [fst snd e_secret e_notes].
  destruct s as [len cs|t], s' as [len' cs'|t']; try contradiction; cbn in Hs; unfold password_json; apply obj_same;
    cbn [gp_id gp_length gp_charset gp_notes sp_id sp_password sp_notes length map total]; unfold to_id; cbn [fst snd];
    rewrite ?app_length, ?map_app, ?total_app; cbn [length map total]; rewrite ?app_length, ?map_app, ?total_app.
  - rewrite I1, N1. reflexivity.
  - destruct Hs as [Hl Hc]. rewrite I2, N2, (charset_size _ _ Hc). do 3 f_equal. apply member_size_eq. exact Hl.
  - rewrite I1, N1. reflexivity.
  - rewrite I2, N2. do 3 f_equal. apply member_size_eq. exact Hs.
Qed.

Lemma like_site_json x o : length (site_to_vec (mk_site x o)) = length (site_to_vec (mk_site (on_site f x) (option_map (on_site f) o))).
Proof.
  unfold site_to_vec, site_json. cbn [site_name site_alias]. apply obj_length. constructor; [apply member_size_eq, (fa_site_size f Ff)|].
  destruct o as [a|]; cbn [option_map]; constructor; [apply member_size_eq, (fa_site_size f Ff)|constructor].
Qed.
End vaults.

(** * One history *)

Lemma steady_reset P pp s slot : prims_ok P -> (forall n, p_write P n = WriteOk) -> texts (s_data s) -> whole s ->
  let s' := snd (exec P (Reset pp) s) in steady P slot (s_data s' !! slot) s'.
Proof.
  intros HP Hw Ht Hs s'. destruct (exec_disk P (Reset pp) s HP) as (_ & Htx & Hdone & _). specialize (Htx Ht).
  split; [exact Htx|]. split; [apply exec_secrets; assumption|]. split; [|left; reflexivity].
  intros d Hd. fold s' in Htx. assert (fst (exec P (Reset pp) s) = ODone) as Ho.
  { destruct (reset_cases P pp s HP) as (s1 & _ & _ & _ & _ & _ & _ & _ & H). destruct H as [(_ & H & _)|(H & E)]; [exact H|].
    destruct H. rewrite E. destruct (flush_facts P s1) as (_ & _ & _ & _ & _ & _ & F & _). unfold done_out.
    destruct (flush P s1) as [r u]. cbn [fst] in F. rewrite (proj2 F (Hw _)). reflexivity. }
  specialize (Hdone Ho eq_refl). fold s' in Hdone. rewrite Hdone, (load_flush P s' HP Htx) in Hd. injection Hd as <-. reflexivity.
Qed.

Lemma steady_fresh P s slot : fresh P s -> steady P slot None s.
Proof.
  intros (Hd & Hk & Hh & Hp & Hl). split; [rewrite Hd; apply texts_empty|]. split; [left; repeat split; assumption|]. split.
  - intros d E. rewrite E in Hl. discriminate Hl.
  - right. split; [exact Hd|repeat split; assumption].
Qed.

Lemma steady_reached P l s slot : prims_ok P -> (forall n, p_write P n = WriteOk) -> fresh P s -> slot = bs "salt" \/ slot = bs "hmac-secret" ->
  exists x, steady P slot x (snd (run P l s)).
Proof.
  intros HP Hw Hf Hs. induction l as [|o l IH] using rev_ind; [exists None; apply steady_fresh, Hf|].
  rewrite run_app, run_one. cbn [snd]. destruct IH as [x Hx]. destruct (is_reset o) eqn:Hr.
  - destruct o; try discriminate Hr. destruct Hx as (Ht & Hwh & _). eexists. apply steady_reset; assumption.
  - exists x. apply steady_step; assumption.
Qed.

Lemma steady_run P l slot x : prims_ok P -> slot = bs "salt" \/ slot = bs "hmac-secret" -> Forall (fun o => is_reset o = false) l ->
  forall s, steady P slot x s -> steady P slot x (snd (run P l s)).
Proof.
  intros HP Hs. induction 1 as [|o l Ho _ IH]; intros s Hx; [exact Hx|]. change (o :: l) with ([o] ++ l). rewrite run_app, run_one. cbn [snd].
  apply IH, steady_step; assumption.
Qed.

(** The primary password of the vault changes only in [Reset]. *)
Definition primary_of (x : option (bytes * vault)) : option bytes := option_map fst x.
Definition settled (w : world) : Prop := primary_of (w_mem w) = primary_of (w_file w).
Lemma settled_step P w o : settled w ->
  settled (fst (vstep P Saved w o)) /\ (is_reset o = false -> primary_of (w_file (fst (vstep P Saved w o))) = primary_of (w_file w)).
Proof.
  intros H. assert (settled w /\ (is_reset o = false -> primary_of (w_file w) = primary_of (w_file w))) as Hw by auto.
  assert (forall p v v', w_mem w = Some (p, v) ->
    settled (fst (commit Saved w p v')) /\ (is_reset o = false -> primary_of (w_file (fst (commit Saved w p v'))) = primary_of (w_file w))) as Hc.
  { intros p v v' E. split; [reflexivity|]. intros _. unfold settled in H. rewrite <- H, E. reflexivity. }
  destruct (reading o) eqn:Er; [rewrite reading_step by exact Er; exact Hw|].
  destruct w as [m op fl]. destruct o as [pp|pp| | | | |s|s a|s|l|s n r len cs|s n r t|s n r|s n r|s n r|s n r t|s n r|s q|q|s n r t|c]; try discriminate Er; cbn [vstep w_mem w_open w_file] in *.
  - split; [reflexivity|discriminate].
  - destruct m as [[p v]|]; [|exact Hw]. destruct (bytes_eqb pp p); [|exact Hw]. exact Hw.
  - exact Hw.
  - split; reflexivity.
  - destruct op; [|exact Hw]. destruct m as [[p v]|]; [|exact Hw]. destruct (has_passwords _ _); [exact Hw|]. destruct (bytes_eqb _ _); [exact Hw|].
    eapply Hc. reflexivity.
  - destruct op; [|exact Hw]. destruct m as [[p v]|]; [|exact Hw]. destruct (v_sites v !! host s) as [[y|]|]; try exact Hw. eapply Hc. reflexivity.
  - destruct l as [|y l]; [exact Hw|]. destruct op; [|exact Hw]. destruct m as [[p v]|]; [|exact Hw].
    destruct (drop_sites _ _) as [ms []]; [eapply Hc; reflexivity|]. exact Hw.
  - destruct op; [|exact Hw]. destruct m as [[p v]|]; [|exact Hw]. eapply Hc. reflexivity.
  - destruct op; [|exact Hw]. destruct m as [[p v]|]; [|exact Hw]. eapply Hc. reflexivity.
  - destruct op; [|exact Hw]. destruct m as [[p v]|]; [|exact Hw]. destruct (v_pw v !! _); [eapply Hc; reflexivity|exact Hw].
  - destruct op; [|exact Hw]. destruct m as [[p v]|]; [|exact Hw]. destruct (v_pw v !! _); [eapply Hc; reflexivity|exact Hw].
Qed.

Lemma settled_run P l : forall w, settled w ->
  settled (fst (vrun P (repeat Saved (length l)) w l)) /\
  (Forall (fun o => is_reset o = false) l -> primary_of (w_file (fst (vrun P (repeat Saved (length l)) w l))) = primary_of (w_file w)).
Proof.
  induction l as [|o l IH]; intros w H; [split; [exact H|reflexivity]|]. cbn [length repeat vrun].
  destruct (settled_step P w o H) as [H1 H2]. destruct (vstep P Saved w o) as [w1 r]. cbn [fst] in *. destruct (IH w1 H1) as [H3 H4].
  destruct (vrun P _ w1 l) as [w2 rs]. cbn [fst] in *. split; [exact H3|]. intros Hn. inversion Hn; subst. rewrite H4, H2 by assumption. reflexivity.
Qed.

Lemma vrun_app P l1 l2 : forall w, fst (vrun P (repeat Saved (length (l1 ++ l2))) w (l1 ++ l2)) =
  fst (vrun P (repeat Saved (length l2)) (fst (vrun P (repeat Saved (length l1)) w l1)) l2).
Proof.
  induction l1 as [|o l1 IH]; intros w; [reflexivity|]. cbn [app length repeat vrun]. destruct (vstep P Saved w o) as [w1 r].
  specialize (IH w1). destruct (vrun P _ w1 (l1 ++ l2)), (vrun P _ w1 l1). exact IH.
Qed.

(** During calls without [Reset] the secret stays the same. *)
Section segment.
Context (P : prims) (sc : scope) (l0 l1 : list op) (s0 : st) (Hw : forall n, p_write P n = WriteOk).
Context (So : sound P sc (l0 ++ l1) s0) (Hn : Forall (fun o => is_reset o = false) l1).
Notation HP := (so_prims _ _ _ _ So).
Notation bound := (s_rand (snd (run P (l0 ++ l1) s0))).
Notation Rep := (data_rep P (sc_sites sc) (sc_ids sc) (sc_pws sc) bound).
Notation at_ k := (l0 ++ firstn k l1).
Notation vault_at k := (w_file (fst (vrun P (repeat Saved (length (at_ k))) nothing (at_ k)))).

Lemma at_sound k : sound P sc (at_ k) s0.
Proof. apply sound_app with (l2 := skipn k l1). rewrite <- app_assoc, firstn_skipn. exact So. Qed.
Lemma at_bound k : s_rand (snd (run P (at_ k) s0)) <= bound.
Proof.
  assert (l0 ++ l1 = at_ k ++ skipn k l1) as E by (rewrite <- app_assoc, firstn_skipn; reflexivity). rewrite E, (run_app P (at_ k) (skipn k l1)). cbn [snd].
  apply run_grows.
Qed.
Lemma rep_more b b' i pp d v : b <= b' -> data_rep P (sc_sites sc) (sc_ids sc) (sc_pws sc) b i pp d v -> data_rep P (sc_sites sc) (sc_ids sc) (sc_pws sc) b' i pp d v.
Proof. intros Hb [H1 H2 H3 H4 H5 H6 H7]. split; try assumption. lia. Qed.

Lemma at_rep k : match vault_at k with
  | Some (pp, v) => exists i d, load P (s_disk (snd (run P (at_ k) s0))) = Ok d /\ Rep i pp d v
  | None => is_ok (load P (s_disk (snd (run P (at_ k) s0)))) = false
  end.
Proof.
  destruct (sound_rep P sc (at_ k) s0 (at_sound k)) as (wrs & H1 & [_ F] & _). rewrite (saved_writes P _ Hw wrs s0 H1) in F.
  unfold file_rep in F. destruct (w_file _) as [[pp v]|]; [|exact F]. destruct F as (i & d & Hd & R). exists i, d. split; [exact Hd|].
  eapply rep_more; [apply at_bound|exact R].
Qed.

Lemma at_primary k : primary_of (vault_at k) = primary_of (vault_at 0).
Proof.
  rewrite vrun_app. cbn [firstn]. rewrite app_nil_r.
  destruct (settled_run P l0 nothing eq_refl) as [H _]. apply (settled_run P (firstn k l1) _ H).
  rewrite <- (firstn_skipn k l1) in Hn. apply Forall_app in Hn. apply Hn.
Qed.

Lemma at_secret k pp v i d j w e : vault_at 0 = Some (pp, v) -> load P (s_disk (snd (run P (at_ 0) s0))) = Ok d -> Rep i pp d v ->
  vault_at k = Some (pp, w) -> load P (s_disk (snd (run P (at_ k) s0))) = Ok e -> Rep j pp e w ->
  p_random P (j + 1) 32 = p_random P (i + 1) 32.
Proof.
  intros _ Hd R _ He S.
  assert (forall slot, slot = bs "salt" \/ slot = bs "hmac-secret" -> e !! slot = d !! slot) as Hst.
  { intros slot Hs. destruct (steady_reached P l0 s0 slot HP Hw (so_fresh _ _ _ _ So) Hs) as [x Hx].
    assert (Forall (fun o => is_reset o = false) (firstn k l1)) as Hk by (rewrite <- (firstn_skipn k l1) in Hn; apply Forall_app in Hn; apply Hn).
    pose proof (steady_run P (firstn k l1) slot x HP Hs Hk _ Hx) as Hx'.
    cbn [firstn] in Hd. rewrite app_nil_r in Hd. rewrite run_app in He. cbn [snd] in He.
    destruct Hx as (_ & _ & Hx & _), Hx' as (_ & _ & Hx' & _). rewrite (Hx _ Hd), (Hx' _ He). reflexivity. }
  pose proof (Hst (bs "salt") (or_introl eq_refl)) as E1. pose proof (Hst (bs "hmac-secret") (or_intror eq_refl)) as E2.
  change (bs "salt") with SALT_KEY in E1. change (bs "hmac-secret") with HMAC_SECRET_KEY in E2.
  rewrite (dr_salt _ _ _ _ _ _ _ _ _ R), (dr_salt _ _ _ _ _ _ _ _ _ S) in E1. rewrite (dr_hmac _ _ _ _ _ _ _ _ _ R), (dr_hmac _ _ _ _ _ _ _ _ _ S) in E2.
  injection E1 as E1. apply b64_encode_inj in E1. injection E2 as E2.
  assert (ekey P pp j = ekey P pp i) as Ek by (unfold ekey, key_for; rewrite E1; reflexivity). rewrite Ek in E2.
  apply (f_equal (fun c => decrypt_data P c (ekey P pp i))) in E2. rewrite !decrypt_sealed in E2 by (try exact HP; apply (ekey_len P HP)).
  apply (f_equal (fun r => match r with Ok x => x | _ => [] end)) in E2. cbv beta iota in E2.
  unfold string_to_vec in E2. cbn [write_json] in E2. rewrite !(plain_write _ (plain_b64 _)) in E2. apply (f_equal (skipn 1)) in E2. cbn [skipn] in E2.
  apply app_inv_tail in E2. apply b64_encode_inj in E2. exact E2.
Qed.
End segment.

(** * Two histories *)

Section pairs.
Context (f : renaming) (Ff : fair f).
Context (P P' : prims) (HP : prims_ok P) (HP' : prims_ok P') (sc sc' : scope) (bd bd' : nat).
Context (Hs : forall x, In x (sc_sites sc) -> utf8 x = true) (Hi : forall n r, In (n, r) (sc_ids sc) -> utf8 n = true /\ utf8 r = true /\ ~ In x00 n).
Context (Hs' : forall x, In x (sc_sites sc') -> utf8 x = true) (Hi' : forall n r, In (n, r) (sc_ids sc') -> utf8 n = true /\ utf8 r = true /\ ~ In x00 n).
Context (HA : assumptions P (sc_sites sc) (sc_ids sc) (sc_pws sc) bd) (HA' : assumptions P' (sc_sites sc') (sc_ids sc') (sc_pws sc') bd').
Notation Rep := (data_rep P (sc_sites sc) (sc_ids sc) (sc_pws sc) bd).
Notation Rep' := (data_rep P' (sc_sites sc') (sc_ids sc') (sc_pws sc') bd').
Context (i i' : nat) (Bi : i + 2 < bd) (Bi' : i' + 2 < bd').

Definition paired (k k' : bytes) : Prop :=
  (k = SALT_KEY /\ k' = SALT_KEY) \/ (k = HMAC_SECRET_KEY /\ k' = HMAC_SECRET_KEY) \/
  (exists x, In x (sc_sites sc) /\ In (on_site f x) (sc_sites sc') /\ k = skey P i x /\ k' = skey P' i' (on_site f x)) \/
  (exists y, in_ids (sc_sites sc) (sc_ids sc) y /\ in_ids (sc_sites sc') (sc_ids sc') (rid f y) /\ k = pkey P i y /\ k' = pkey P' i' (rid f y)).

Ltac no_clash := exfalso; match goal with
  | H : SALT_KEY = HMAC_SECRET_KEY |- _ => discriminate H
  | H : HMAC_SECRET_KEY = SALT_KEY |- _ => discriminate H
  | H : skey _ _ _ = SALT_KEY |- _ => exact (skey_salt _ _ _ H)
  | H : SALT_KEY = skey _ _ _ |- _ => exact (skey_salt _ _ _ (eq_sym H))
  | H : skey _ _ _ = HMAC_SECRET_KEY |- _ => exact (skey_hmac _ _ _ H)
  | H : HMAC_SECRET_KEY = skey _ _ _ |- _ => exact (skey_hmac _ _ _ (eq_sym H))
  | H : pkey _ _ _ = SALT_KEY |- _ => exact (pkey_salt _ _ _ H)
  | H : SALT_KEY = pkey _ _ _ |- _ => exact (pkey_salt _ _ _ (eq_sym H))
  | H : pkey _ _ _ = HMAC_SECRET_KEY |- _ => exact (pkey_hmac _ _ _ H)
  | H : HMAC_SECRET_KEY = pkey _ _ _ |- _ => exact (pkey_hmac _ _ _ (eq_sym H))
  | H : skey _ _ _ = pkey _ _ _ |- _ => exact (skey_pkey _ _ _ _ H)
  | H : pkey _ _ _ = skey _ _ _ |- _ => exact (skey_pkey _ _ _ _ (eq_sym H))
  end.

Lemma skey_length Q j x : prims_ok Q -> length (skey Q j x) = 49.
Proof. intros HQ. rewrite skey_eq, app_length. unfold hashed. rewrite b64_encode_length, (ok_hmac_len Q HQ). reflexivity. Qed.
Lemma pkey_length Q j x : prims_ok Q -> length (pkey Q j x) = 94.
Proof.
  intros HQ. destruct x as [[x n] r]. rewrite pkey_eq, !app_length. cbn [length]. unfold hashed. rewrite !b64_encode_length, !(ok_hmac_len Q HQ). reflexivity.
Qed.
Lemma pkey_skey Q j y : exists t, pkey Q j y = skey Q j y.1.1 ++ ":"%byte :: t.
Proof. destruct y as [[x n] r]. rewrite pkey_eq, skey_eq. cbn [fst]. eexists. rewrite <- app_assoc. reflexivity. Qed.

(** Only the key of its site is a prefix of the key of a password. *)
Lemma prefix_site Q j y k t : prims_ok Q -> length k = 49 -> pkey Q j y = k ++ ":"%byte :: t -> k = skey Q j y.1.1.
Proof.
  intros HQ Hk E. destruct (pkey_skey Q j y) as [t' E']. rewrite E' in E. symmetry in E. apply app_inj_1 in E; [apply E|].
  rewrite Hk, skey_length by exact HQ. reflexivity.
Qed.
Lemma no_prefix_salt (t : bytes) k : SALT_KEY = k ++ ":"%byte :: t -> False.
Proof. intros E. assert (In ":"%byte SALT_KEY) as H by (rewrite E; apply in_or_app; right; left; reflexivity). cbn in H. intuition discriminate. Qed.
Lemma no_prefix_hmac (t : bytes) k : HMAC_SECRET_KEY = k ++ ":"%byte :: t -> False.
Proof. intros E. assert (In ":"%byte HMAC_SECRET_KEY) as H by (rewrite E; apply in_or_app; right; left; reflexivity). cbn in H. intuition discriminate. Qed.
Lemma no_prefix_of_salt Q j x t : skey Q j x = SALT_KEY ++ t -> False.
Proof. rewrite skey_eq. discriminate. Qed.

Lemma half_prefix Q j (HQ : prims_ok Q) (k m t : bytes) :
  (k = SALT_KEY \/ k = HMAC_SECRET_KEY \/ (exists x, k = skey Q j x) \/ (exists y, k = pkey Q j y)) ->
  (m = SALT_KEY \/ m = HMAC_SECRET_KEY \/ (exists x, m = skey Q j x) \/ (exists y, m = pkey Q j y)) ->
  m = k ++ ":"%byte :: t -> exists y, m = pkey Q j y /\ k = skey Q j y.1.1.
Proof.
  intros Hk Hm E. assert (length m = length k + S (length t)) as Hl by (rewrite E, app_length; reflexivity).
  destruct Hm as [->|[->|[[x ->]|[y ->]]]].
  - destruct (no_prefix_salt _ _ E).
  - destruct (no_prefix_hmac _ _ E).
  - rewrite (skey_length Q j x HQ) in Hl. destruct Hk as [->|[->|[[x' ->]|[y ->]]]].
    + rewrite skey_eq in E. discriminate E.
    + rewrite skey_eq in E. discriminate E.
    + rewrite (skey_length Q j x' HQ) in Hl. lia.
    + rewrite (pkey_length Q j y HQ) in Hl. lia.
  - exists y. split; [reflexivity|]. destruct Hk as [->|[->|[[x' ->]|[y' ->]]]].
    + destruct y as [[x n] r]. rewrite pkey_eq in E. discriminate E.
    + destruct y as [[x n] r]. rewrite pkey_eq in E. discriminate E.
    + eapply prefix_site; [exact HQ|apply (skey_length Q j x' HQ)|exact E].
    + rewrite !pkey_length in Hl by exact HQ. lia.
Qed.

Lemma left_key k k' : paired k k' -> k = SALT_KEY \/ k = HMAC_SECRET_KEY \/ (exists x, k = skey P i x) \/ (exists y, k = pkey P i y).
Proof. intros [[-> _]|[[-> _]|[(x & _ & _ & -> & _)|(y & _ & _ & -> & _)]]]; eauto. Qed.
Lemma right_key k k' : paired k k' -> k' = SALT_KEY \/ k' = HMAC_SECRET_KEY \/ (exists x, k' = skey P' i' x) \/ (exists y, k' = pkey P' i' y).
Proof. intros [[_ ->]|[[_ ->]|[(x & _ & _ & _ & ->)|(y & _ & _ & _ & ->)]]]; eauto. Qed.

Lemma paired_pairing : pairing paired.
Proof.
  split.
  - intros k k' m m' [[-> ->]|[[-> ->]|[(x & X1 & X2 & -> & ->)|(x & X1 & X2 & -> & ->)]]] [[-> ->]|[[-> ->]|[(y & Y1 & Y2 & -> & ->)|(y & Y1 & Y2 & -> & ->)]]];
      split; intros E; try reflexivity; try no_clash.
    + apply (skey_inj P _ _ _ _ Hs Hi HA i x y Bi X1 Y1) in E. subst. reflexivity.
    + apply (skey_inj P' _ _ _ _ Hs' Hi' HA' i' _ _ Bi' X2 Y2) in E. apply (fa_site f Ff) in E. subst. reflexivity.
    + apply (pkey_inj P _ _ _ _ Hi HA i x y Bi X1 Y1) in E. subst. reflexivity.
    + apply (pkey_inj P' _ _ _ _ Hi' HA' i' _ _ Bi' X2 Y2) in E. apply (rid_inj f Ff) in E. subst. reflexivity.
  - left. split; reflexivity.
  - right. left. split; reflexivity.
  - intros k k' m m' Hk Hm. split; intros [t E].
    + destruct (half_prefix P i HP k m t (left_key _ _ Hk) (left_key _ _ Hm) E) as (y & -> & ->).
      destruct Hm as [[Hm _]|[[Hm _]|[(x & _ & _ & Hm & _)|(y' & Y1 & Y2 & Hm & ->)]]]; try no_clash.
      destruct Hk as [[Hk _]|[[Hk _]|[(x & X1 & X2 & Hk & ->)|(x & _ & _ & Hk & _)]]]; try no_clash.
      destruct (pkey_skey P i y) as [u Eu]. destruct (pkey_skey P i y') as [u' Eu'].
      assert (skey P i y.1.1 = skey P i y'.1.1) as E1.
      { rewrite Hm, Eu' in Eu. apply app_inj_1 in Eu; [|rewrite !skey_length by exact HP; reflexivity]. symmetry. apply Eu. }
      rewrite Hk in E1. apply (skey_inj P _ _ _ _ Hs Hi HA i _ _ Bi X1 (proj1 Y1)) in E1. subst x.
      destruct (pkey_skey P' i' (rid f y')) as [u2 E2]. exists u2. exact E2.
    + destruct (half_prefix P' i' HP' k' m' t (right_key _ _ Hk) (right_key _ _ Hm) E) as (y & -> & ->).
      destruct Hm as [[_ Hm]|[[_ Hm]|[(x & _ & _ & _ & Hm)|(y' & Y1 & Y2 & -> & Hm)]]]; try no_clash.
      destruct Hk as [[_ Hk]|[[_ Hk]|[(x & X1 & X2 & -> & Hk)|(x & _ & _ & _ & Hk)]]]; try no_clash.
      destruct (pkey_skey P' i' y) as [u Eu]. destruct (pkey_skey P' i' (rid f y')) as [u' Eu'].
      assert (skey P' i' y.1.1 = skey P' i' (rid f y').1.1) as E1.
      { rewrite Hm, Eu' in Eu. apply app_inj_1 in Eu; [|rewrite !skey_length by exact HP'; reflexivity]. symmetry. apply Eu. }
      rewrite Hk in E1. apply (skey_inj P' _ _ _ _ Hs' Hi' HA' i' _ _ Bi' X2 (proj1 Y2)) in E1. cbn [rid fst] in E1. apply (fa_site f Ff) in E1. subst x.
      apply (pkey_skey P i y').
Qed.

Lemma same_secret_site Q j j' x : p_random Q (j + 1) 32 = p_random Q (j' + 1) 32 -> skey Q j x = skey Q j' x.
Proof. intros E. unfold skey, hsec. rewrite E. reflexivity. Qed.
Lemma same_secret_password Q j j' y : p_random Q (j + 1) 32 = p_random Q (j' + 1) 32 -> pkey Q j y = pkey Q j' y.
Proof. intros E. unfold pkey, hsec. rewrite E. reflexivity. Qed.

Lemma sealed_alike j j' pp pp' rnd rnd' m m' : length m = length m' ->
  length (sealed P' (ekey P' pp' j') rnd' m') = length (sealed P (ekey P pp j) rnd m).
Proof. intros E. rewrite !sealed_length by (assumption || apply ekey_len; assumption). unfold sealed_size. rewrite E. reflexivity. Qed.

Lemma rep_matched j j' pp pp' d d' v v' : p_random P (j + 1) 32 = p_random P (i + 1) 32 -> p_random P' (j' + 1) 32 = p_random P' (i' + 1) 32 ->
  Rep j pp d v -> Rep' j' pp' d' v' -> like_vault f v v' -> matched paired d d'.
Proof.
  intros Ej Ej' R R' L.
  assert (forall Q q, length (string_to_vec (b64_encode (hsec Q q))) = length (string_to_vec (b64_encode (p_random Q (q + 1) 32)))) as Hh by reflexivity.
  assert (length (string_to_vec (b64_encode (hsec P j))) = length (string_to_vec (b64_encode (hsec P' j')))) as Es.
  { unfold string_to_vec, hsec. cbn [write_json]. rewrite !(plain_write _ (plain_b64 _)). cbn [length]. rewrite !app_length, !b64_encode_length.
    rewrite (ok_random_len P HP), (ok_random_len P' HP'). reflexivity. }
  assert (length (b64_encode (p_random P' j' 16)) = length (b64_encode (p_random P j 16))) as E16.
  { rewrite !b64_encode_length, (ok_random_len P HP), (ok_random_len P' HP'). reflexivity. }
  split.
  - intros k c Hc. destruct (dr_dom _ _ _ _ _ _ _ _ _ R k (mk_is_Some _ _ Hc)) as [->|[->|[(x & [o Hx] & ->)|([[x n] r] & [e Hx] & ->)]]].
    + rewrite (dr_salt _ _ _ _ _ _ _ _ _ R) in Hc. injection Hc as <-. eexists SALT_KEY, _. split; [left; split; reflexivity|].
      split; [apply (dr_salt _ _ _ _ _ _ _ _ _ R')|]. split; [reflexivity|exact E16].
    + rewrite (dr_hmac _ _ _ _ _ _ _ _ _ R) in Hc. injection Hc as <-. eexists HMAC_SECRET_KEY, _. split; [right; left; split; reflexivity|].
      split; [apply (dr_hmac _ _ _ _ _ _ _ _ _ R')|]. split; [reflexivity|]. apply sealed_alike, Es.
    + destruct (dr_site _ _ _ _ _ _ _ _ _ R _ _ Hx) as (X1 & _ & rnd & E). rewrite E in Hc. injection Hc as <-.
      pose proof (lv_site _ _ _ L x) as Hx'. rewrite Hx in Hx'. cbn [option_map] in Hx'.
      destruct (dr_site _ _ _ _ _ _ _ _ _ R' _ _ Hx') as (X2 & _ & rnd' & E'). eexists _, _. split; [|split; [exact E'|split]].
      * right. right. left. exists x. repeat split; try assumption; apply same_secret_site; assumption.
      * rewrite !skey_length by assumption. reflexivity.
      * apply sealed_alike. rewrite like_site_json with (f := f) by exact Ff. reflexivity.
    + destruct (dr_pw _ _ _ _ _ _ _ _ _ R _ _ Hx) as (X1 & _ & rnd & E). rewrite E in Hc. injection Hc as <-.
      pose proof (lv_pw _ _ _ L (x, n, r)) as Hx'. rewrite Hx in Hx'. unfold both in Hx'. destruct (v_pw v' !! rid f (x, n, r)) as [e'|] eqn:Ee; [|destruct Hx'].
      destruct (dr_pw _ _ _ _ _ _ _ _ _ R' _ _ Ee) as (X2 & _ & rnd' & E'). eexists _, _. split; [|split; [exact E'|split]].
      * right. right. right. exists (x, n, r). repeat split; try apply X1; try apply X2; apply same_secret_password; assumption.
      * rewrite !pkey_length by assumption. reflexivity.
      * apply sealed_alike. apply like_json; assumption.
  - intros k c Hc. destruct (dr_dom _ _ _ _ _ _ _ _ _ R' k (mk_is_Some _ _ Hc)) as [->|[->|[(x' & [o' Hx'] & ->)|(y' & [e' Ee] & ->)]]].
    + rewrite (dr_salt _ _ _ _ _ _ _ _ _ R') in Hc. injection Hc as <-. eexists SALT_KEY, _. split; [left; split; reflexivity|].
      split; [apply (dr_salt _ _ _ _ _ _ _ _ _ R)|]. split; [reflexivity|exact E16].
    + rewrite (dr_hmac _ _ _ _ _ _ _ _ _ R') in Hc. injection Hc as <-. eexists HMAC_SECRET_KEY, _. split; [right; left; split; reflexivity|].
      split; [apply (dr_hmac _ _ _ _ _ _ _ _ _ R)|]. split; [reflexivity|]. apply sealed_alike, Es.
    + destruct (lv_sites _ _ _ L x' (mk_is_Some _ _ Hx')) as [x ->]. pose proof (lv_site _ _ _ L x) as Hx. rewrite Hx' in Hx.
      destruct (v_sites v !! x) as [o|] eqn:Eo; [|discriminate Hx]. cbn [option_map] in Hx. injection Hx as ->.
      destruct (dr_site _ _ _ _ _ _ _ _ _ R _ _ Eo) as (X1 & _ & rnd & E).
      destruct (dr_site _ _ _ _ _ _ _ _ _ R' _ _ Hx') as (X2 & _ & rnd' & E'). rewrite E' in Hc. injection Hc as <-. eexists _, _. split; [|split; [exact E|split]].
      * right. right. left. exists x. repeat split; try assumption; apply same_secret_site; assumption.
      * rewrite !skey_length by assumption. reflexivity.
      * apply sealed_alike. rewrite like_site_json with (f := f) by exact Ff. reflexivity.
    + destruct (lv_pws _ _ _ L y' (mk_is_Some _ _ Ee)) as [[[x n] r] ->]. pose proof (lv_pw _ _ _ L (x, n, r)) as Hx. rewrite Ee in Hx. unfold both in Hx.
      destruct (v_pw v !! (x, n, r)) as [e|] eqn:Ev; [|destruct Hx].
      destruct (dr_pw _ _ _ _ _ _ _ _ _ R _ _ Ev) as (X1 & _ & rnd & E).
      destruct (dr_pw _ _ _ _ _ _ _ _ _ R' _ _ Ee) as (X2 & _ & rnd' & E'). rewrite E' in Hc. injection Hc as <-. eexists _, _. split; [|split; [exact E|split]].
      * right. right. right. exists (x, n, r). repeat split; try apply X1; try apply X2; apply same_secret_password; assumption.
      * rewrite !pkey_length by assumption. reflexivity.
      * apply sealed_alike. apply like_json; assumption.
Qed.
End pairs.

Lemma corresponds_reset f l l' : Forall2 (corresponds f) l l' -> Forall (fun o => is_reset o = false) l -> Forall (fun o => is_reset o = false) l'.
Proof.
  induction 1 as [|o o' l l' Ho _ IH]; intros Hn; [constructor|]. apply Forall_cons_1 in Hn. destruct Hn as [H1 H2]. constructor; [|apply IH, H2].
  destruct Ho; try reflexivity; [|discriminate H1]. destruct o'; try reflexivity. discriminate.
Qed.

Definition only_fixed (k k' : bytes) : Prop := (k = SALT_KEY /\ k' = SALT_KEY) \/ (k = HMAC_SECRET_KEY /\ k' = HMAC_SECRET_KEY).
Lemma only_fixed_pairing : pairing only_fixed.
Proof.
  split.
  - intros k k' m m' [[-> ->]|[-> ->]] [[-> ->]|[-> ->]]; split; intros E; try reflexivity; discriminate E.
  - left. split; reflexivity.
  - right. split; reflexivity.
  - intros k k' m m' [[-> ->]|[-> ->]] [[-> ->]|[-> ->]]; split; intros [t E]; discriminate E.
Qed.

Section two.
Context (P P' : prims) (sc sc' : scope) (f : renaming) (l0 l1 l0' l1' : list op) (s0 s0' : st).
Context (Ff : fair f) (Hw : forall n, p_write P n = WriteOk) (Hw' : forall n, p_write P' n = WriteOk).
Context (So : sound P sc (l0 ++ l1) s0) (So' : sound P' sc' (l0' ++ l1') s0').
Context (H0 : Forall2 (corresponds f) l0 l0') (H1 : Forall2 (corresponds f) l1 l1') (Hn : Forall (fun o => is_reset o = false) l1).
Notation file k := (w_file (fst (vrun P (repeat Saved (length (l0 ++ firstn k l1))) nothing (l0 ++ firstn k l1)))).
Notation file' k := (w_file (fst (vrun P' (repeat Saved (length (l0' ++ firstn k l1'))) nothing (l0' ++ firstn k l1')))).

Lemma files_alike k : like_saved f (file k) (file' k).
Proof.
  apply (like_run f Ff P P' (l0 ++ firstn k l1) (l0' ++ firstn k l1')).
  - apply Forall2_app; [exact H0|]. apply Forall2_take, H1.
  - repeat split.
Qed.

Lemma watched_alike : exists b, pairing b /\ forall k,
  look_alike b (load P (s_disk (snd (run P (l0 ++ firstn k l1) s0)))) (load P' (s_disk (snd (run P' (l0' ++ firstn k l1') s0')))).
Proof.
  pose proof (corresponds_reset f _ _ H1 Hn) as Hn'.
  pose proof (at_rep P sc l0 l1 s0 Hw So) as AR. pose proof (at_rep P' sc' l0' l1' s0' Hw' So') as AR'.
  pose proof (at_primary P l0 l1 Hn) as AP. pose proof files_alike as FA.
  pose proof (at_secret P sc l0 l1 s0 Hw So Hn) as AS. pose proof (at_secret P' sc' l0' l1' s0' Hw' So' Hn') as AS'.
  pose proof (AR 0) as R0. pose proof (AR' 0) as R0'. pose proof (FA 0) as F0.
  destruct (file 0) as [[pp v]|] eqn:E0.
  - unfold like_saved in F0. destruct (file' 0) as [[pp' v']|] eqn:E0'; [|destruct F0]. destruct F0 as [-> L0].
    destruct R0 as (i & d & Ed & R), R0' as (i' & d' & Ed' & R').
    exists (paired f P P' sc sc' i i'). split.
    + eapply (paired_pairing f Ff P P' (so_prims _ _ _ _ So) (so_prims _ _ _ _ So') sc sc').
      * apply (so_sites _ _ _ _ So).
      * apply (so_ids _ _ _ _ So).
      * apply (so_sites _ _ _ _ So').
      * apply (so_ids _ _ _ _ So').
      * apply (so_assumptions _ _ _ _ So).
      * apply (so_assumptions _ _ _ _ So').
      * apply (dr_bound _ _ _ _ _ _ _ _ _ R).
      * apply (dr_bound _ _ _ _ _ _ _ _ _ R').
    + intros k. specialize (AR k). specialize (AR' k). specialize (AP k). specialize (FA k).
      specialize (AS k pp v i d). specialize (AS' k (on_primary f pp) v' i' d').
      destruct (file k) as [[q w]|] eqn:Ek; [|discriminate AP]. cbn in AP. injection AP as ->.
      unfold like_saved in FA. destruct (file' k) as [[q' w']|] eqn:Ek'; [|destruct FA]. destruct FA as [-> L].
      destruct AR as (j & e & Ee & S), AR' as (j' & e' & Ee' & S').
      rewrite Ee, Ee'. cbn [look_alike].
      eapply (rep_matched f Ff P P' (so_prims _ _ _ _ So) (so_prims _ _ _ _ So') sc sc'); [| |exact S|exact S'|exact L].
      * exact (AS j w e eq_refl Ed R eq_refl Ee S).
      * exact (AS' j' w' e' eq_refl Ed' R' eq_refl Ee' S').
  - exists only_fixed. split; [apply only_fixed_pairing|]. intros k. specialize (AR k). specialize (AR' k). specialize (AP k). specialize (FA k).
    destruct (file k) as [[q w]|] eqn:Ek; [discriminate AP|]. unfold like_saved in FA. destruct (file' k) as [[q' w']|] eqn:Ek'; [destruct FA|].
    destruct (load P _); [discriminate AR| |]; (destruct (load P' _); [discriminate AR'| |]; exact I).
Qed.
End two.

(** What the keys in the file do show. *)
Lemma keys_show P sc l s0 pp v : (forall n, p_write P n = WriteOk) -> sound P sc l s0 ->
  w_file (fst (vrun P (repeat Saved (length l)) nothing l)) = Some (pp, v) ->
  exists d (ks : bytes -> bytes) (kp : pid -> bytes), load P (s_disk (snd (run P l s0))) = Ok d /\
    (forall x, is_Some (v_sites v !! x) -> is_Some (d !! ks x) /\ length (ks x) = 49) /\
    (forall y, is_Some (v_pw v !! y) -> is_Some (d !! kp y) /\ length (kp y) = 94) /\
    (forall k, is_Some (d !! k) -> length k = 49 -> exists x, is_Some (v_sites v !! x) /\ k = ks x) /\
    (forall k, is_Some (d !! k) -> length k = 94 -> exists y, is_Some (v_pw v !! y) /\ k = kp y) /\
    (forall x x', is_Some (v_sites v !! x) -> is_Some (v_sites v !! x') -> ks x = ks x' -> x = x') /\
    (forall y y', is_Some (v_pw v !! y) -> is_Some (v_pw v !! y') -> kp y = kp y' -> y = y') /\
    (forall y y', is_Some (v_pw v !! y) -> is_Some (v_pw v !! y') -> (firstn 49 (kp y) = firstn 49 (kp y') <-> y.1.1 = y'.1.1)) /\
    (forall x y, is_Some (v_sites v !! x) -> is_Some (v_pw v !! y) -> (firstn 49 (kp y) = ks x <-> y.1.1 = x)).
Proof.
  intros Hw So E. assert (sound P sc (l ++ []) s0) as So' by (rewrite app_nil_r; exact So).
  pose proof (at_rep P sc l [] s0 Hw So' 0) as R. cbn [firstn] in R. rewrite app_nil_r in R. rewrite E in R. destruct R as (i & d & Ed & R).
  pose proof (so_prims _ _ _ _ So) as HP. pose proof (dr_bound _ _ _ _ _ _ _ _ _ R) as Hb.
  pose proof (skey_inj P _ _ _ _ (so_sites _ _ _ _ So) (so_ids _ _ _ _ So) (so_assumptions _ _ _ _ So) i) as SI.
  pose proof (pkey_inj P _ _ _ _ (so_ids _ _ _ _ So) (so_assumptions _ _ _ _ So) i) as PI.
  assert (forall y, firstn 49 (pkey P i y) = skey P i y.1.1) as F.
  { intros y. destruct (pkey_skey P i y) as [t ->]. rewrite <- (skey_length P i y.1.1 HP) at 1. apply take_app. }
  assert (forall x, is_Some (v_sites v !! x) -> In x (sc_sites sc)) as Is by (intros x [o Ho]; exact (proj1 (dr_site _ _ _ _ _ _ _ _ _ R _ _ Ho))).
  assert (forall y, is_Some (v_pw v !! y) -> in_ids (sc_sites sc) (sc_ids sc) y) as Ip by (intros y [o Ho]; exact (proj1 (dr_pw _ _ _ _ _ _ _ _ _ R _ _ Ho))).
  exists d, (skey P i), (pkey P i). split; [exact Ed|].
  split; [|split; [|split; [|split; [|split; [|split; [|split]]]]]].
  - intros x [o Ho]. destruct (dr_site _ _ _ _ _ _ _ _ _ R _ _ Ho) as (_ & _ & rnd & Hx). split; [rewrite Hx; eauto|apply skey_length, HP].
  - intros y [o Ho]. destruct (dr_pw _ _ _ _ _ _ _ _ _ R _ _ Ho) as (_ & _ & rnd & Hx). split; [rewrite Hx; eauto|apply pkey_length, HP].
  - intros k Hk L. destruct (dr_dom _ _ _ _ _ _ _ _ _ R k Hk) as [->|[->|[(x & Hx & ->)|(y & Hy & ->)]]]; [discriminate L|discriminate L|eauto|].
    rewrite (pkey_length P i y HP) in L. discriminate L.
  - intros k Hk L. destruct (dr_dom _ _ _ _ _ _ _ _ _ R k Hk) as [->|[->|[(x & Hx & ->)|(y & Hy & ->)]]]; [discriminate L|discriminate L| |eauto].
    rewrite (skey_length P i x HP) in L. discriminate L.
  - intros x x' Hx Hx' H. apply SI; auto.
  - intros x x' Hx Hx' H. apply PI; auto.
  - intros y y' Hy Hy'. rewrite !F. split; [|intros ->; reflexivity]. intros H. apply SI; auto; [apply (Ip y Hy)|apply (Ip y' Hy')].
  - intros x y Hx Hy. rewrite F. split; [|intros <-; reflexivity]. intros H. apply SI; auto. apply (Ip y Hy).
Qed.
