(** The size of the file does not depend on secrets beyond their lengths (C38). *)
From stdpp Require Import gmap.
From Coq Require Import Permutation ZArith ZifyBool ZifyNat ZifyN.
From Verif Require Import M_Base M_Base64 M_Utf8 M_Prims M_Types M_Crypto M_Recovery M_Json M_Serde M_Storage
  M_Passwords M_History S_Base64 S_Json S_Serde S_Vault S_Api S_History P_Base P_Base64 P_Crypto P_Recovery P_Json P_Serde P_Utf8
  P_File P_Storage P_Api P_Vault P_History P_Calls P_Sound P_Size.

Definition sim_secret (a b : secret) : Prop :=
  match a, b with
  | SGenerated n c, SGenerated n' c' => n = n' /\ c = c'
  | SFixed t, SFixed t' => same_size t t'
  | _, _ => False
  end.
Definition sim_entry (a b : entry) : Prop := sim_secret (e_secret a) (e_secret b) /\ same_size (e_notes a) (e_notes b).
Definition sim_vault (a b : vault) : Prop :=
  v_sites a = v_sites b /\ forall i, match v_pw a !! i, v_pw b !! i with
                                     | Some e, Some e' => sim_entry e e' | None, None => True | _, _ => False end.
Definition sim_saved (a b : option (bytes * vault)) : Prop :=
  match a, b with
  | Some (p, v), Some (p', v') => p = p' /\ sim_vault v v'
  | None, None => True
  | _, _ => False
  end.
Definition sim_world (a b : world) : Prop :=
  sim_saved (w_mem a) (w_mem b) /\ w_open a = w_open b /\ sim_saved (w_file a) (w_file b).

Lemma sim_secret_refl a : sim_secret a a.
Proof. destruct a; cbn; [auto|reflexivity]. Qed.
Lemma sim_empty : sim_vault empty_vault empty_vault.
Proof. split; [reflexivity|]. intros i. cbn. rewrite lookup_empty. exact I. Qed.

Lemma sim_target a b x : sim_vault a b -> target a x = target b x.
Proof. intros [H _]. unfold target. rewrite H. reflexivity. Qed.

Lemma has_passwords_iff v x : has_passwords v x = true <-> exists i, pid_site i = x /\ is_Some (v_pw v !! i).
Proof.
  unfold has_passwords. rewrite existsb_exists. split.
  - intros ([i e] & Hin & Hb). apply bytes_eqb_eq in Hb. rewrite <- elem_of_list_In in Hin. apply elem_of_map_to_list in Hin. eauto.
  - intros (i & <- & [e He]). exists (i, e). split; [|apply bytes_eqb_refl]. rewrite <- elem_of_list_In. apply elem_of_map_to_list, He.
Qed.

Lemma sim_some a b i : sim_vault a b -> is_Some (v_pw a !! i) <-> is_Some (v_pw b !! i).
Proof.
  intros [_ H]. specialize (H i). destruct (v_pw a !! i), (v_pw b !! i); try contradiction; split; intros [? E]; try discriminate E; eauto.
Qed.

Lemma sim_has_passwords a b x : sim_vault a b -> has_passwords a x = has_passwords b x.
Proof.
  intros H. apply Bool.eq_true_iff_eq. rewrite !has_passwords_iff. split; intros (i & Hi & Hs); exists i; split; try exact Hi; apply (sim_some a b i H), Hs.
Qed.

Lemma sim_insert a b sites i e e' : sim_vault a b -> sim_entry e e' ->
  sim_vault (mk_vault sites (<[i := e]> (v_pw a))) (mk_vault sites (<[i := e']> (v_pw b))).
Proof.
  intros [_ H] He. split; [reflexivity|]. intros j. cbn. destruct (decide (i = j)) as [<-|Hn].
  - rewrite !lookup_insert. exact He.
  - rewrite !lookup_insert_ne by exact Hn. apply H.
Qed.
Lemma sim_delete a b sites i : sim_vault a b ->
  sim_vault (mk_vault sites (delete i (v_pw a))) (mk_vault sites (delete i (v_pw b))).
Proof.
  intros [_ H]. split; [reflexivity|]. intros j. cbn. destruct (decide (i = j)) as [<-|Hn].
  - rewrite !lookup_delete. exact I.
  - rewrite !lookup_delete_ne by exact Hn. apply H.
Qed.
Lemma sim_sites a b sites : sim_vault a b -> sim_vault (mk_vault sites (v_pw a)) (mk_vault sites (v_pw b)).
Proof. intros [_ H]. split; [reflexivity|exact H]. Qed.
Lemma sim_put a b i e e' : sim_vault a b -> sim_entry e e' -> sim_vault (put a i e) (put b i e').
Proof. intros H He. unfold put. rewrite (proj1 H). apply sim_insert; assumption. Qed.


Lemma sim_lookup a b i : sim_vault a b ->
  match v_pw a !! i, v_pw b !! i with Some e, Some e' => sim_entry e e' | None, None => True | _, _ => False end.
Proof. intros [_ H]. apply H. Qed.

Lemma sim_step P o o' w w' : similar o o' -> sim_world w w' ->
  sim_world (fst (vstep P Saved w o)) (fst (vstep P Saved w' o')).
Proof.
  intros Ho [Hm [Hop Hf]]. destruct w as [m op f], w' as [m' op' f']. cbn in Hm, Hop, Hf. subst op'.
  assert (sim_world (mk_world m op f) (mk_world m' op f')) as Hw by (repeat split; assumption).
  assert (forall p v v', sim_vault v v' ->
    sim_world (fst (commit Saved (mk_world m op f) p v)) (fst (commit Saved (mk_world m' op f') p v'))) as Hc.
  { intros p v v' Hv. repeat split; cbn; auto; apply Hv. }
  assert (forall (k k' : bytes -> vault -> world * out),
    (forall p v v', m = Some (p, v) -> m' = Some (p, v') -> sim_vault v v' -> sim_world (fst (k p v)) (fst (k' p v'))) ->
    sim_world (fst match op, m with true, Some (pp, v) => k pp v | _, _ => (mk_world m op f, OErr PasswordsLocked) end)
              (fst match op, m' with true, Some (pp, v) => k' pp v | _, _ => (mk_world m' op f', OErr PasswordsLocked) end)) as Hopened.
  { intros k k' H. destruct op; [|exact Hw]. destruct m as [[p v]|], m' as [[p' v']|]; try contradiction; [|exact Hw].
    destruct Hm as [<- Hv]. apply H; auto. }
  assert (forall x n r t t', same_size t t' ->
    sim_world (fst (vstep P Saved (mk_world m op f) (SetStored x n r t))) (fst (vstep P Saved (mk_world m' op f') (SetStored x n r t')))) as Hst.
  { intros x n r t t' Hz. apply Hopened. intros p v v' -> -> Hv. rewrite <- (sim_target _ _ x Hv). apply Hc, sim_put; [exact Hv|].
    split; [exact Hz|reflexivity]. }
  assert (forall x n r t t', same_size t t' ->
    sim_world (fst (vstep P Saved (mk_world m op f) (SetNotes x n r t))) (fst (vstep P Saved (mk_world m' op f') (SetNotes x n r t')))) as Hsn.
  { intros x n r t t' Hz. apply Hopened. intros p v v' -> -> Hv. rewrite <- (sim_target _ _ x Hv).
    pose proof (sim_lookup v v' (target v x, n, rev_of r) Hv) as He.
    destruct (v_pw v !! _) as [e|], (v_pw v' !! _) as [e'|]; try contradiction; [|exact Hw].
    rewrite <- (proj1 Hv). apply Hc, sim_insert; [exact Hv|]. split; [apply He|exact Hz]. }
  destruct Ho as [x n r t t' Hz|x n r t t' Hz|x n r t x' n' r' t'|o].
  - apply Hst, Hz.
  - apply Hsn, Hz.
  - cbn. destruct m as [[p v]|], m' as [[p' v']|]; try contradiction; [|exact Hw]. destruct op; exact Hw.
  - destruct o; try exact Hw.
    + repeat split; cbn; apply sim_empty.
    + cbn. destruct m as [[p v]|], m' as [[p' v']|]; try contradiction; [|exact Hw]. destruct Hm as [<- Hv].
      destruct (bytes_eqb pp p); [|exact Hw]. repeat split; cbn; auto; apply Hv.
    + repeat split; cbn; assumption.
    + repeat split; cbn; assumption.
    + apply Hopened. intros; exact Hw.
    + apply Hopened. intros p v v' -> -> Hv. rewrite <- (sim_has_passwords _ _ _ Hv), <- (sim_target _ _ a Hv), <- (proj1 Hv).
      destruct (has_passwords v (host s)); [exact Hw|]. destruct (bytes_eqb _ _); [exact Hw|]. apply Hc, sim_sites, Hv.
    + apply Hopened. intros p v v' -> -> Hv. rewrite <- (proj1 Hv). destruct (v_sites v !! host s) as [[a|]|]; try exact Hw. apply Hc, sim_sites, Hv.
    + destruct l as [|y l]; [exact Hw|]. apply Hopened. intros p v v' -> -> Hv. rewrite <- (proj1 Hv).
      destruct (drop_sites (v_sites v) (y :: l)) as [ms []].
      * apply Hc, sim_sites, Hv.
      * repeat split; cbn; auto. apply (proj2 (sim_sites v v' ms Hv)).
    + apply Hopened. intros p v v' -> -> Hv. rewrite <- (sim_target _ _ s Hv). apply Hc, sim_put; [exact Hv|].
      split; [apply sim_secret_refl|reflexivity].
    + apply Hst. reflexivity.
    + apply Hopened. intros; exact Hw.
    + apply Hopened. intros p v v' -> -> Hv. rewrite <- (sim_target _ _ s Hv).
      pose proof (sim_lookup v v' (target v s, n, rev_of r) Hv) as He.
      destruct (v_pw v !! _) as [e|], (v_pw v' !! _) as [e'|]; try contradiction; exact Hw.
    + apply Hopened. intros p v v' -> -> Hv. rewrite <- (sim_target _ _ s Hv).
      pose proof (sim_lookup v v' (target v s, n, rev_of r) Hv) as He.
      destruct (v_pw v !! _) as [e|], (v_pw v' !! _) as [e'|]; try contradiction; exact Hw.
    + apply Hsn. reflexivity.
    + apply Hopened. intros p v v' -> -> Hv. rewrite <- (sim_target _ _ s Hv).
      pose proof (sim_lookup v v' (target v s, n, rev_of r) Hv) as He.
      destruct (v_pw v !! _) as [e|], (v_pw v' !! _) as [e'|]; try contradiction; [|exact Hw].
      rewrite <- (proj1 Hv). apply Hc, sim_delete, Hv.
    + cbn. destruct op; [|exact Hw]. destruct m as [[p v]|], m' as [[p' v']|]; try contradiction; exact Hw.
    + cbn. destruct op; [|exact Hw]. destruct m as [[p v]|], m' as [[p' v']|]; try contradiction; exact Hw.
    + cbn. destruct m as [[p v]|], m' as [[p' v']|]; try contradiction; [|exact Hw]. destruct op; exact Hw.
    + apply Hopened. intros; exact Hw.
Qed.

Lemma sim_run P l l' : Forall2 similar l l' -> forall w w', sim_world w w' ->
  sim_world (fst (vrun P (repeat Saved (length l)) w l)) (fst (vrun P (repeat Saved (length l')) w' l')).
Proof.
  induction 1 as [|o o' l l' Ho _ IH]; intros w w' Hw; [exact Hw|]. cbn [repeat length vrun].
  pose proof (sim_step P o o' w w' Ho Hw) as H1. destruct (vstep P Saved w o) as [w1 r], (vstep P Saved w' o') as [w1' r'].
  specialize (IH w1 w1' H1). destruct (vrun P _ w1 l), (vrun P _ w1' l'). exact IH.
Qed.

(** Sizes. *)
Lemma total_keys {A} (m : gmap pid A) (f : pid -> A -> nat) (g : pid -> nat) :
  (forall i a, m !! i = Some a -> f i a = g i) ->
  total (map (fun '(i, a) => f i a) (map_to_list m)) = total (map g (map_to_list m).*1).
Proof.
  intros H. assert (forall i a, In (i, a) (map_to_list m) -> f i a = g i) as H'.
  { intros i a Hin. apply H. rewrite <- elem_of_list_In in Hin. apply elem_of_map_to_list in Hin. exact Hin. }
  revert H'. generalize (map_to_list m). clear H. intros l H. induction l as [|[i a] l IH]; [reflexivity|]. cbn.
  rewrite (H i a (or_introl eq_refl)), IH; [reflexivity|]. intros; apply H; right; assumption.
Qed.

Lemma same_keys {A : Type} (m m' : gmap pid A) : (forall i, is_Some (m !! i) <-> is_Some (m' !! i)) ->
  (map_to_list m).*1 ≡ₚ (map_to_list m').*1.
Proof.
  intros H. apply list.NoDup_Permutation; try apply NoDup_fst_map_to_list. intros i. rewrite !elem_of_list_fmap. split.
  - intros ([j a] & -> & Hin). apply elem_of_map_to_list in Hin. destruct (proj1 (H j) (mk_is_Some _ _ Hin)) as [b Hb].
    exists (j, b). split; [reflexivity|]. apply elem_of_map_to_list, Hb.
  - intros ([j a] & -> & Hin). apply elem_of_map_to_list in Hin. destruct (proj2 (H j) (mk_is_Some _ _ Hin)) as [b Hb].
    exists (j, b). split; [reflexivity|]. apply elem_of_map_to_list, Hb.
Qed.

Definition member_text (m : bool * bytes * json) : bytes := let '(_, k, v) := m in write_string k ++ ":"%byte :: write_json v.
Lemma obj_length ms ms' : Forall2 (fun a b => length (member_text a) = length (member_text b)) ms ms' ->
  length (write_json (JObj ms)) = length (write_json (JObj ms')).
Proof.
  intros H. change (write_json (JObj ?x)) with ("{"%byte :: join [","%byte] (map member_text x) ++ ["}"%byte]).
  cbn [length]. rewrite !app_length. do 2 f_equal.
  induction H as [|a b ms ms' Hab H IH]; [reflexivity|]. destruct H as [|c d ms ms' Hcd H]; [exact Hab|].
  cbn [map join] in *. rewrite !app_length, Hab, IH. reflexivity.
Qed.

Lemma escape_pos c : 1 <= length (escape_byte c).
Proof. unfold escape_byte. repeat match goal with |- context [if ?x then _ else _] => destruct x end; cbn; lia. Qed.

Lemma same_size_nil t t' : same_size t t' -> (t = [] <-> t' = []).
Proof.
  unfold same_size, string_to_vec. cbn [write_json]. unfold write_string. cbn [length]. rewrite !app_length. cbn [length].
  destruct t as [|c t], t' as [|c' t']; cbn [flat_map length]; rewrite ?app_length; intros H; split; intros E; try reflexivity; try discriminate E.
  - pose proof (escape_pos c'). lia.
  - pose proof (escape_pos c). lia.
Qed.

Lemma sim_notes_members a b : same_size a b ->
  Forall2 (fun a b => length (member_text a) = length (member_text b)) (notes_members a) (notes_members b).
Proof.
  intros H. pose proof (same_size_nil a b H) as Hn. unfold notes_members.
  destruct a as [|c a], b as [|c' b]; [constructor|destruct Hn as [Hn _]; discriminate (Hn eq_refl)
    |destruct Hn as [_ Hn]; discriminate (Hn eq_refl)|].
  constructor; [|constructor]. unfold member_text, member. rewrite !app_length. f_equal. cbn [length]. f_equal. exact H.
Qed.

Lemma Forall2_refl_len (ms : list (bool * bytes * json)) : Forall2 (fun a b => length (member_text a) = length (member_text b)) ms ms.
Proof. induction ms; constructor; auto. Qed.

Lemma sim_json i e e' : sim_entry e e' -> length (password_to_vec (entry_of i e)) = length (password_to_vec (entry_of i e')).
Proof.
  destruct e as [x nt], e' as [x' nt']. unfold sim_entry, entry_of. cbn [e_secret e_notes]. intros [Hx Hn].
  destruct x as [len cs|t], x' as [len' cs'|t']; try contradiction; cbn in Hx; unfold password_to_vec, password_json; cbv beta iota; cbn [gp_id gp_length gp_charset gp_notes sp_id sp_password sp_notes].
  - destruct Hx as [<- <-]. apply obj_length. constructor; [reflexivity|]. apply Forall2_app; [apply Forall2_refl_len|].
    constructor; [reflexivity|]. apply Forall2_app; [apply Forall2_refl_len|]. apply sim_notes_members, Hn.
  - apply obj_length. constructor; [reflexivity|]. apply Forall2_app; [apply Forall2_refl_len|].
    constructor; [|apply sim_notes_members, Hn]. unfold member_text, member. rewrite !app_length. f_equal. cbn [length]. f_equal. exact Hx.
Qed.

Lemma sim_size v v' : sim_vault v v' -> file_size v = file_size v'.
Proof.
  intros Hv. unfold file_size. rewrite (proj1 Hv). f_equal.
  set (g := fun i => match v_pw v !! i with Some e => member_size 94 (sealed_size (password_to_vec (entry_of i e))) | None => 0 end).
  rewrite (total_keys (v_pw v) (fun i e => member_size 94 (sealed_size (password_to_vec (entry_of i e)))) g).
  2:{ intros i e He. unfold g. rewrite He. reflexivity. }
  rewrite (total_keys (v_pw v') (fun i e => member_size 94 (sealed_size (password_to_vec (entry_of i e)))) g).
  2:{ intros i e He. unfold g. pose proof (sim_lookup v v' i Hv) as H. rewrite He in H. destruct (v_pw v !! i) as [e0|]; [|contradiction].
      unfold sealed_size. rewrite (sim_json i e0 e H). reflexivity. }
  apply total_perm, Permutation_map, same_keys. intros i. apply (sim_some v v' i Hv).
Qed.

Lemma similar_size P sc sc' l l' s s' : (forall n, p_write P n = WriteOk) ->
  sound P sc l s -> sound P sc' l' s' -> Forall2 similar l l' -> s_data (snd (run P l s)) <> ∅ ->
  length (flush_text P (snd (run P l s))) = length (flush_text P (snd (run P l' s'))).
Proof.
  intros Hw So So' Hl Hne. destruct (sound_rep P sc l s So) as (wrs & H1 & [M _] & _).
  destruct (sound_rep P sc' l' s' So') as (wrs' & H1' & [M' _] & _).
  rewrite (saved_writes P l Hw wrs s H1) in M. rewrite (saved_writes P l' Hw wrs' s' H1') in M'.
  pose proof (sim_run P l l' Hl nothing nothing) as Hs. destruct Hs as (Hm & _ & _); [repeat split|].
  unfold mem_rep in M, M'. destruct (w_mem (fst (vrun P (repeat Saved (length l)) nothing l))) as [[p v]|]; [|destruct Hne; apply M].
  destruct (w_mem (fst (vrun P (repeat Saved (length l')) nothing l'))) as [[p' v']|]; [|contradiction Hm].
  destruct Hm as [_ Hv]. destruct M as (i & R & _), M' as (i' & R' & _).
  rewrite (rep_size P sc l s So _ _ _ _ R), (rep_size P sc' l' s' So' _ _ _ _ R'), (sim_size v v' Hv). reflexivity.
Qed.
