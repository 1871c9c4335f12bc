(** It does not show how a vault came about (C79). *)
From stdpp Require Import gmap.
From Coq Require Import ZArith ZifyBool ZifyNat ZifyN.
From Verif Require Import M_Base M_Base64 M_Utf8 M_Prims M_Types M_Crypto M_Recovery M_Json M_Serde M_Storage M_Passwords M_History.
From Verif Require Import S_Json S_Serde S_Vault S_Api S_History S_Watch S_Rewrite S_Order P_Base P_Base64 P_Crypto P_Json P_Serde P_Utf8 P_File P_Storage P_Vault P_Api P_History P_Calls P_Sound P_Similar P_Props P_Size P_Watch P_Rewrite.

Lemma same_entries_eq v v' : same_entries v v' -> v = v'.
Proof. destruct v as [a b], v' as [a' b']. intros [H1 H2]. cbn in *. apply map_eq in H1. apply map_eq in H2. congruence. Qed.
Lemma same_saved_eq a b : same_saved a b -> a = b.
Proof.
  intros [H1 H2]. destruct a as [[p v]|], b as [[q w]|]; try discriminate H1; [|reflexivity]. cbn in H1. injection H1 as <-.
  apply same_entries_eq in H2. congruence.
Qed.
Lemma same_state_eq w w' : same_state w w' -> w = w'.
Proof. destruct w, w'. intros (H1 & H2 & H3). cbn in *. apply same_saved_eq in H1. apply same_saved_eq in H3. congruence. Qed.
Lemma same_state_refl w : same_state w w.
Proof. split; [|split; [reflexivity|]]; (split; [reflexivity|]); destruct w as [[[p v]|] o [[q u]|]]; cbn; try exact I; split; reflexivity. Qed.

(** * The file *)

Definition plain : renaming := mk_renaming (fun x => x) (fun x => x) (fun x => x).
Lemma plain_fair : fair plain.
Proof. split; cbn; auto; intros; split; reflexivity. Qed.
Lemma rid_plain i : rid plain i = i.
Proof. destruct i as [[x n] r]. reflexivity. Qed.
Lemma plain_like v : like_vault plain v v.
Proof.
  split.
  - intros x. cbn. destruct (v_sites v !! x) as [[y|]|]; reflexivity.
  - intros y _. exists y. reflexivity.
  - intros i. rewrite rid_plain. unfold both. destruct (v_pw v !! i) as [[[n c|t] no]|]; repeat split.
  - intros j _. exists j. symmetry. apply rid_plain.
Qed.

Lemma history_hidden P P' sc sc' l l' s0 s0' : (forall n, p_write P n = WriteOk) -> (forall n, p_write P' n = WriteOk) ->
  sound P sc l s0 -> sound P' sc' l' s0' -> same_contents (w_file (world_after P l)) (w_file (world_after P' l')) ->
  exists b, pairing b /\ look_alike b (load P (s_disk (snd (run P l s0)))) (load P' (s_disk (snd (run P' l' s0')))).
Proof.
  intros Hw Hw' So So' HS.
  destruct (prefix_srep P sc l [] s0 Hw) with (m := l) (r := @nil op) as [_ F]; [rewrite app_nil_r; exact So|reflexivity|].
  destruct (prefix_srep P' sc' l' [] s0' Hw') with (m := l') (r := @nil op) as [_ F']; [rewrite app_nil_r; exact So'|reflexivity|].
  unfold file_rep in F, F'. rewrite app_nil_r in F, F'.
  unfold same_contents in HS. destruct (w_file (world_after P l)) as [[p v]|], (w_file (world_after P' l')) as [[p' v']|]; try contradiction.
  - destruct F as (i & d & Hd & R), F' as (i' & d' & Hd' & R'). apply same_entries_eq in HS. subst v'.
    exists (paired plain P P' sc sc' i i'). split.
    + eapply (paired_pairing plain plain_fair P P' (so_prims _ _ _ _ So) (so_prims _ _ _ _ So') sc sc').
      * apply (so_sites _ _ _ _ So).
      * apply (so_ids _ _ _ _ So).
      * apply (so_sites _ _ _ _ So').
      * apply (so_ids _ _ _ _ So').
      * apply (so_assumptions _ _ _ _ So).
      * apply (so_assumptions _ _ _ _ So').
      * apply (dr_bound _ _ _ _ _ _ _ _ _ R).
      * apply (dr_bound _ _ _ _ _ _ _ _ _ R').
    + rewrite Hd, Hd'. cbn [look_alike].
      eapply (rep_matched plain plain_fair P P' (so_prims _ _ _ _ So) (so_prims _ _ _ _ So') sc sc'); [reflexivity|reflexivity|exact R|exact R'|apply plain_like].
  - exists only_fixed. split; [apply only_fixed_pairing|].
    destruct (load P _); [discriminate F| |]; (destruct (load P' _); [discriminate F'| |]; exact I).
Qed.

(** * Later calls *)

Lemma later_run P sc l m s0 : (forall n, p_write P n = WriteOk) -> sound P sc (l ++ m) s0 ->
  Forall2 (agrees P) (fst (run P m (snd (run P l s0)))) (snd (vrun P (repeat Saved (length m)) (world_after P l) m)).
Proof.
  intros Hw So. pose proof (prefix_srep P sc l m s0 Hw So l m eq_refl) as R.
  destruct (run_rep P (so_prims _ _ _ _ So) _ _ _ (s_rand (snd (run P (l ++ m) s0))) (so_sites _ _ _ _ So) (so_ids _ _ _ _ So) (so_assumptions _ _ _ _ So)
    m (snd (run P l s0)) (world_after P l) R) as (wrs & H1 & _ & H2).
  - pose proof (so_covered _ _ _ _ So) as Hc. apply List.Forall_app in Hc. destruct Hc as [_ Hc]. eapply List.Forall_impl; [apply covered_scope|exact Hc].
  - pose proof (so_calm _ _ _ _ So) as Hc. clear -Hc. revert s0 Hc. induction l as [|o l IH]; intros s0 Hc; [exact Hc|].
    cbn [app calm_run] in Hc. destruct Hc as [_ Hc]. apply IH in Hc. cbn [run]. destruct (exec P o s0) as [r s1]. cbn [snd] in Hc. destruct (run P l s1). exact Hc.
  - rewrite (run_app P l m). apply le_n.
  - rewrite (saved_writes P _ Hw wrs _ H1) in H2. exact H2.
Qed.

Lemma answers_same P (l l' r : list out) : Forall2 (agrees P) l r -> Forall2 (agrees P) l' r -> Forall2 (same_answer P) l l'.
Proof.
  intros H. revert l'. induction H as [|a x l r Ha _ IH]; intros l' H'; [inversion H'; constructor|].
  inversion H' as [|b y l2 r2 Hb Hr]; subst. constructor; [exists x; auto|apply IH, Hr].
Qed.

Lemma later_same P sc sc' l l' m s0 s0' : (forall n, p_write P n = WriteOk) -> sound P sc (l ++ m) s0 -> sound P sc' (l' ++ m) s0' ->
  same_state (world_after P l) (world_after P l') ->
  Forall2 (same_answer P) (fst (run P m (snd (run P l s0)))) (fst (run P m (snd (run P l' s0')))).
Proof.
  intros Hw So So' HS. apply same_state_eq in HS. eapply answers_same; [apply (later_run P sc l m s0 Hw So)|].
  rewrite HS. apply (later_run P sc' l' m s0' Hw So').
Qed.

(** * Two calls in either order *)

Inductive site_change : Type := SAdd (x : bytes) | SPut (x y : bytes) | SDel (x : bytes) | SNone.
Inductive pw_change : Type := PPut (i : pid) (e : entry) | PDel (i : pid) | PNone.
Definition on_sites (c : site_change) (m : gmap bytes (option bytes)) : gmap bytes (option bytes) :=
  match c with
  | SAdd x => match m !! x with Some _ => m | None => <[x := None]> m end
  | SPut x y => <[x := Some y]> m
  | SDel x => delete x m
  | SNone => m
  end.
Definition on_pws (c : pw_change) (m : gmap pid entry) : gmap pid entry :=
  match c with PPut i e => <[i := e]> m | PDel i => delete i m | PNone => m end.
Definition change : Type := site_change * pw_change.
Definition changed (c : change) (v : vault) : vault := mk_vault (on_sites c.1 (v_sites v)) (on_pws c.2 (v_pw v)).

Definition plan (v : vault) (o : op) : res change :=
  match o with
  | SetGenerated s n r len cs => Ok (SAdd (target v s), PPut (target v s, n, rev_of r) (mk_entry (SGenerated len cs) []))
  | SetStored s n r t => Ok (SAdd (target v s), PPut (target v s, n, rev_of r) (mk_entry (SFixed t) []))
  | SetNotes s n r t => match v_pw v !! (target v s, n, rev_of r) with
      | Some e => Ok (SNone, PPut (target v s, n, rev_of r) (mk_entry (e_secret e) t)) | None => Err KeyMissing end
  | Remove s n r => match v_pw v !! (target v s, n, rev_of r) with Some e => Ok (SNone, PDel (target v s, n, rev_of r)) | None => Err KeyMissing end
  | SetAlias s a => if has_passwords v (host s) then Err SiteHasPasswords else if bytes_eqb (host s) (target v a) then Err AliasToSelf
      else Ok (SPut (host s) (target v a), PNone)
  | RemoveAlias s => match v_sites v !! host s with Some (Some _) => Ok (SDel (host s), PNone) | _ => Err NoSuchAlias end
  | _ => Panic
  end.

Lemma vault_eta v : mk_vault (v_sites v) (v_pw v) = v.
Proof. destruct v. reflexivity. Qed.

Lemma step_plan P pp v o fl : writing o ->
  vstep P Saved (mk_world (Some (pp, v)) true fl) o =
  match plan v o with
  | Ok c => (mk_world (Some (pp, changed c v)) true (Some (pp, changed c v)), ODone)
  | Err e => (mk_world (Some (pp, v)) true fl, OErr e)
  | Panic => (mk_world (Some (pp, v)) true fl, OPanic)
  end.
Proof.
  intros H. assert (forall i e, put v i e = changed (SAdd (pid_site i), PPut i e) v) as Hput.
  { intros i e. unfold put, changed. cbn. destruct (v_sites v !! pid_site i); reflexivity. }
  destruct o; try contradiction H; cbn [vstep w_open w_mem w_file plan].
  - destruct (has_passwords v (host s)); [reflexivity|]. destruct (bytes_eqb _ _); reflexivity.
  - destruct (v_sites v !! host s) as [[y|]|]; reflexivity.
  - rewrite Hput. reflexivity.
  - rewrite Hput. reflexivity.
  - destruct (v_pw v !! _); reflexivity.
  - destruct (v_pw v !! _); reflexivity.
Qed.

Definition moved (c : site_change) (x : bytes) : Prop := match c with SPut y _ | SDel y => x = y | _ => False end.
Definition touched (c : pw_change) (i : pid) : Prop := match c with PPut j _ | PDel j => i = j | PNone => False end.

Lemma target_changed c v s : ~ moved c.1 (host s) -> target (changed c v) s = target v s.
Proof.
  intros H. unfold target, changed. cbn [v_sites]. destruct c as [[x|x y|x|] p]; cbn [fst on_sites moved] in *.
  - destruct (v_sites v !! x) as [o|] eqn:E; [reflexivity|]. destruct (decide (x = host s)) as [->|Hne].
    + rewrite lookup_insert, E. reflexivity.
    + rewrite lookup_insert_ne by exact Hne. reflexivity.
  - rewrite lookup_insert_ne by congruence. reflexivity.
  - rewrite lookup_delete_ne by congruence. reflexivity.
  - reflexivity.
Qed.
Lemma pw_changed c v i : ~ touched c.2 i -> v_pw (changed c v) !! i = v_pw v !! i.
Proof.
  intros H. unfold changed. cbn [v_pw]. destruct c as [s [j e|j|]]; cbn [snd on_pws touched] in *; [| |reflexivity].
  - apply lookup_insert_ne. congruence.
  - apply lookup_delete_ne. congruence.
Qed.
Lemma passwords_changed c v x : (forall i, touched c.2 i -> pid_site i <> x) -> has_passwords (changed c v) x = has_passwords v x.
Proof.
  intros H. apply Bool.eq_true_iff_eq. rewrite !has_passwords_iff. split; intros (i & Hi & Hs); exists i; (split; [exact Hi|]).
  - rewrite pw_changed in Hs; [exact Hs|]. intros Ht. exact (H i Ht Hi).
  - rewrite pw_changed; [exact Hs|]. intros Ht. exact (H i Ht Hi).
Qed.
Lemma alias_changed c v x : ~ moved c.1 x -> (c.1 = SAdd x -> False) -> v_sites (changed c v) !! x = v_sites v !! x.
Proof.
  intros H H'. unfold changed. cbn [v_sites]. destruct c as [[y|y z|y|] p]; cbn [fst on_sites moved] in *.
  - destruct (v_sites v !! y); [reflexivity|]. apply lookup_insert_ne. intros ->. apply H'. reflexivity.
  - apply lookup_insert_ne. congruence.
  - apply lookup_delete_ne. congruence.
  - reflexivity.
Qed.

Lemma plan_moved v o c x : plan v o = Ok c -> moved c.1 x -> redirects o x.
Proof.
  destruct o; cbn [plan]; intros H; try discriminate H.
  - destruct (has_passwords _ _); [discriminate H|]. destruct (bytes_eqb _ _); [discriminate H|]. injection H as <-. cbn. auto.
  - destruct (v_sites v !! host s) as [[y|]|]; try discriminate H. injection H as <-. cbn. auto.
  - injection H as <-. cbn. tauto.
  - injection H as <-. cbn. tauto.
  - destruct (v_pw v !! _); [|discriminate H]. injection H as <-. cbn. tauto.
  - destruct (v_pw v !! _); [|discriminate H]. injection H as <-. cbn. tauto.
Qed.
Lemma plan_added v o c x : plan v o = Ok c -> c.1 = SAdd x -> adds v o x.
Proof.
  destruct o; cbn [plan]; intros H; try discriminate H.
  - destruct (has_passwords _ _); [discriminate H|]. destruct (bytes_eqb _ _); [discriminate H|]. injection H as <-. discriminate.
  - destruct (v_sites v !! host s) as [[y|]|]; try discriminate H. injection H as <-. discriminate.
  - injection H as <-. cbn. congruence.
  - injection H as <-. cbn. congruence.
  - destruct (v_pw v !! _); [|discriminate H]. injection H as <-. discriminate.
  - destruct (v_pw v !! _); [|discriminate H]. injection H as <-. discriminate.
Qed.
Lemma plan_touched v o c i : plan v o = Ok c -> touched c.2 i -> edits v o i.
Proof.
  destruct o; cbn [plan]; intros H; try discriminate H.
  - destruct (has_passwords _ _); [discriminate H|]. destruct (bytes_eqb _ _); [discriminate H|]. injection H as <-. cbn. tauto.
  - destruct (v_sites v !! host s) as [[y|]|]; try discriminate H. injection H as <-. cbn. tauto.
  - injection H as <-. cbn. auto.
  - injection H as <-. cbn. auto.
  - destruct (v_pw v !! _); [|discriminate H]. injection H as <-. cbn. auto.
  - destruct (v_pw v !! _); [|discriminate H]. injection H as <-. cbn. auto.
Qed.

(** The second call plans the same after the first one. *)
Lemma plan_after v a b c : apart v a b -> apart v b a -> plan v a = Ok c -> plan (changed c v) b = plan v b.
Proof.
  intros [A1 A2] [B1 B2] Hc.
  assert (forall s, follows b (host s) -> target (changed c v) s = target v s) as Ht.
  { intros s Hs. apply target_changed. intros Hm. apply (plan_moved v a c _ Hc) in Hm. destruct (A1 _ Hm) as (H & _). exact (H Hs). }
  assert (forall i, edits v b i -> v_pw (changed c v) !! i = v_pw v !! i) as Hp.
  { intros i Hi. apply pw_changed. intros Hm. apply (plan_touched v a c _ Hc) in Hm. destruct (A2 _ Hm) as (H & _). exact (H Hi). }
  destruct b; cbn [plan]; try reflexivity.
  - rewrite (Ht a0) by reflexivity. rewrite passwords_changed; [reflexivity|]. intros i Hi E. apply (plan_touched v a c _ Hc) in Hi.
    destruct (A2 _ Hi) as (_ & H). apply H. eauto.
  - rewrite alias_changed; [reflexivity| |].
    + intros Hm. apply (plan_moved v a c _ Hc) in Hm. destruct (A1 _ Hm) as (_ & H & _). apply H. reflexivity.
    + intros E. apply (plan_added v a c _ Hc) in E. destruct (B1 (host s) eq_refl) as (_ & _ & H). exact (H E).
  - rewrite (Ht s) by reflexivity. reflexivity.
  - rewrite (Ht s) by reflexivity. reflexivity.
  - rewrite (Ht s) by reflexivity. rewrite Hp by reflexivity. reflexivity.
  - rewrite (Ht s) by reflexivity. rewrite Hp by reflexivity. reflexivity.
Qed.

Lemma changes_commute v a b c d : apart v a b -> apart v b a -> plan v a = Ok c -> plan v b = Ok d -> changed c (changed d v) = changed d (changed c v).
Proof.
  intros [A1 A2] [B1 B2] Hc Hd. unfold changed. cbn [v_sites v_pw]. f_equal.
  - pose proof (plan_moved v a c) as Mc. pose proof (plan_moved v b d) as Md. pose proof (plan_added v a c) as Ac. pose proof (plan_added v b d) as Ad.
    assert (forall x, moved c.1 x -> ~ moved d.1 x) as M1.
    { intros x H1 H2. destruct (A1 x (Mc x Hc H1)) as (_ & H & _). exact (H (Md x Hd H2)). }
    assert (forall x, moved c.1 x -> d.1 <> SAdd x) as M2.
    { intros x H1 H2. destruct (A1 x (Mc x Hc H1)) as (_ & _ & H). exact (H (Ad x Hd H2)). }
    assert (forall x, moved d.1 x -> c.1 <> SAdd x) as M3.
    { intros x H1 H2. destruct (B1 x (Md x Hd H1)) as (_ & _ & H). exact (H (Ac x Hc H2)). }
    clear -M1 M2 M3. destruct c as [c pc], d as [d pd]. cbn [fst] in *.
    destruct c as [x|x y|x|], d as [x'|x' y'|x'|]; cbn [on_sites moved] in *;
      try (specialize (M1 x eq_refl)); try (specialize (M2 x eq_refl)); try (specialize (M3 x' eq_refl)); try reflexivity.
    + destruct (decide (x = x')) as [->|Hne]; [reflexivity|].
      destruct (v_sites v !! x) as [o|] eqn:E1, (v_sites v !! x') as [o'|] eqn:E2; rewrite ?lookup_insert_ne, ?E1, ?E2 by congruence; try reflexivity.
      rewrite insert_commute by congruence. reflexivity.
    + assert (x <> x') by congruence. rewrite lookup_insert_ne by congruence. destruct (v_sites v !! x); [reflexivity|]. rewrite insert_commute by congruence. reflexivity.
    + assert (x <> x') by congruence. rewrite lookup_delete_ne by congruence. destruct (v_sites v !! x); [reflexivity|]. rewrite delete_insert_ne by congruence. reflexivity.
    + assert (x <> x') by congruence. rewrite lookup_insert_ne by congruence. destruct (v_sites v !! x'); [reflexivity|]. rewrite insert_commute by congruence. reflexivity.
    + rewrite insert_commute by congruence. reflexivity.
    + rewrite delete_insert_ne by congruence. reflexivity.
    + assert (x <> x') by congruence. rewrite lookup_delete_ne by congruence. destruct (v_sites v !! x'); [reflexivity|]. rewrite delete_insert_ne by congruence. reflexivity.
    + rewrite delete_insert_ne by congruence. reflexivity.
    + rewrite delete_commute. reflexivity.
  - assert (forall i, touched c.2 i -> ~ touched d.2 i) as M.
    { intros i H1 H2. destruct (A2 i (plan_touched v a c i Hc H1)) as (H & _). exact (H (plan_touched v b d i Hd H2)). }
    clear -M. destruct c as [sc c], d as [sd d]. cbn [snd] in *. destruct c as [i e|i|], d as [j e'|j|]; cbn [on_pws touched] in *; try (specialize (M i eq_refl)); try reflexivity.
    + apply insert_commute. congruence.
    + symmetry. apply delete_insert_ne. congruence.
    + apply delete_insert_ne. congruence.
    + apply delete_commute.
Qed.

Lemma either_order P pp v fl a b : independent v a b ->
  let w := mk_world (Some (pp, v)) true fl in
  let (wa, ra) := vstep P Saved w a in let (wab, rab) := vstep P Saved wa b in
  let (wb, rb) := vstep P Saved w b in let (wba, rba) := vstep P Saved wb a in
  wab = wba /\ ra = rba /\ rab = rb.
Proof.
  intros (Wa & Wb & A & B). cbv zeta. rewrite !step_plan by assumption.
  destruct (plan v a) as [c|e|] eqn:Ha, (plan v b) as [d|e'|] eqn:Hb; rewrite !step_plan by assumption; rewrite ?Ha, ?Hb;
    try (rewrite (plan_after v a b c A B Ha), Hb); try (rewrite (plan_after v b a d B A Hb), Ha); try (repeat split; reflexivity).
  rewrite (changes_commute v b a d c B A Hb Ha). repeat split; reflexivity.
Qed.

Lemma order_hidden P sc sc' l a b m s0 pp v : (forall n, p_write P n = WriteOk) ->
  sound P sc (l ++ a :: b :: m) s0 -> sound P sc' (l ++ b :: a :: m) s0 ->
  w_open (world_after P l) = true -> w_mem (world_after P l) = Some (pp, v) -> independent v a b ->
  exists ra rb ra' rb' rs rs',
    fst (run P (a :: b :: m) (snd (run P l s0))) = ra :: rb :: rs /\ fst (run P (b :: a :: m) (snd (run P l s0))) = rb' :: ra' :: rs' /\
    same_answer P ra ra' /\ same_answer P rb rb' /\ Forall2 (same_answer P) rs rs' /\
    same_state (world_after P (l ++ a :: b :: m)) (world_after P (l ++ b :: a :: m)).
Proof.
  intros Hw So So' Ho Hm Hi. pose proof (later_run P sc l _ s0 Hw So) as L. pose proof (later_run P sc' l _ s0 Hw So') as L'.
  assert (same_state (world_after P (l ++ a :: b :: m)) (world_after P (l ++ b :: a :: m)) /\
    exists x y z, snd (vrun P (repeat Saved (length (a :: b :: m))) (world_after P l) (a :: b :: m)) = x :: y :: z /\
      snd (vrun P (repeat Saved (length (b :: a :: m))) (world_after P l) (b :: a :: m)) = y :: x :: z) as [HS (x & y & z & E & E')].
  { unfold world_after at 1 2. rewrite !vrun_app. fold (world_after P l). destruct (world_after P l) as [me op fl]. cbn [w_open w_mem] in Ho, Hm. subst me op.
    pose proof (either_order P pp v fl a b Hi) as H. cbv zeta in H. cbn [length repeat vrun].
    destruct (vstep P Saved (mk_world (Some (pp, v)) true fl) a) as [wa ra]. destruct (vstep P Saved wa b) as [wab rab].
    destruct (vstep P Saved (mk_world (Some (pp, v)) true fl) b) as [wb rb]. destruct (vstep P Saved wb a) as [wba rba].
    destruct H as (-> & -> & ->). destruct (vrun P (repeat Saved (length m)) wba m) as [w2 rs]. cbn [fst snd]. split; [apply same_state_refl|]. eauto 10. }
  rewrite E in L. rewrite E' in L'. clear E E'. revert L L'. generalize (fst (run P (a :: b :: m) (snd (run P l s0)))) (fst (run P (b :: a :: m) (snd (run P l s0)))).
  intros q q' L L'.
  inversion L as [|ra ? l1 ? X1 L1 Y1 Z1]; subst. inversion L1 as [|rb ? rs ? X2 L2 Y2 Z2]; subst.
  inversion L' as [|rb' ? l1' ? X1' L1' Y1' Z1']; subst. inversion L1' as [|ra' ? rs' ? X2' L2' Y2' Z2']; subst.
  exists ra, rb, ra', rb', rs, rs'. split; [reflexivity|]. split; [reflexivity|].
  split; [exists x; auto|]. split; [exists y; auto|]. split; [eapply answers_same; eassumption|exact HS].
Qed.

(** * Changes taken back *)

Lemma changed_target s n r e v : target (changed (SAdd (target v s), PPut (target v s, n, rev_of r) e) v) s = target v s.
Proof. apply target_changed. cbn. tauto. Qed.

Lemma taken_back P l pp v s n r t a : w_open (world_after P l) = true -> w_mem (world_after P l) = Some (pp, v) -> same_saved (w_file (world_after P l)) (w_mem (world_after P l)) ->
  let i := (target v s, n, rev_of r) in
  (is_Some (v_sites v !! target v s) -> v_pw v !! i = None -> same_state (world_after P (l ++ [SetStored s n r t; Remove s n r])) (world_after P l)) /\
  (forall t', same_state (world_after P (l ++ [SetStored s n r t; SetStored s n r t'])) (world_after P (l ++ [SetStored s n r t']))) /\
  (v_sites v !! host s = None -> has_passwords v (host s) = false -> host s <> target v a ->
     same_state (world_after P (l ++ [SetAlias s a; RemoveAlias s])) (world_after P l)).
Proof.
  intros Ho Hm Hf i. apply same_saved_eq in Hf.
  assert (forall m, world_after P (l ++ m) = fst (vrun P (repeat Saved (length m)) (world_after P l) m)) as Happ by (intros m; apply vrun_app).
  destruct (world_after P l) as [me op fl]. cbn [w_open w_mem w_file] in *. subst me op fl. split; [|split].
  - intros Hs Hi. rewrite Happ. cbn [length repeat vrun]. rewrite step_plan by exact I. cbn [plan]. rewrite step_plan by exact I. cbn [plan]. rewrite changed_target. change (target v s, n, rev_of r) with i.
    assert (v_pw (changed (SAdd (target v s), PPut i (mk_entry (SFixed t) [])) v) !! i = Some (mk_entry (SFixed t) [])) as -> by apply lookup_insert.
    cbn [fst]. assert (changed (SNone, PDel i) (changed (SAdd (target v s), PPut i (mk_entry (SFixed t) [])) v) = v) as ->; [|apply same_state_refl].
    unfold changed. cbn [fst snd on_sites on_pws v_sites v_pw]. destruct Hs as [o Hs]. rewrite Hs, delete_insert by exact Hi. apply vault_eta.
  - intros t'. rewrite !Happ. cbn [length repeat vrun]. rewrite !step_plan by exact I. cbn [plan]. rewrite step_plan by exact I. cbn [plan]. rewrite changed_target. change (target v s, n, rev_of r) with i. cbn [fst].
    assert (changed (SAdd (target v s), PPut i (mk_entry (SFixed t') [])) (changed (SAdd (target v s), PPut i (mk_entry (SFixed t) [])) v) =
      changed (SAdd (target v s), PPut i (mk_entry (SFixed t') [])) v) as ->; [|apply same_state_refl].
    unfold changed. cbn [fst snd on_sites on_pws v_sites v_pw]. rewrite insert_insert. f_equal.
    destruct (v_sites v !! target v s) as [o|] eqn:E; [rewrite E; reflexivity|]. rewrite lookup_insert. reflexivity.
  - intros Hs Hp Hne. rewrite Happ. cbn [length repeat vrun]. rewrite step_plan by exact I. cbn [plan]. rewrite Hp. destruct (bytes_eqb (host s) (target v a)) eqn:Eq; [apply bytes_eqb_eq in Eq; contradiction|].
    rewrite step_plan by exact I. cbn [plan].
    assert (v_sites (changed (SPut (host s) (target v a), PNone) v) !! host s = Some (Some (target v a))) as -> by apply lookup_insert. cbn [fst].
    assert (changed (SDel (host s), PNone) (changed (SPut (host s) (target v a), PNone) v) = v) as ->; [|apply same_state_refl].
    unfold changed. cbn [fst snd on_sites on_pws v_sites v_pw]. rewrite delete_insert by exact Hs. apply vault_eta.
Qed.
