(** Which vaults can come about (C81). *)
From stdpp Require Import gmap.
From Coq Require Import ZArith ZifyBool ZifyNat ZifyN.
From Verif Require Import M_Base M_Utf8 M_Prims M_Types M_Crypto M_Recovery M_Storage M_Passwords M_History.
From Verif Require Import S_Vault S_Api S_History S_Rewrite S_Order S_Possible P_Base P_Utf8 P_Storage P_History P_Calls P_Sound P_Watch P_Order P_Permute.

(** * What stays true *)

Lemma possible_empty : possible empty_vault.
Proof. constructor; cbn [empty_vault v_sites v_pw]; intros *; rewrite lookup_empty; discriminate. Qed.

Lemma rev_of_not_1 r : rev_of r <> bs "1".
Proof. unfold rev_of. destruct (bytes_eqb r (bs "1")) eqn:E; [discriminate|]. apply bytes_eqb_neq in E. exact E. Qed.
Lemma utf8_rev_of r : utf8 r = true -> utf8 (rev_of r) = true.
Proof. unfold rev_of. destruct (bytes_eqb r (bs "1")); [reflexivity|auto]. Qed.
Lemma utf8_target v s : possible v -> utf8 s = true -> utf8 (target v s) = true.
Proof.
  intros Hv Hs. unfold target. destruct (v_sites v !! host s) as [[y|]|] eqn:E; [|apply utf8_host, Hs|apply utf8_host, Hs].
  exact (proj2 (po_site v Hv _ _ E)).
Qed.

Definition change_ok (c : change) : Prop :=
  match c.1 with SAdd x => utf8 x = true | SPut x y => utf8 x = true /\ utf8 y = true /\ x <> y | _ => True end /\
  match c.2 with
  | PPut (s, n, r) e => utf8 s = true /\ utf8 n = true /\ utf8 r = true /\ r <> bs "1" /\ utf8 (e_notes e) = true /\
      match e_secret e with SGenerated len _ => (len <= 18446744073709551615)%N | SFixed t => utf8 t = true end
  | _ => True
  end.
Lemma possible_changed v c : possible v -> change_ok c -> possible (changed c v).
Proof.
  intros Hv [H1 H2]. destruct c as [c1 c2]. cbn [fst snd] in *. constructor; unfold changed; cbn [v_sites v_pw fst snd].
  - intros x y. destruct c1 as [z|z z'|z|]; cbn [on_sites].
    + destruct (v_sites v !! z) eqn:E; [apply (po_self v Hv)|]. intros H. apply lookup_insert_Some in H. destruct H as [[_ H]|[_ H]]; [discriminate H|exact (po_self v Hv _ _ H)].
    + intros H. apply lookup_insert_Some in H. destruct H as [[<- H]|[_ H]]; [injection H as <-; tauto|exact (po_self v Hv _ _ H)].
    + intros H. apply lookup_delete_Some in H. exact (po_self v Hv _ _ (proj2 H)).
    + apply (po_self v Hv).
  - intros x a. destruct c1 as [z|z z'|z|]; cbn [on_sites].
    + destruct (v_sites v !! z) eqn:E; [apply (po_site v Hv)|]. intros H. apply lookup_insert_Some in H. destruct H as [[<- <-]|[_ H]]; [auto|exact (po_site v Hv _ _ H)].
    + intros H. apply lookup_insert_Some in H. destruct H as [[<- <-]|[_ H]]; [tauto|exact (po_site v Hv _ _ H)].
    + intros H. apply lookup_delete_Some in H. exact (po_site v Hv _ _ (proj2 H)).
    + apply (po_site v Hv).
  - intros s n r e. destruct c2 as [[[s' n'] r'] e'|i|]; cbn [on_pws].
    + intros H. apply lookup_insert_Some in H. destruct H as [[E <-]|[_ H]]; [injection E as <- <- <-; tauto|exact (po_id v Hv _ _ _ _ H)].
    + intros H. apply lookup_delete_Some in H. exact (po_id v Hv _ _ _ _ (proj2 H)).
    + apply (po_id v Hv).
  - intros i e. destruct c2 as [[[s' n'] r'] e'|j|]; cbn [on_pws].
    + intros H. apply lookup_insert_Some in H. destruct H as [[E <-]|[_ H]]; [tauto|exact (po_entry v Hv _ _ H)].
    + intros H. apply lookup_delete_Some in H. exact (po_entry v Hv _ _ (proj2 H)).
    + apply (po_entry v Hv).
Qed.
Lemma plan_ok v o c : possible v -> op_valid o -> plan v o = Ok c -> change_ok c.
Proof.
  intros Hv Ho. destruct o; cbn [plan op_valid] in *; intros H; try discriminate H.
  - destruct (has_passwords _ _); [discriminate H|]. destruct (bytes_eqb _ _) eqn:E; [discriminate H|]. injection H as <-. apply bytes_eqb_neq in E.
    split; [|exact I]. cbn. destruct Ho. split; [apply utf8_host; assumption|]. split; [apply utf8_target; assumption|exact E].
  - destruct (v_sites v !! host s) as [[y|]|]; try discriminate H. injection H as <-. split; exact I.
  - injection H as <-. destruct Ho as (H1 & H2 & H3 & H4). split; cbn; [apply utf8_target; assumption|].
    repeat split; auto using utf8_target, utf8_rev_of, rev_of_not_1.
  - injection H as <-. destruct Ho as (H1 & H2 & H3 & H4). split; cbn; [apply utf8_target; assumption|].
    repeat split; auto using utf8_target, utf8_rev_of, rev_of_not_1.
  - destruct (v_pw v !! _) eqn:E; [|discriminate H]. injection H as <-. destruct Ho as (H1 & H2 & H3 & H4). split; [exact I|]. cbn.
    repeat split; auto using utf8_target, utf8_rev_of, rev_of_not_1. exact (proj2 (po_entry v Hv _ _ E)).
  - destruct (v_pw v !! _) eqn:E; [|discriminate H]. injection H as <-. split; exact I.
Qed.
Lemma possible_dropped l : forall v, possible v -> possible (mk_vault (fst (drop_sites (v_sites v) l)) (v_pw v)).
Proof.
  induction l as [|s l IH]; intros v Hv; [destruct v; exact Hv|]. cbn [drop_sites]. destruct (v_sites v !! s) eqn:E; [|destruct v; exact Hv].
  exact (IH _ (possible_changed v (SDel s, PNone) Hv (conj I I))).
Qed.

Definition all_possible (w : world) : Prop :=
  (forall pp v, w_mem w = Some (pp, v) -> possible v) /\ (forall pp v, w_file w = Some (pp, v) -> possible v).
Lemma commit_possible wr w pp v : all_possible w -> possible v -> all_possible (fst (commit wr w pp v)).
Proof. intros [H1 H2] Hv. destruct wr; split; cbn; intros pp' v' E; try (injection E as <- <-; exact Hv); try discriminate E; eauto. Qed.

(** A change, whether it can be saved or not. *)
Lemma step_plan_any P wr pp v o fl : writing o ->
  vstep P wr (mk_world (Some (pp, v)) true fl) o =
  match plan v o with
  | Ok c => commit wr (mk_world (Some (pp, v)) true fl) pp (changed c v)
  | Err e => (mk_world (Some (pp, v)) true fl, OErr e)
  | Panic => (mk_world (Some (pp, v)) true fl, OPanic)
  end.
Proof.
  intros H. assert (forall i e, put v i e = changed (SAdd (pid_site i), PPut i e) v) as Hput.
  { intros i e. unfold put, changed. cbn. destruct (v_sites v !! pid_site i); reflexivity. }
  destruct o; try contradiction H; cbn [vstep w_open w_mem w_file plan].
  - destruct (has_passwords v (host s)); [reflexivity|]. destruct (bytes_eqb _ _); reflexivity.
  - destruct (v_sites v !! host s) as [[y|]|]; reflexivity.
  - rewrite Hput. reflexivity.
  - rewrite Hput. reflexivity.
  - destruct (v_pw v !! _); reflexivity.
  - destruct (v_pw v !! _); reflexivity.
Qed.

Lemma step_possible P wr w o : all_possible w -> op_valid o -> all_possible (fst (vstep P wr w o)).
Proof.
  intros Hw Ho. assert (writing o \/ ~ writing o) as [Hwr|Hn] by (destruct o; cbn; tauto).
  - destruct w as [[[pp v]|] [|] fl]; try (destruct o; try contradiction Hwr; exact Hw). rewrite step_plan_any by exact Hwr.
    destruct (plan v o) as [c|e|] eqn:E; [|exact Hw|exact Hw]. apply commit_possible; [exact Hw|]. pose proof (proj1 Hw pp v eq_refl) as Hv.
    apply possible_changed; [exact Hv|exact (plan_ok v o c Hv Ho E)].
  - destruct o; try (exfalso; apply Hn; exact I); cbn [vstep].
    + pose proof (commit_possible wr w pp empty_vault Hw possible_empty) as H. destruct (commit wr w pp empty_vault) as [w' r]. exact H.
    + destruct (w_mem w) as [[pp' v]|] eqn:E; [|exact Hw]. destruct (bytes_eqb pp pp'); [|exact Hw]. destruct Hw as [H1 H2]. split; cbn; [rewrite <- E; exact H1|exact H2].
    + exact Hw.
    + destruct Hw as [H1 H2]. split; exact H2.
    + exact Hw.
    + exact Hw.
    + destruct (w_open w), (w_mem w) as [[pp' v]|]; exact Hw.
    + destruct l as [|x l]; [exact Hw|]. destruct (w_open w), (w_mem w) as [[pp' v]|] eqn:E; try exact Hw. pose proof (proj1 Hw pp' v E) as Hv.
      pose proof (possible_dropped (x :: l) v Hv) as Hd. destruct (drop_sites (v_sites v) (x :: l)) as [m [|]]; cbn [fst] in Hd.
      * apply commit_possible; assumption.
      * destruct Hw as [H1 H2]. split; cbn; [intros pp2 v2 E2; injection E2 as <- <-; exact Hd|exact H2].
    + destruct (w_open w), (w_mem w) as [[pp' v]|]; exact Hw.
    + destruct (w_open w), (w_mem w) as [[pp' v]|]; try exact Hw. destruct (v_pw v !! _); exact Hw.
    + destruct (w_open w), (w_mem w) as [[pp' v]|]; try exact Hw. destruct (v_pw v !! _); exact Hw.
    + destruct (w_open w), (w_mem w) as [[pp' v]|]; exact Hw.
    + destruct (w_open w), (w_mem w) as [[pp' v]|]; exact Hw.
    + destruct (w_open w), (w_mem w) as [[pp' v]|]; exact Hw.
    + destruct (w_open w), (w_mem w) as [[pp' v]|]; exact Hw.
Qed.
Lemma run_possible P l : forall wrs w, all_possible w -> Forall op_valid l -> all_possible (fst (vrun P wrs w l)).
Proof.
  induction l as [|o l IH]; intros [|wr wrs] w Hw Hl; try exact Hw. inversion Hl as [|? ? Ho Hl']; subst. cbn [vrun].
  pose proof (step_possible P wr w o Hw Ho) as H. destruct (vstep P wr w o) as [w1 r]. cbn [fst] in H. specialize (IH wrs w1 H Hl'). destruct (vrun P wrs w1 l). exact IH.
Qed.
Lemma always_possible P wrs l : Forall op_valid l -> all_possible (fst (vrun P wrs nothing l)).
Proof. apply run_possible. split; discriminate. Qed.

(** * Building a vault *)

Section build.
Context (P : prims) (pp : bytes).
Definition at_vault (v : vault) : world := mk_world (Some (pp, v)) true (Some (pp, v)).
Definition reaches (l : list op) (v v' : vault) : Prop :=
  fst (saved_run P (at_vault v) l) = at_vault v' /\ Forall (eq ODone) (snd (saved_run P (at_vault v) l)).
Lemma reaches_nil v : reaches [] v v.
Proof. split; [reflexivity|constructor]. Qed.
Lemma reaches_app l m v v1 v2 : reaches l v v1 -> reaches m v1 v2 -> reaches (l ++ m) v v2.
Proof. intros [H1 H2] [H3 H4]. unfold reaches. rewrite saved_run_app, H1. cbn [fst snd]. split; [exact H3|]. apply List.Forall_app. auto. Qed.
Lemma reaches_one o v c : writing o -> plan v o = Ok c -> reaches [o] v (changed c v).
Proof. intros Hw Hp. 
  assert (vstep P Saved (at_vault v) o = (at_vault (changed c v), ODone)) as E by (unfold at_vault; rewrite step_plan by exact Hw; rewrite Hp; reflexivity).
  unfold reaches. rewrite saved_run_cons, E. split; [reflexivity|]. constructor; [reflexivity|constructor].
Qed.

Lemma host_www x : host (bs "www." ++ x) = x.
Proof. reflexivity. Qed.

(** Other names for sites, longer than all sites there are. *)
Context (n : nat).
Definition nick (y : bytes) : bytes := repeat "a"%byte (S n) ++ y.
Lemma host_nick y : host (nick y) = nick y.
Proof. unfold nick. cbn [repeat app]. unfold host. destruct (repeat "a"%byte n ++ y) as [|b [|c [|d r]]]; reflexivity. Qed.
Lemma nick_inj x y : nick x = nick y -> x = y.
Proof. unfold nick. apply app_inv_head. Qed.
Lemma nick_long y : n < length (nick y).
Proof. unfold nick. rewrite app_length, repeat_length. lia. Qed.
Lemma nick_ne y z : length y <= n -> y <> nick z.
Proof. intros H ->. pose proof (nick_long z). lia. Qed.

Definition put_all {A} (l : list (bytes * A)) (m : gmap bytes A) : gmap bytes A := fold_left (fun m '(x, a) => <[x := a]> m) l m.

Definition name_sites (ys : list bytes) : list op := map (fun y => SetAlias (nick y) (bs "www." ++ y)) ys.
Lemma named_sites ys : forall m, (forall y, In y ys -> length y <= n /\ m !! y = None) ->
  reaches (name_sites ys) (mk_vault m ∅) (mk_vault (put_all (map (fun y => (nick y, Some y)) ys) m) ∅).
Proof.
  induction ys as [|y ys IH]; intros m H; [apply reaches_nil|]. cbn [name_sites map]. apply (reaches_app [_] _ _ (mk_vault (<[nick y := Some y]> m) ∅)).
  - destruct (H y (or_introl eq_refl)) as [H1 H2].
    assert (plan (mk_vault m ∅) (SetAlias (nick y) (bs "www." ++ y)) = Ok (SPut (nick y) y, PNone)) as E.
    { cbn [plan]. unfold has_passwords. cbn [v_pw]. rewrite map_to_list_empty. cbn [existsb]. unfold target. rewrite host_www, host_nick. cbn [v_sites]. rewrite H2.
      rewrite (proj2 (bytes_eqb_neq (nick y) y)); [reflexivity|]. intros K. exact (nick_ne y y H1 (eq_sym K)). }
    exact (reaches_one (SetAlias (nick y) (bs "www." ++ y)) _ _ I E).
  - apply IH. intros z Hz. destruct (H z (or_intror Hz)) as [H1 H2]. split; [exact H1|]. rewrite lookup_insert_ne; [exact H2|]. intros K. exact (nick_ne z y H1 (eq_sym K)).
Qed.

Lemma target_nick m p y : m !! nick y = Some (Some y) -> target (mk_vault m p) (nick y) = y.
Proof. intros H. unfold target. rewrite host_nick. cbn [v_sites]. rewrite H. reflexivity. Qed.

Definition add_site (s : bytes * option bytes) : list op :=
  match s with
  | (x, Some y) => [SetAlias (bs "www." ++ x) (nick y)]
  | (x, None) => [SetStored (nick x) [] [] []; Remove (nick x) [] []]
  end.
Lemma added_site x a m : length x <= n -> m !! x = None -> m !! nick x = Some (Some x) ->
  match a with Some y => x <> y /\ m !! nick y = Some (Some y) | None => True end ->
  reaches (add_site (x, a)) (mk_vault m ∅) (mk_vault (<[x := a]> m) ∅).
Proof.
  intros Hx Hm Hk Ha. destruct a as [y|]; cbn [add_site].
  - destruct Ha as [Hne Hy]. assert (plan (mk_vault m ∅) (SetAlias (bs "www." ++ x) (nick y)) = Ok (SPut x y, PNone)) as E.
    { cbn [plan]. unfold has_passwords. cbn [v_pw]. rewrite map_to_list_empty. cbn [existsb]. rewrite host_www, (target_nick m ∅ y Hy).
      rewrite (proj2 (bytes_eqb_neq x y) Hne). reflexivity. }
    exact (reaches_one (SetAlias (bs "www." ++ x) (nick y)) _ _ I E).
  - apply (reaches_app [_] [_] _ (mk_vault (<[x := None]> m) (<[(x, [], []) := mk_entry (SFixed []) []]> ∅))).
    + assert (plan (mk_vault m ∅) (SetStored (nick x) [] [] []) = Ok (SAdd x, PPut (x, [], []) (mk_entry (SFixed []) []))) as E.
      { cbn [plan]. rewrite (target_nick m ∅ x Hk). reflexivity. }
      pose proof (reaches_one (SetStored (nick x) [] [] []) _ _ I E) as R. unfold changed in R. cbn [fst snd on_sites on_pws v_sites v_pw] in R. rewrite Hm in R. exact R.
    + set (p := <[(x, [], []) := mk_entry (SFixed []) []]> ∅).
      assert (plan (mk_vault (<[x := None]> m) p) (Remove (nick x) [] []) = Ok (SNone, PDel (x, [], []))) as E.
      { cbn [plan]. rewrite target_nick by (rewrite lookup_insert_ne by (apply nick_ne, Hx); exact Hk). cbn [v_pw]. change (rev_of []) with (@nil byte).
        unfold p. rewrite lookup_insert. reflexivity. }
      pose proof (reaches_one (Remove (nick x) [] []) _ _ I E) as R. unfold changed in R. cbn [fst snd on_sites on_pws v_sites v_pw] in R.
      unfold p in R at 2. rewrite delete_insert in R by apply lookup_empty. exact R.
Qed.
Lemma added_sites ys l : forall m, base.NoDup (l.*1) -> (forall y, In y ys -> m !! nick y = Some (Some y)) ->
  (forall x a, In (x, a) l -> length x <= n /\ m !! x = None /\ In x ys /\ match a with Some y => x <> y /\ In y ys | None => True end) ->
  reaches (flat_map add_site l) (mk_vault m ∅) (mk_vault (put_all l m) ∅).
Proof.
  induction l as [|[x a] l IH]; intros m Hd Hk H; [apply reaches_nil|]. cbn [flat_map]. destruct (H x a (or_introl eq_refl)) as (H1 & H2 & H3 & H4).
  apply (reaches_app _ _ _ (mk_vault (<[x := a]> m) ∅)).
  - apply added_site; auto. destruct a as [y|]; [|exact I]. destruct H4 as [H4 H5]. auto.
  - cbn in Hd. apply list.NoDup_cons in Hd. destruct Hd as [Hx Hd]. apply IH; [exact Hd| |].
    + intros y Hy. rewrite lookup_insert_ne; [auto|]. apply nick_ne, H1.
    + intros z b Hz. destruct (H z b (or_intror Hz)) as (K1 & K2 & K3 & K4). split; [exact K1|]. split; [|auto]. rewrite lookup_insert_ne; [exact K2|].
      intros ->. apply Hx. apply elem_of_list_fmap. exists (z, b). split; [reflexivity|]. apply elem_of_list_In. exact Hz.
Qed.

Definition add_password (q : pid * entry) : list op :=
  let '((s, m, r), e) := q in
  [match e_secret e with SGenerated len cs => SetGenerated (nick s) m r len cs | SFixed t => SetStored (nick s) m r t end; SetNotes (nick s) m r (e_notes e)].
Definition with_site (m : gmap bytes (option bytes)) (q : pid * entry) : gmap bytes (option bytes) :=
  match m !! pid_site q.1 with Some _ => m | None => <[pid_site q.1 := None]> m end.
Lemma with_site_keeps m q x a : m !! x = Some a -> with_site m q !! x = Some a.
Proof. intros H. unfold with_site. destruct (m !! pid_site q.1) eqn:E; [exact H|]. rewrite lookup_insert_ne; [exact H|]. intros K. congruence. Qed.
Lemma added_password m p s k r e : r <> bs "1" -> m !! nick s = Some (Some s) ->
  reaches (add_password ((s, k, r), e)) (mk_vault m p) (mk_vault (with_site m ((s, k, r), e)) (<[(s, k, r) := e]> p)).
Proof.
  intros Hr Hk. assert (rev_of r = r) as Er by (unfold rev_of; rewrite (proj2 (bytes_eqb_neq r (bs "1")) Hr); reflexivity).
  set (e0 := mk_entry (e_secret e) []). set (m' := with_site m ((s, k, r), e)). set (p' := <[(s, k, r) := e0]> p).
  apply (reaches_app [_] [_] _ (mk_vault m' p')).
  - assert (forall o, writing o -> plan (mk_vault m p) o = Ok (SAdd s, PPut (s, k, r) e0) -> reaches [o] (mk_vault m p) (mk_vault m' p')) as H
      by (intros o Hw E; exact (reaches_one o _ _ Hw E)).
    destruct (e_secret e) as [len cs|t] eqn:Es; apply H; try exact I; cbn [plan]; rewrite (target_nick m p s Hk), Er; subst e0; rewrite ?Es; reflexivity.
  - assert (plan (mk_vault m' p') (SetNotes (nick s) k r (e_notes e)) = Ok (SNone, PPut (s, k, r) e)) as E.
    { cbn [plan]. rewrite (target_nick m' p' s) by (apply with_site_keeps, Hk). rewrite Er. cbn [v_pw]. unfold p'. rewrite lookup_insert. destruct e. reflexivity. }
    pose proof (reaches_one (SetNotes (nick s) k r (e_notes e)) _ _ I E) as R. unfold changed in R. cbn [fst snd on_sites on_pws v_sites v_pw] in R.
    unfold p' in R at 2. rewrite insert_insert in R. exact R.
Qed.
Definition put_pws (l : list (pid * entry)) (p : gmap pid entry) : gmap pid entry := fold_left (fun p '(i, e) => <[i := e]> p) l p.
Lemma added_passwords l : forall m p, (forall s k r e, In ((s, k, r), e) l -> r <> bs "1" /\ m !! nick s = Some (Some s)) ->
  reaches (flat_map add_password l) (mk_vault m p) (mk_vault (fold_left with_site l m) (put_pws l p)).
Proof.
  induction l as [|[[[s k] r] e] l IH]; intros m p H; [apply reaches_nil|]. cbn [flat_map]. destruct (H s k r e (or_introl eq_refl)) as [H1 H2].
  eapply reaches_app; [apply added_password; assumption|]. apply IH. intros s' k' r' e' Hi. destruct (H s' k' r' e' (or_intror Hi)) as [K1 K2].
  split; [exact K1|]. apply with_site_keeps, K2.
Qed.

Lemma removed_sites l m p : snd (drop_sites m l) = true -> reaches [RemoveSites l] (mk_vault m p) (mk_vault (fst (drop_sites m l)) p).
Proof.
  intros H. assert (vstep P Saved (at_vault (mk_vault m p)) (RemoveSites l) = (at_vault (mk_vault (fst (drop_sites m l)) p), ODone)) as E.
  { destruct l as [|x l]; [reflexivity|]. unfold at_vault. cbn [vstep w_open w_mem v_sites v_pw]. destruct (drop_sites m (x :: l)) as [m' b]. cbn [snd] in H. subst b. reflexivity. }
  unfold reaches. rewrite saved_run_cons, E. split; [reflexivity|]. constructor; [reflexivity|constructor].
Qed.
End build.

Lemma put_all_union {A} (l : list (bytes * A)) : forall m, base.NoDup (l.*1) -> put_all l m = list_to_map l ∪ m.
Proof.
  induction l as [|[x a] l IH]; intros m H; [cbn; rewrite map_empty_union; reflexivity|]. cbn in H. apply list.NoDup_cons in H. destruct H as [Hx H].
  cbn [put_all fold_left]. fold (put_all l (<[x := a]> m)). rewrite IH by exact H. rewrite list_to_map_cons, <- insert_union_l.
  rewrite insert_union_r by (apply not_elem_of_list_to_map_1, Hx). reflexivity.
Qed.
Lemma put_pws_union l : forall p, base.NoDup (l.*1) -> put_pws l p = list_to_map l ∪ p.
Proof.
  induction l as [|[x a] l IH]; intros m H; [cbn; rewrite map_empty_union; reflexivity|]. cbn in H. apply list.NoDup_cons in H. destruct H as [Hx H].
  cbn [put_pws fold_left]. fold (put_pws l (<[x := a]> m)). rewrite IH by exact H. rewrite list_to_map_cons, <- insert_union_l.
  rewrite insert_union_r by (apply not_elem_of_list_to_map_1, Hx). reflexivity.
Qed.
Lemma with_sites_lookup l : forall m x, fold_left with_site l m !! x =
  match m !! x with Some a => Some a | None => if bool_decide (x ∈ map (fun q => pid_site q.1) l) then Some None else None end.
Proof.
  induction l as [|q l IH]; intros m x.
  - cbn [fold_left map]. destruct (m !! x); [reflexivity|]. rewrite bool_decide_eq_false_2; [reflexivity|]. apply not_elem_of_nil.
  - cbn [fold_left map]. rewrite IH. unfold with_site. destruct (decide (x = pid_site q.1)) as [->|Hne].
    + rewrite (bool_decide_eq_true_2 (pid_site q.1 ∈ pid_site q.1 :: _)) by apply elem_of_list_here.
      destruct (m !! pid_site q.1) eqn:E; [rewrite E; reflexivity|]. rewrite lookup_insert. reflexivity.
    + assert ((match m !! pid_site q.1 with Some _ => m | None => <[pid_site q.1 := None]> m end) !! x = m !! x) as ->.
      { destruct (m !! pid_site q.1); [reflexivity|]. apply lookup_insert_ne. congruence. }
      destruct (m !! x); [reflexivity|]. apply (f_equal (fun b : bool => if b then Some None else None)). apply bool_decide_ext. rewrite elem_of_cons. tauto.
Qed.
Lemma drop_all l : forall m, base.NoDup l -> (forall x, In x l -> is_Some (m !! x)) ->
  snd (drop_sites m l) = true /\ forall x, In x l -> fst (drop_sites m l) !! x = None.
Proof.
  induction l as [|y l IH]; intros m Hd H; [split; [reflexivity|intros x []]|]. apply list.NoDup_cons in Hd. destruct Hd as [Hy Hd]. rewrite elem_of_list_In in Hy.
  cbn [drop_sites]. destruct (H y (or_introl eq_refl)) as [a Ea]. rewrite Ea.
  destruct (IH (delete y m) Hd) as [H1 H2].
  { intros x Hx. rewrite lookup_delete_ne; [apply H; right; exact Hx|]. intros ->. exact (Hy Hx). }
  split; [exact H1|]. intros x [<-|Hx]; [|exact (H2 x Hx)]. rewrite drop_sites_other by exact Hy. apply lookup_delete.
Qed.

(** The calls *)
Definition all_sites (v : vault) : list bytes :=
  remove_dups (map fst (map_to_list (v_sites v)) ++ flat_map (fun s => match snd s with Some y => [y] | None => [] end) (map_to_list (v_sites v)) ++
               map (fun q => pid_site q.1) (map_to_list (v_pw v))).
Definition longest (l : list bytes) : nat := list_max (map (@length byte) l).
Definition unknown_sites (v : vault) : list bytes :=
  remove_dups (List.filter (fun x => match v_sites v !! x with Some _ => false | None => true end) (map (fun q => pid_site q.1) (map_to_list (v_pw v)))).
Definition build (pp : bytes) (v : vault) : list op :=
  let ys := all_sites v in let n := longest ys in
  Reset pp :: name_sites n ys ++ flat_map (add_site n) (map_to_list (v_sites v)) ++ flat_map (add_password n) (map_to_list (v_pw v)) ++
  [RemoveSites (unknown_sites v ++ map (nick n) ys)].

Lemma longest_le l x : In x l -> length x <= longest l.
Proof.
  intros H. unfold longest. pose proof (proj1 (list_max_le (map (@length byte) l) _) (le_n _)) as K. rewrite List.Forall_forall in K. apply K.
  apply in_map. exact H.
Qed.
Lemma in_sites v x a : v_sites v !! x = Some a -> In x (all_sites v).
Proof.
  intros H. apply elem_of_list_In, elem_of_remove_dups, elem_of_list_In, in_or_app. left. apply in_map_iff. exists (x, a). split; [reflexivity|].
  apply elem_of_list_In, elem_of_map_to_list, H.
Qed.
Lemma in_targets v x y : v_sites v !! x = Some (Some y) -> In y (all_sites v).
Proof.
  intros H. apply elem_of_list_In, elem_of_remove_dups, elem_of_list_In, in_or_app. right. apply in_or_app. left. apply in_flat_map. exists (x, Some y).
  split; [apply elem_of_list_In, elem_of_map_to_list, H|left; reflexivity].
Qed.
Lemma in_pids v i e : v_pw v !! i = Some e -> In (pid_site i) (all_sites v).
Proof.
  intros H. apply elem_of_list_In, elem_of_remove_dups, elem_of_list_In, in_or_app. right. apply in_or_app. right. apply in_map_iff. exists (i, e). split; [reflexivity|].
  apply elem_of_list_In, elem_of_map_to_list, H.
Qed.
Lemma in_unknown v x : In x (unknown_sites v) <-> v_sites v !! x = None /\ x ∈ map (fun q : pid * entry => pid_site q.1) (map_to_list (v_pw v)).
Proof.
  unfold unknown_sites. rewrite <- elem_of_list_In, elem_of_remove_dups, elem_of_list_In, filter_In, <- elem_of_list_In. destruct (v_sites v !! x); intuition discriminate.
Qed.

Lemma nick_keys n (l : list bytes) : (map (fun y => (nick n y, Some y)) l).*1 = map (nick n) l.
Proof. induction l as [|y l IH]; [reflexivity|]. cbn [map]. rewrite fmap_cons, IH. reflexivity. Qed.

Lemma built_reaches P pp v : possible v -> reaches P pp (tl (build pp v)) empty_vault v.
Proof.
  intros Hv. unfold build. cbn [tl]. set (ys := all_sites v). set (n := longest ys).
  set (m1 := put_all (map (fun y => (nick n y, Some y)) ys) (∅ : gmap bytes (option bytes))).
  assert (base.NoDup ys) as Hys by apply NoDup_remove_dups.
  assert (base.NoDup ((map (fun y => (nick n y, Some y)) ys).*1)) as Hk.
  { assert ((map (fun y => (nick n y, Some y)) ys).*1 = map (nick n) ys) as -> by apply nick_keys.
    change (map (nick n) ys) with (nick n <$> ys). apply NoDup_fmap_2_strong; [|exact Hys]. intros x y _ _. apply nick_inj. }
  assert (forall x, m1 !! x = (list_to_map (map (fun y => (nick n y, Some y)) ys) : gmap bytes (option bytes)) !! x) as Em1.
  { intros x. unfold m1. rewrite put_all_union by exact Hk. rewrite map_union_empty. reflexivity. }
  assert (forall y, In y ys -> m1 !! nick n y = Some (Some y)) as Kin.
  { intros y Hy. rewrite Em1. apply elem_of_list_to_map_1; [exact Hk|]. apply elem_of_list_In, in_map_iff. exists y. auto. }
  assert (forall x a, m1 !! x = Some a -> exists y, In y ys /\ x = nick n y) as Kout.
  { intros x a Hx. rewrite Em1 in Hx. apply elem_of_list_to_map_2, elem_of_list_In, in_map_iff in Hx. destruct Hx as (y & E & Hy). injection E as <- _. eauto. }
  assert (forall x, length x <= n -> m1 !! x = None) as Kno.
  { intros x Hx. destruct (m1 !! x) eqn:E; [|reflexivity]. apply Kout in E. destruct E as (y & _ & ->). exfalso. exact (nick_ne n _ y Hx eq_refl). }
  set (m2 := put_all (map_to_list (v_sites v)) m1).
  assert (forall x, m2 !! x = match v_sites v !! x with Some a => Some a | None => m1 !! x end) as Em2.
  { intros x. unfold m2. rewrite put_all_union by apply NoDup_fst_map_to_list. rewrite list_to_map_to_list. rewrite lookup_union.
    destruct (v_sites v !! x), (m1 !! x); reflexivity. }
  assert (forall y, In y ys -> m2 !! nick n y = Some (Some y)) as Kin2.
  { intros y Hy. rewrite Em2. destruct (v_sites v !! nick n y) as [a|] eqn:E; [|auto]. apply in_sites in E. apply longest_le in E. fold ys in E. fold n in E.
    pose proof (nick_long n y). lia. }
  set (m3 := fold_left with_site (map_to_list (v_pw v)) m2).
  apply (reaches_app P pp _ _ _ (mk_vault m1 ∅)).
  { apply (named_sites P pp n ys ∅). intros y Hy. split; [apply longest_le, Hy|apply lookup_empty]. }
  apply (reaches_app P pp _ _ _ (mk_vault m2 ∅)).
  { apply (added_sites P pp n ys); [apply NoDup_fst_map_to_list|exact Kin|]. intros x a Hi. apply elem_of_list_In, elem_of_map_to_list in Hi.
    assert (length x <= n) as Hx by (apply longest_le; exact (in_sites v x a Hi)). split; [exact Hx|]. split; [apply Kno, Hx|]. split; [exact (in_sites v x a Hi)|].
    destruct a as [y|]; [|exact I]. split; [exact (po_self v Hv x y Hi)|exact (in_targets v x y Hi)]. }
  apply (reaches_app P pp _ _ _ (mk_vault m3 (v_pw v))).
  { assert (put_pws (map_to_list (v_pw v)) ∅ = v_pw v) as Ep by (rewrite put_pws_union by apply NoDup_fst_map_to_list; rewrite list_to_map_to_list; apply map_union_empty).
    rewrite <- Ep at 2. apply (added_passwords P pp n). intros s k r e Hi. apply elem_of_list_In, elem_of_map_to_list in Hi. split.
    - destruct (po_id v Hv s k r e Hi) as (_ & _ & _ & H). exact H.
    - apply Kin2. exact (in_pids v _ _ Hi). }
  set (D := unknown_sites v ++ map (nick n) ys).
  assert (forall x, In x D <-> In x (unknown_sites v) \/ exists y, In y ys /\ x = nick n y) as HD.
  { intros x. unfold D. rewrite in_app_iff, in_map_iff. split; (intros [H|(y & H1 & H2)]; [left; exact H|right; exists y; auto]). }
  assert (forall x, m3 !! x = match v_sites v !! x with Some a => Some a | None => match m1 !! x with Some a => Some a | None =>
    if bool_decide (x ∈ map (fun q : pid * entry => pid_site q.1) (map_to_list (v_pw v))) then Some None else None end end) as Em3.
  { intros x. unfold m3. rewrite with_sites_lookup, Em2. destruct (v_sites v !! x), (m1 !! x); reflexivity. }
  assert (forall x, In x D -> v_sites v !! x = None /\ is_Some (m3 !! x)) as HDin.
  { intros x Hx. apply HD in Hx. destruct Hx as [Hx|(y & Hy & ->)].
    - apply in_unknown in Hx. destruct Hx as [H1 H2]. split; [exact H1|]. rewrite Em3, H1. rewrite bool_decide_eq_true_2 by exact H2. destruct (m1 !! x); eauto.
    - assert (v_sites v !! nick n y = None) as E.
      { destruct (v_sites v !! nick n y) as [a|] eqn:E; [|reflexivity]. apply in_sites in E. apply longest_le in E. fold ys in E. fold n in E. pose proof (nick_long n y). lia. }
      split; [exact E|]. rewrite Em3, E, (Kin y Hy). eauto. }
  assert (base.NoDup D) as HDd.
  { unfold D. apply list.NoDup_app. split; [apply NoDup_remove_dups|]. split.
    - intros x Hx K. apply elem_of_list_In, in_unknown in Hx. destruct Hx as [_ Hx]. apply elem_of_list_In, in_map_iff in Hx. destruct Hx as ([i e] & <- & Hi). cbn [fst] in K.
      apply elem_of_list_In, elem_of_map_to_list, in_pids, longest_le in Hi. fold ys in Hi. fold n in Hi.
      apply elem_of_list_In, in_map_iff in K. destruct K as (y & K & _). exact (nick_ne n _ y Hi (eq_sym K)).
    - change (map (nick n) ys) with (nick n <$> ys). apply NoDup_fmap_2_strong; [|exact Hys]. intros x y _ _. apply nick_inj. }
  destruct (drop_all D m3 HDd (fun x Hx => proj2 (HDin x Hx))) as [E1 E2].
  assert (fst (drop_sites m3 D) = v_sites v) as E.
  { apply map_eq. intros x. destruct (in_dec (decide_rel (=)) x D) as [Hx|Hx].
    - rewrite (E2 x Hx). symmetry. apply HDin, Hx.
    - rewrite drop_sites_other by exact Hx. rewrite Em3. destruct (v_sites v !! x) eqn:Ev; [reflexivity|]. destruct (m1 !! x) eqn:E0.
      + exfalso. apply Hx, HD. right. exact (Kout x _ E0).
      + rewrite bool_decide_eq_false_2; [reflexivity|]. intros K. apply Hx, HD. left. apply in_unknown. auto. }
  pose proof (removed_sites P pp D m3 (v_pw v) E1) as R. rewrite E, vault_eta in R. exact R.
Qed.

Lemma built_world P pp v : possible v -> world_after P (build pp v) = mk_world (Some (pp, v)) true (Some (pp, v)) /\
  snd (vrun P (repeat Saved (length (build pp v))) nothing (build pp v)) = repeat ODone (length (build pp v)).
Proof.
  intros Hv. destruct (built_reaches P pp v Hv) as [H1 H2].
  assert (build pp v = Reset pp :: tl (build pp v)) as E by reflexivity.
  assert (saved_run P nothing (build pp v) = (at_vault pp v, ODone :: snd (saved_run P (at_vault pp empty_vault) (tl (build pp v))))) as R.
  { rewrite E. rewrite saved_run_cons. change (vstep P Saved nothing (Reset pp)) with (at_vault pp empty_vault, ODone). cbn [fst snd tl]. rewrite <- H1. reflexivity. }
  unfold saved_run in R at 1. split; [unfold world_after; rewrite R; reflexivity|]. rewrite R. cbn [snd]. rewrite E at 2. cbn [length repeat]. f_equal.
  pose proof (saved_run_length P (tl (build pp v)) (at_vault pp empty_vault)) as L. rewrite <- L. clear -H2. induction H2 as [|r l Hr _ IH]; [reflexivity|]. cbn. congruence.
Qed.

Lemma utf8_nick n y : utf8 y = true -> utf8 (nick n y) = true.
Proof. intros H. unfold nick. induction (S n) as [|k IH]; [exact H|]. cbn [repeat app]. rewrite utf8_1; [exact IH|reflexivity]. Qed.
Lemma utf8_www y : utf8 y = true -> utf8 (bs "www." ++ y) = true.
Proof. intros H. rewrite utf8_app; [exact H|reflexivity]. Qed.
Lemma all_sites_utf8 v y : possible v -> In y (all_sites v) -> utf8 y = true.
Proof.
  intros Hv Hy. apply elem_of_list_In, elem_of_remove_dups, elem_of_list_In, in_app_or in Hy. destruct Hy as [Hy|Hy]; [|apply in_app_or in Hy; destruct Hy as [Hy|Hy]].
  - apply in_map_iff in Hy. destruct Hy as ([x a] & <- & Hi). apply elem_of_list_In, elem_of_map_to_list in Hi. exact (proj1 (po_site v Hv x a Hi)).
  - apply in_flat_map in Hy. destruct Hy as ([x a] & Hi & Hy). apply elem_of_list_In, elem_of_map_to_list in Hi. destruct a as [z|]; [|destruct Hy].
    destruct Hy as [<-|[]]. exact (proj2 (po_site v Hv x _ Hi)).
  - apply in_map_iff in Hy. destruct Hy as ([[[s k] r] e] & <- & Hi). apply elem_of_list_In, elem_of_map_to_list in Hi. exact (proj1 (po_id v Hv s k r e Hi)).
Qed.
Lemma build_valid pp v : possible v -> Forall op_valid (build pp v).
Proof.
  intros Hv. unfold build. set (n := longest (all_sites v)). constructor; [exact I|]. apply List.Forall_app. split; [|apply List.Forall_app; split; [|apply List.Forall_app; split]].
  - apply List.Forall_forall. intros o Ho. apply in_map_iff in Ho. destruct Ho as (y & <- & Hy). apply (all_sites_utf8 v y Hv) in Hy. split; [apply utf8_nick, Hy|apply utf8_www, Hy].
  - apply List.Forall_forall. intros o Ho. apply in_flat_map in Ho. destruct Ho as ([x a] & Hi & Ho). apply elem_of_list_In, elem_of_map_to_list in Hi.
    destruct (po_site v Hv x a Hi) as [H1 H2]. destruct a as [y|]; cbn [add_site] in Ho.
    + destruct Ho as [<-|[]]. split; [apply utf8_www, H1|apply utf8_nick, H2].
    + destruct Ho as [<-|[<-|[]]]; repeat split; apply utf8_nick, H1.
  - apply List.Forall_forall. intros o Ho. apply in_flat_map in Ho. destruct Ho as ([[[s k] r] e] & Hi & Ho). apply elem_of_list_In, elem_of_map_to_list in Hi.
    destruct (po_id v Hv s k r e Hi) as (H1 & H2 & H3 & _). destruct (po_entry v Hv _ e Hi) as [H4 H5]. cbn [add_password] in Ho. destruct Ho as [<-|[<-|[]]].
    + destruct (e_secret e); exact (conj (utf8_nick _ _ H1) (conj H2 (conj H3 H5))).
    + exact (conj (utf8_nick _ _ H1) (conj H2 (conj H3 H4))).
  - constructor; [|constructor]. cbn [op_valid]. apply List.Forall_forall. intros x Hx. apply in_app_or in Hx. destruct Hx as [Hx|Hx].
    + apply in_unknown in Hx. destruct Hx as [_ Hx]. apply elem_of_list_In, in_map_iff in Hx. destruct Hx as ([i e] & <- & Hi). apply elem_of_list_In, elem_of_map_to_list in Hi.
      apply (all_sites_utf8 v _ Hv). exact (in_pids v i e Hi).
    + apply in_map_iff in Hx. destruct Hx as (y & <- & Hy). apply utf8_nick, (all_sites_utf8 v y Hv Hy).
Qed.

(** * Together *)

Lemma exactly_possible P v : possible v <-> exists l pp, Forall op_valid l /\ w_mem (world_after P l) = Some (pp, v).
Proof.
  split.
  - intros Hv. exists (build [] v), []. split; [apply build_valid, Hv|]. rewrite (proj1 (built_world P [] v Hv)). reflexivity.
  - intros (l & pp & Hl & E). exact (proj1 (always_possible P _ l Hl) pp v E).
Qed.

Lemma done_agrees P l n : Forall2 (agrees P) l (repeat ODone n) -> l = repeat ODone n.
Proof. revert l. induction n as [|n IH]; intros l H; inversion H as [|a ? l' ? Ha Hl]; subst; [reflexivity|]. cbn in Ha. subst a. cbn. f_equal. apply IH, Hl. Qed.
Lemma vault_built P pp v m sc s0 : possible v -> (forall n, p_write P n = WriteOk) -> sound P sc (build pp v ++ m) s0 ->
  Forall2 (agrees P) (fst (run P m (snd (run P (build pp v) s0)))) (snd (vrun P (repeat Saved (length m)) (mk_world (Some (pp, v)) true (Some (pp, v))) m)).
Proof. intros Hv Hw So. rewrite <- (proj1 (built_world P pp v Hv)). exact (later_run P sc (build pp v) m s0 Hw So). Qed.

Lemma run_length P l : forall s, length (fst (run P l s)) = length l.
Proof.
  induction l as [|o l IH]; intros s; [reflexivity|]. cbn [run]. destruct (exec P o s) as [r s1]. specialize (IH s1). destruct (run P l s1). cbn in *. congruence.
Qed.
Lemma sound_prefix_vault P sc l m s0 : (forall n, p_write P n = WriteOk) -> sound P sc (l ++ m) s0 ->
  Forall2 (agrees P) (fst (run P l s0)) (snd (vrun P (repeat Saved (length l)) nothing l)).
Proof.
  intros Hw So. pose proof (later_run P sc [] (l ++ m) s0 Hw So) as H. cbn [run snd] in H. change (world_after P []) with nothing in H.
  fold (saved_run P nothing (l ++ m)) in H. rewrite saved_run_app in H. cbn [snd] in H. apply split_answers in H. destruct H as [H _].
  rewrite saved_run_length in H. rewrite (run_app P l m) in H. cbn [fst] in H. rewrite firstn_app, run_length, Nat.sub_diag, firstn_O, app_nil_r in H.
  rewrite firstn_all2 in H by (rewrite run_length; apply le_n). exact H.
Qed.
Lemma built_behaves P pp v m sc s0 : possible v -> (forall n, p_write P n = WriteOk) -> sound P sc (build pp v ++ m) s0 ->
  fst (run P (build pp v ++ m) s0) = repeat ODone (length (build pp v)) ++ fst (run P m (snd (run P (build pp v) s0))) /\
  Forall2 (agrees P) (fst (run P m (snd (run P (build pp v) s0)))) (snd (vrun P (repeat Saved (length m)) (mk_world (Some (pp, v)) true (Some (pp, v))) m)).
Proof.
  intros Hv Hw So. split; [|exact (vault_built P pp v m sc s0 Hv Hw So)]. rewrite (run_app P (build pp v) m). cbn [fst]. f_equal.
  apply (done_agrees P). rewrite <- (proj2 (built_world P pp v Hv)). exact (sound_prefix_vault P sc (build pp v) m s0 Hw So).
Qed.
Lemma build_names pp v : (forall s n r e, v_pw v !! (s, n, r) = Some e -> ~ In x00 n) -> names_ok (build pp v).
Proof.
  intros H. unfold names_ok. apply List.Forall_forall. intros [k r] Hi. apply in_flat_map in Hi. destruct Hi as (o & Ho & Hi). unfold build in Ho.
  destruct Ho as [<-|Ho]; [destruct Hi|]. apply in_app_or in Ho. destruct Ho as [Ho|Ho]; [|apply in_app_or in Ho; destruct Ho as [Ho|Ho]; [|apply in_app_or in Ho; destruct Ho as [Ho|Ho]]].
  - apply in_map_iff in Ho. destruct Ho as (y & <- & _). destruct Hi.
  - apply in_flat_map in Ho. destruct Ho as ([x [y|]] & _ & Ho); cbn [add_site] in Ho.
    + destruct Ho as [<-|[]]. destruct Hi.
    + destruct Ho as [<-|[<-|[]]]; (destruct Hi as [E|[]]; injection E as <- _; intros []).
  - apply in_flat_map in Ho. destruct Ho as ([[[s k'] r'] e] & Hq & Ho). apply elem_of_list_In, elem_of_map_to_list in Hq. apply H in Hq. cbn [add_password] in Ho.
    destruct Ho as [<-|[<-|[]]]; [destruct (e_secret e)|]; (destruct Hi as [E|[]]; injection E as <- _; exact Hq).
  - destruct Ho as [<-|[]]. destruct Hi.
Qed.

(** * Results *)

Lemma step_plausible P wr w o : all_possible w -> plausible o (snd (vstep P wr w o)).
Proof.
  intros [Hw _]. destruct o; try (cbn [vstep]; exact I).
  - cbn [vstep]. unfold commit. destruct wr; exact I.
  - cbn [vstep]. destruct (w_mem w) as [[p v]|]; [|exact I]. destruct (bytes_eqb pp p); exact I.
  - cbn [vstep]. destruct (w_open w), (w_mem w) as [[p v]|]; try exact I. cbn [snd]. destruct (v_sites v !! host s) as [[y|]|] eqn:E; try exact I.
    cbn. intros ->. exact (po_self v (Hw p v eq_refl) _ _ E eq_refl).
  - cbn [vstep]. destruct (w_open w), (w_mem w) as [[p v]|]; try exact I. destruct (has_passwords _ _); [exact I|]. destruct (bytes_eqb _ _); [exact I|]. destruct wr; exact I.
  - cbn [vstep]. destruct (w_open w), (w_mem w) as [[p v]|]; try exact I. destruct (v_sites v !! host s) as [[y|]|]; try exact I. destruct wr; exact I.
  - cbn [vstep]. destruct l as [|x l]; [exact I|]. destruct (w_open w), (w_mem w) as [[p v]|]; try exact I. destruct (drop_sites _ _) as [m [|]]; [destruct wr; exact I|exact I].
  - cbn [vstep]. destruct (w_open w), (w_mem w) as [[p v]|]; try exact I. destruct wr; exact I.
  - cbn [vstep]. destruct (w_open w), (w_mem w) as [[p v]|]; try exact I. destruct wr; exact I.
  - cbn [vstep]. destruct (w_open w), (w_mem w) as [[p v]|]; exact I.
  - cbn [vstep]. destruct (w_open w), (w_mem w) as [[p v]|]; try exact I. destruct (v_pw v !! _) as [e|]; [|exact I]. cbn [snd]. unfold reveal, text_out.
    destruct (e_secret e); [|exact I]. destruct (derive_password _ _ _ _ _); exact I.
  - cbn [vstep]. destruct (w_open w), (w_mem w) as [[p v]|]; try exact I. destruct (v_pw v !! _); exact I.
  - cbn [vstep]. destruct (w_open w), (w_mem w) as [[p v]|]; try exact I. destruct (v_pw v !! _); [|exact I]. destruct wr; exact I.
  - cbn [vstep]. destruct (w_open w), (w_mem w) as [[p v]|]; try exact I. destruct (v_pw v !! _); [|exact I]. destruct wr; exact I.
  - cbn [vstep]. destruct (w_open w), (w_mem w) as [[p v]|]; try exact I. cbn [snd plausible]. intros x n r e Hi. apply filter_In in Hi. destruct Hi as [Hi _].
    apply elem_of_list_In, elem_of_map_to_list in Hi. destruct (po_id v (Hw p v eq_refl) _ _ _ _ Hi) as (_ & _ & _ & H). exact H.
  - cbn [vstep]. destruct (w_open w), (w_mem w) as [[p v]|]; try exact I. cbn [snd plausible]. intros x y Hi. apply filter_In in Hi. destruct Hi as [Hi _].
    apply elem_of_list_In, elem_of_map_to_list in Hi. exact (po_self v (Hw p v eq_refl) _ _ Hi).
  - cbn [vstep]. destruct (w_mem w) as [[p v]|], (w_open w); exact I.
  - cbn [vstep]. destruct (w_open w), (w_mem w) as [[p v]|]; try exact I. cbn [snd]. unfold text_out. destruct (decode _ _ _); exact I.
Qed.
Lemma plausible_agrees P o a r : agrees P a r -> plausible o r -> plausible o a.
Proof.
  intros H Hp. destruct r; cbn [agrees] in H; try (subst a; exact Hp).
  - destruct H as (l' & -> & Hl). destruct o; cbn [plausible] in *; intros s0 n0 r0 e Hi; eapply Hp; rewrite <- elem_of_list_In, <- Hl, elem_of_list_In; exact Hi.
  - destruct H as (l' & -> & Hl). destruct o; cbn [plausible] in *; intros x y Hi; eapply Hp; rewrite <- elem_of_list_In, <- Hl, elem_of_list_In; exact Hi.
  - destruct H as [(code & -> & _)|(-> & _)]; destruct o; exact I.
Qed.
Lemma run_plausible P l : forall wrs w q, all_possible w -> Forall op_valid l -> Forall2 (agrees P) q (snd (vrun P wrs w l)) -> length q = length l -> Forall2 plausible l q.
Proof.
  induction l as [|o l IH]; intros wrs w q Hw Hl Hq Hlen; [destruct q; [constructor|discriminate Hlen]|]. inversion Hl as [|? ? Ho Hl']; subst.
  destruct wrs as [|wr wrs]; [cbn in Hq; inversion Hq; subst; discriminate Hlen|]. cbn [vrun] in Hq.
  pose proof (step_possible P wr w o Hw Ho) as H1. pose proof (step_plausible P wr w o Hw) as H2. destruct (vstep P wr w o) as [w1 r]. cbn [fst snd] in H1, H2.
  specialize (IH wrs w1). destruct (vrun P wrs w1 l) as [w2 rs]. cbn [snd] in *. inversion Hq as [|a ? q' ? Ha Hq']; subst. constructor.
  - exact (plausible_agrees P o a r Ha H2).
  - apply IH; auto.
Qed.
Lemma results_plausible P sc l s0 : sound P sc l s0 -> Forall2 plausible l (fst (run P l s0)).
Proof.
  intros So. destruct (sound_rep P sc l s0 So) as (wrs & _ & _ & H). eapply run_plausible; [| |exact H|apply run_length].
  - split; discriminate.
  - pose proof (so_covered _ _ _ _ So) as Hc. eapply List.Forall_impl; [|exact Hc]. intros o [Ho _]. exact Ho.
Qed.
