(** The command line program: listing passwords. *)
From Coq Require Import Permutation Sorted ZArith ZifyBool ZifyNat ZifyN.
From stdpp Require Import gmap.
From Verif Require Import M_Base M_Base64 M_Utf8 M_Prims M_Types M_Crypto M_Recovery M_Json M_Serde M_Storage M_Passwords S_Serde
  S_Vault M_History S_Api P_Base P_Utf8 P_Json P_Serde P_Storage P_Api P_Calls M_Cli S_Cli P_CliBase P_CliCalls P_CliUnlock
  P_CliCommands.

(** * Order *)

Lemma before_irrefl a : ~ before a a.
Proof. induction a as [|x a IH]; intros H; inversion H; subst; [lia|auto]. Qed.
Lemma before_trans a b c : before a b -> before b c -> before a c.
Proof.
  intros H. revert c. induction H as [y b|x y a b H|x a b H IH]; intros c Hc; inversion Hc; subst; try (constructor; fail).
  - apply before_less. lia.
  - apply before_less. assumption.
  - apply before_less. assumption.
  - apply before_same. auto.
Qed.
Lemma to_N_inj x y : Byte.to_N x = Byte.to_N y -> x = y.
Proof. intros H. assert (Byte.of_N (Byte.to_N x) = Byte.of_N (Byte.to_N y)) as H1 by (rewrite H; reflexivity). rewrite !Byte.of_to_N in H1. congruence. Qed.
Lemma leb_before a b : bytes_leb a b = true <-> a = b \/ before a b.
Proof.
  revert b. induction a as [|x a IH]; intros [|y b]; cbn [bytes_leb].
  - split; auto.
  - split; [right; constructor|reflexivity].
  - split; [discriminate|]. intros [H|H]; [discriminate|inversion H].
  - rewrite orb_true_iff, andb_true_iff, N.ltb_lt, P_Base.eqb_eq, IH. split.
    + intros [H|[-> [->|H]]]; [right; apply before_less; exact H|auto|right; apply before_same; exact H].
    + intros [H|H]; [injection H as -> ->; auto|inversion H; subst; auto].
Qed.
Lemma before_total a b : a = b \/ before a b \/ before b a.
Proof.
  revert b. induction a as [|x a IH]; intros [|y b]; [auto|right; left; constructor|right; right; constructor|].
  destruct (N.lt_trichotomy (Byte.to_N x) (Byte.to_N y)) as [H|[H|H]].
  - right. left. apply before_less. exact H.
  - apply to_N_inj in H. subst y. destruct (IH b) as [->|[H|H]]; auto using before_same.
  - right. right. apply before_less. exact H.
Qed.
Lemma leb_false a b : bytes_leb a b = false <-> before b a.
Proof.
  split.
  - intros H. destruct (before_total a b) as [E|[E|E]]; [|exfalso|exact E].
    + exfalso. assert (bytes_leb a b = true) by (apply leb_before; auto). congruence.
    + assert (bytes_leb a b = true) by (apply leb_before; auto). congruence.
  - intros H. apply not_true_is_false. intros E. apply leb_before in E. destruct E as [->|E].
    + exact (before_irrefl _ H).
    + exact (before_irrefl _ (before_trans _ _ _ H E)).
Qed.

Section sorting.
Context {A : Type} (key : A -> bytes).
Definition upto (x y : A) : Prop := ~ before (key y) (key x).
Lemma upto_leb x y : upto x y <-> bytes_leb (key x) (key y) = true.
Proof.
  unfold upto. destruct (bytes_leb (key x) (key y)) eqn:E.
  - split; [auto|]. intros _ H. apply leb_false in H. congruence.
  - split; [|discriminate]. intros H. apply leb_false in E. contradiction.
Qed.
Lemma upto_trans x y z : upto x y -> upto y z -> upto x z.
Proof.
  rewrite !upto_leb, !leb_before. intros [->|H1] [E|H2]; [auto| |rewrite <- E; auto|eauto using before_trans]; auto.
Qed.

Lemma sort_perm l : sort_by key l ≡ₚ l.
Proof.
  induction l as [|x l IH]; [reflexivity|]. cbn [sort_by].
  assert (forall m, insert_by key x m ≡ₚ x :: m) as Hi.
  { induction m as [|y m IHm]; [reflexivity|]. cbn. destruct (bytes_leb _ _); [reflexivity|]. rewrite IHm. apply perm_swap. }
  rewrite Hi, IH. reflexivity.
Qed.
Lemma sort_sorted l : StronglySorted upto (sort_by key l).
Proof.
  induction l as [|x l IH]; [constructor|]. cbn [sort_by].
  induction IH as [|y m Hs IHm Hf]; cbn [insert_by]; [repeat constructor|].
  destruct (bytes_leb (key x) (key y)) eqn:E.
  - constructor; [constructor; assumption|]. apply upto_leb in E. constructor; [exact E|].
    eapply List.Forall_impl; [|exact Hf]. intros z Hz. exact (upto_trans _ _ _ E Hz).
  - constructor; [exact IHm|]. apply List.Forall_forall. intros z Hz. apply in_insert in Hz. destruct Hz as [->|Hz].
    + unfold upto. apply leb_false in E. intros H. exact (before_irrefl _ (before_trans _ _ _ E H)).
    + rewrite List.Forall_forall in Hf. auto.
Qed.

(** An element stays in front of those with the same key. *)
Lemma sort_stable l1 x l2 : (forall y, In y l1 -> key y <> key x) ->
  exists a b, sort_by key (l1 ++ x :: l2) = a ++ x :: b /\ forall y, In y a -> key y <> key x.
Proof.
  induction l1 as [|z l1 IH]; intros H; cbn [app sort_by].
  - clear H. generalize (sort_sorted l2). generalize (sort_by key l2). clear l2. intros m Hm.
    induction Hm as [|y m Hs IHm Hf]; cbn [insert_by].
    + exists [], []. split; [reflexivity|intros y []].
    + destruct (bytes_leb (key x) (key y)) eqn:E; [exists [], (y :: m); split; [reflexivity|intros ? []]|].
      destruct IHm as (a & b & Ei & Ha). rewrite Ei. exists (y :: a), b. split; [reflexivity|].
      intros w [<-|Hw]; [|auto]. intros Ek. apply leb_false in E. rewrite Ek in E. exact (before_irrefl _ E).
  - destruct IH as (a & b & -> & Ha); [intros y Hy; apply H; cbn; auto|]. assert (key z <> key x) as Hz by (apply H; cbn; auto).
    clear H. induction a as [|y a IHa]; cbn [app insert_by].
    + destruct (bytes_leb (key z) (key x)).
      * exists [z], b. split; [reflexivity|]. intros w [<-|[]]. exact Hz.
      * exists [], (insert_by key z b). split; [reflexivity|intros ? []].
    + destruct (bytes_leb (key z) (key y)).
      * exists (z :: y :: a), b. split; [reflexivity|]. intros w [<-|Hw]; [exact Hz|apply Ha, Hw].
      * destruct IHa as (a' & b' & E' & Ha'); [intros w Hw; apply Ha; cbn; auto|]. rewrite E'.
        exists (y :: a'), b'. split; [reflexivity|]. intros w [<-|Hw]; [apply Ha; cbn; auto|auto].
Qed.

Lemma dedup_after_strict l : forall k, StronglySorted upto l -> Forall (fun x => bytes_leb k (key x) = true) l ->
  StronglySorted (fun x y => before (key x) (key y)) (dedup_after key k l) /\
  Forall (fun x => before k (key x)) (dedup_after key k l).
Proof.
  induction l as [|x l IH]; intros k Hs Hf; cbn [dedup_after]; [split; constructor|].
  inversion Hs as [|? ? Hs' Hf']; subst. inversion Hf as [|? ? Hx Hfl]; subst.
  destruct (bytes_eqb (key x) k) eqn:E.
  - apply IH; assumption.
  - assert (before k (key x)) as Hk.
    { apply leb_before in Hx. destruct Hx as [->|Hx]; [rewrite bytes_eqb_refl in E; discriminate|exact Hx]. }
    destruct (IH (key x) Hs') as [IH1 IH2].
    { eapply List.Forall_impl; [|exact Hf']. intros y Hy. apply upto_leb, Hy. }
    split; [constructor; assumption|]. constructor; [exact Hk|].
    eapply List.Forall_impl; [|exact IH2]. intros y Hy. exact (before_trans _ _ _ Hk Hy).
Qed.
Lemma dedup_strict l : StronglySorted upto l -> StronglySorted (fun x y => before (key x) (key y)) (dedup_by key l).
Proof.
  intros Hs. destruct l as [|x l]; [constructor|]. inversion Hs as [|? ? Hs' Hf]; subst. cbn [dedup_by].
  destruct (dedup_after_strict l (key x) Hs') as [H1 H2].
  { eapply List.Forall_impl; [|exact Hf]. intros y Hy. apply upto_leb, Hy. }
  constructor; assumption.
Qed.
Lemma dedup_after_keys l : forall k y, In y l -> key y = k \/ exists z, In z (dedup_after key k l) /\ key z = key y.
Proof.
  induction l as [|x l IH]; intros k y [].
  - subst x. cbn [dedup_after]. destruct (bytes_eqb (key y) k) eqn:E; [apply bytes_eqb_eq in E; auto|].
    right. exists y. cbn. auto.
  - cbn [dedup_after]. destruct (bytes_eqb (key x) k) eqn:E; [apply IH; assumption|].
    right. destruct (IH (key x) y H) as [Hy|(z & Hz & Hk)]; [exists x; cbn; auto|exists z; cbn; auto].
Qed.
Lemma dedup_keys l y : In y l -> exists z, In z (dedup_by key l) /\ key z = key y.
Proof.
  destruct l as [|x l]; [intros []|]. cbn [dedup_by]. intros [->|H]; [exists y; cbn; auto|].
  destruct (dedup_after_keys l (key x) y H) as [Hy|(z & Hz & Hk)]; [exists x; cbn; auto|exists z; cbn; auto].
Qed.
(** The first of those with the same key is kept. *)
Lemma dedup_after_first l1 : forall k x l2, key x <> k -> (forall y, In y l1 -> key y <> key x) ->
  In x (dedup_after key k (l1 ++ x :: l2)).
Proof.
  induction l1 as [|z l1 IH]; intros k x l2 Hk H; cbn [app dedup_after].
  - destruct (bytes_eqb (key x) k) eqn:E; [apply bytes_eqb_eq in E; contradiction|cbn; auto].
  - destruct (bytes_eqb (key z) k); [apply IH; [exact Hk|intros y Hy; apply H; cbn; auto]|].
    right. apply IH; [intros E; apply (H z); cbn; auto|intros y Hy; apply H; cbn; auto].
Qed.
Lemma dedup_first l1 x l2 : (forall y, In y l1 -> key y <> key x) -> In x (dedup_by key (l1 ++ x :: l2)).
Proof.
  destruct l1 as [|z l1]; intros H; cbn [app dedup_by]; [cbn; auto|].
  right. apply dedup_after_first; [intros E; apply (H z); cbn; auto|intros y Hy; apply H; cbn; auto].
Qed.
End sorting.

Lemma strictly_map {A} (key : A -> bytes) l : StronglySorted (fun x y => before (key x) (key y)) l <-> StronglySorted before (map key l).
Proof.
  induction l as [|x l IH]; cbn; [split; constructor|]. split; intros H; inversion H; subst; constructor; try (apply IH; assumption).
  - apply List.Forall_forall. intros y Hy. apply in_map_iff in Hy. destruct Hy as (z & <- & Hz). rewrite List.Forall_forall in *. auto.
  - rewrite List.Forall_forall in *. intros y Hy. match goal with Hf : forall x, In x (map _ _) -> _ |- _ => apply Hf end. apply in_map, Hy.
Qed.
Lemma strictly_filter {A} (R : A -> A -> Prop) f l : StronglySorted R l -> StronglySorted R (List.filter f l).
Proof.
  induction 1 as [|x l H IH Hf]; cbn; [constructor|]. destruct (f x); [|exact IH]. constructor; [exact IH|].
  rewrite List.Forall_forall in *. intros y Hy. apply filter_In in Hy. apply Hf, Hy.
Qed.
Lemma strictly_nodup {A} (key : A -> bytes) l x y :
  StronglySorted (fun x y => before (key x) (key y)) l -> In x l -> In y l -> key x = key y -> x = y.
Proof.
  induction 1 as [|z l H IH Hf]; [intros []|]. rewrite List.Forall_forall in Hf. intros [->|Hx] [->|Hy] E; [reflexivity| | |auto].
  - specialize (Hf y Hy). rewrite E in Hf. destruct (before_irrefl _ Hf).
  - specialize (Hf x Hx). rewrite E in Hf. destruct (before_irrefl _ Hf).
Qed.

(** * The sites *)

Section sites.
Variable sites : list M_Types.site.
Let L := map show_site sites.
Hypothesis Hnd : List.NoDup (map fst L).

Lemma in_L s : In s sites -> In (site_name s, site_alias s) L.
Proof. intros H. apply (in_map show_site) in H. exact H. Qed.
Lemma L_in x a : In (x, a) L -> In (mk_site x a) sites.
Proof.
  intros H. apply in_map_iff in H. destruct H as ([y b] & E & H). unfold show_site in E. cbn in E. injection E as -> ->. exact H.
Qed.
Lemma L_fun x a b : In (x, a) L -> In (x, b) L -> a = b.
Proof.
  clear -Hnd. intros Ha Hb. induction L as [|[y c] l IH]; [destruct Ha|]. cbn in Hnd. apply List.NoDup_cons_iff in Hnd.
  destruct Hnd as [Hni Hn]. cbn in Ha, Hb. destruct Ha as [Ha|Ha], Hb as [Hb|Hb]; try congruence; [| |exact (IH Hn Ha Hb)];
  exfalso; apply Hni; [injection Ha as -> ->; apply (in_map fst) in Hb; exact Hb|injection Hb as -> ->; apply (in_map fst) in Ha; exact Ha].
Qed.

Lemma arranged_strict : StronglySorted (fun x y => before (site_name x) (site_name y)) (arrange_sites sites).
Proof. apply dedup_strict, sort_sorted. Qed.
Lemma arranged_in s : In s (arrange_sites sites) <->
  In s sites \/ exists x y, s = mk_site x None /\ In (y, Some x) L /\ forall a, ~ In (x, a) L.
Proof.
  set (additions := flat_map (fun s => match site_alias s with Some a => [mk_site a None] | None => [] end) sites).
  assert (forall s, In s additions <-> exists x y, s = mk_site x None /\ In (y, Some x) L) as Hadd.
  { intros w. unfold additions. rewrite in_flat_map. split.
    - intros (z & Hz & Hw). destruct (site_alias z) as [a|] eqn:Ea; [|destruct Hw]. destruct Hw as [<-|[]].
      exists a, (site_name z). split; [reflexivity|]. rewrite <- Ea. apply in_L, Hz.
    - intros (x & y & -> & H). exists (mk_site y (Some x)). split; [apply L_in, H|cbn; auto]. }
  assert (forall s, In s sites -> In s (arrange_sites sites)) as Hkeep.
  { intros w Hw. destruct (in_split _ _ Hw) as (l1 & l2 & E).
    assert (forall y, In y l1 -> site_name y <> site_name w) as Hfst.
    { intros y Hy Ek. unfold L in Hnd. rewrite E, map_map, map_app in Hnd. cbn [map] in Hnd.
      apply List.NoDup_remove_2 in Hnd. apply Hnd. apply in_app_iff. left. change (fst (show_site w)) with (site_name w). rewrite <- Ek.
      apply (in_map (fun x => fst (show_site x))) in Hy. exact Hy. }
    unfold arrange_sites. fold additions. rewrite E at 1. rewrite <- app_assoc. cbn [app].
    destruct (sort_stable site_name l1 w (l2 ++ additions) Hfst) as (a & b & -> & Ha). apply dedup_first, Ha. }
  split.
  - intros H. pose proof H as H0. unfold arrange_sites in H. apply in_dedup in H. rewrite in_sort in H. fold additions in H.
    apply in_app_iff in H. destruct H as [H|H]; [auto|]. apply Hadd in H. destruct H as (x & y & -> & H).
    destruct (in_dec (list_eq_dec byte_eq_dec) x (map fst L)) as [Hx|Hx].
    + left. apply in_map_iff in Hx. destruct Hx as ([x' a] & E & Hx). cbn in E. subst x'. apply L_in in Hx.
      assert (mk_site x None = mk_site x a) as ->; [|exact Hx].
      apply (strictly_nodup site_name (arrange_sites sites)); [apply arranged_strict|exact H0|apply Hkeep, Hx|reflexivity].
    + right. exists x, y. split; [reflexivity|]. split; [exact H|]. intros a Ha. apply Hx. apply (in_map fst) in Ha. exact Ha.
  - intros [H|(x & y & -> & H & Hno)]; [apply Hkeep, H|].
    assert (In (mk_site x None) (sort_by site_name (sites ++ additions))) as Hin.
    { apply in_sort, in_app_iff. right. apply Hadd. eauto. }
    destruct (dedup_keys site_name _ _ Hin) as (z & Hz & Ek). cbn in Ek. fold (arrange_sites sites) in Hz.
    assert (z = mk_site x None) as <-; [|exact Hz].
    pose proof Hz as Hz0. unfold arrange_sites in Hz0. apply in_dedup in Hz0. rewrite in_sort in Hz0. apply in_app_iff in Hz0.
    destruct Hz0 as [Hz0|Hz0].
    + exfalso. apply (Hno (site_alias z)). rewrite <- Ek. apply in_L, Hz0.
    + apply Hadd in Hz0. destruct Hz0 as (x' & y' & -> & _). cbn in Ek. subst x'. reflexivity.
Qed.

Lemma regular_in s : In s (regular_sites (arrange_sites sites)) <-> site_alias s = None /\ listed L (site_name s).
Proof.
  unfold regular_sites. rewrite filter_In, arranged_in. destruct s as [x [a|]]; cbn [site_alias site_name].
  - split; [intros [_ H]; discriminate H|intros [H _]; discriminate H].
  - unfold listed. split.
    + intros [[H|(x' & y & E & H & Hno)] _]; [split; [reflexivity|]; left; apply in_L in H; exact H|].
      injection E as <-. split; [reflexivity|]. right. split; [eauto|]. intros a. apply Hno.
    + intros [_ H]. split; [|reflexivity]. destruct H as [H|[(y & Hy) Hno]]; [left; apply L_in, H|].
      destruct (in_dec (list_eq_dec byte_eq_dec) x (map fst L)) as [Hx|Hx].
      * apply in_map_iff in Hx. destruct Hx as ([x' [a|]] & E & Hx); cbn in E; subst x'; [destruct (Hno a Hx)|left; apply L_in, Hx].
      * right. exists x, y. split; [reflexivity|]. split; [exact Hy|]. intros a Ha. apply Hx. apply (in_map fst) in Ha. exact Ha.
Qed.
Lemma regular_strict : StronglySorted before (map site_name (regular_sites (arrange_sites sites))).
Proof. apply (proj1 (strictly_map site_name _)). apply strictly_filter, arranged_strict. Qed.
Lemma aliased_in x y : In y (aliased (arrange_sites sites) x) <-> In (y, Some x) L.
Proof.
  unfold aliased. rewrite in_map_iff. split.
  - intros (s & <- & Hs). apply filter_In in Hs. destruct Hs as [Hs Ha]. destruct (site_alias s) as [a|] eqn:Ea; [|discriminate].
    apply bytes_eqb_eq in Ha. subst a. apply arranged_in in Hs. destruct Hs as [Hs|(x' & y' & -> & _)]; [|discriminate Ea].
    apply in_L in Hs. rewrite Ea in Hs. exact Hs.
  - intros H. exists (mk_site y (Some x)). split; [reflexivity|]. apply filter_In. cbn. rewrite bytes_eqb_refl. split; [|reflexivity].
    apply arranged_in. left. apply L_in, H.
Qed.
Lemma aliased_strict x : StronglySorted before (aliased (arrange_sites sites) x).
Proof. apply (proj1 (strictly_map site_name _)). apply strictly_filter, arranged_strict. Qed.
End sites.

(** * Calls in between *)

Lemma same_refl s : same_but_random s s.
Proof. repeat split. Qed.
Lemma same_trans a b c : same_but_random a b -> same_but_random b c -> same_but_random a c.
Proof. unfold same_but_random. intuition congruence. Qed.

Definition steady {A : Type} (m : M A) : Prop := forall s, snd (m s) = s /\ forall s', same_but_random s s' -> fst (m s') = fst (m s).
Lemma steady_reads {A : Type} (f : st -> res A) : (forall s s', same_but_random s s' -> f s' = f s) -> steady (reads f).
Proof. intros H s. split; [reflexivity|]. intros s' Hs. exact (H _ _ Hs). Qed.
Lemma steady_lift {A : Type} (r : res A) : steady (lift r).
Proof. intros s. split; reflexivity. Qed.
Lemma steady_bind {A B : Type} (m : M A) (f : A -> M B) : steady m -> (forall a, steady (f a)) -> steady (bindM m f).
Proof.
  intros H1 H2 s. unfold bindM. destruct (H1 s) as [E1 E2]. destruct (m s) as [r s1] eqn:Em. cbn [fst snd] in *. subst s1.
  split.
  - destruct r; try reflexivity. apply H2.
  - intros s' Hs. specialize (E2 s' Hs). destruct (H1 s') as [E3 _]. destruct (m s') as [r' s2]. cbn [fst snd] in *. subst r' s2.
    destruct r as [a|e|]; try reflexivity. destruct (H2 a s) as [_ E]. apply E, Hs.
Qed.
Ltac same_fields :=
  match goal with H : same_but_random ?s ?s' |- _ =>
    let H1 := fresh in let H2 := fresh in let H3 := fresh in let H4 := fresh in let H5 := fresh in
    destruct H as (H1 & H2 & H3 & H4 & H5); unfold secrets in H2; injection H2 as ? ? ? end.
Ltac steady_tac :=
  repeat first [apply steady_bind; [|intros ?] | apply steady_lift |
    apply steady_reads; intros ? ? ?; same_fields; unfold io_keys, unlocked in *; congruence].

Lemma steady_get P x n r : steady (get P x n r).
Proof. unfold get, the_hmac, the_key, the_primary. steady_tac. Qed.
Lemma steady_list P x p : steady (list_ P x p).
Proof.
  unfold list_. apply steady_reads. intros s s' H. same_fields. unfold unlocked.
  replace (s_key s') with (s_key s) by congruence. replace (s_hmac s') with (s_hmac s) by congruence.
  destruct (s_key s) as [k|]; cbn [negb]; [|reflexivity]. destruct (s_hmac s) as [h|]; cbn [unwrap bind]; [|reflexivity].
  replace (s_data s') with (s_data s) by congruence. destruct (resolve_site P (s_data s) x h k); cbn [bind]; try reflexivity.
  unfold list_passwords, io_keys. replace (s_data s') with (s_data s) by congruence. replace (s_tick s') with (s_tick s) by congruence.
  reflexivity.
Qed.

Section listing.
Context (P : prims).

Lemma get_same s s' x n r : same_but_random s s' -> fst (exec P (Get x n r) s') = fst (exec P (Get x n r) s).
Proof. intros H. cbn [exec]. unfold as_out. cbn [fst]. destruct (steady_get P x n r s) as [_ E]. rewrite (E s' H). reflexivity. Qed.
Lemma list_same s s' x p : same_but_random s s' -> fst (exec P (ListPasswords x p) s') = fst (exec P (ListPasswords x p) s).
Proof. intros H. cbn [exec]. unfold as_out. cbn [fst]. destruct (steady_list P x p s) as [_ E]. rewrite (E s' H). reflexivity. Qed.

(** * One password *)

(** The outcome of printing things: [text] was printed, calls changed at most the random generator. *)
Definition printed (t : term) (text : bytes) (t' : term) : Prop :=
  same_but_random (t_st t) (t_st t') /\ t' = show_text text (with_st (t_st t') t).
Lemma printed_trans t a t1 b t2 : printed t a t1 -> printed t1 b t2 -> printed t (a ++ b) t2.
Proof.
  intros [H1 E1] [H2 E2]. split; [exact (same_trans _ _ _ H1 H2)|]. rewrite E2, E1. unfold show_text, with_st, with_out. cbn.
  rewrite app_assoc. reflexivity.
Qed.
Lemma printed_buf t a t1 : printed t a t1 -> t_buf t1 = t_buf t.
Proof. intros [_ ->]. reflexivity. Qed.
Lemma printed_show t a : printed t a (show_text a t).
Proof. split; [apply same_refl|]. destruct t. reflexivity. Qed.
Lemma printed_nothing t : printed t [] t.
Proof. split; [apply same_refl|]. destruct t. unfold show_text, with_st, with_out. cbn. rewrite app_nil_r. reflexivity. Qed.

Lemma bind_err {A B : Type} (c : C A) (f : A -> C B) t m t' : c t = (CErr m, t') -> cbind c f t = (CErr m, t').
Proof. intros H. unfold cbind. rewrite H. reflexivity. Qed.
Lemma bind_panic {A B : Type} (c : C A) (f : A -> C B) t t' : c t = (CPanic, t') -> cbind c f t = (CPanic, t').
Proof. intros H. unfold cbind. rewrite H. reflexivity. Qed.

Lemma println_printed b t : t_buf t = [] -> exists t', println b t = (COk tt, t') /\ printed t (b ++ [newline]) t'.
Proof. intros H. rewrite println_eq by exact H. eexists. split; [reflexivity|apply printed_show]. Qed.

Lemma each_lines lines t : t_buf t = [] -> exists t', each (fun line => println (indent ++ line)) lines t = (COk tt, t') /\
  printed t (flat_map (fun line => spaced ++ line ++ [newline]) lines) t'.
Proof.
  revert t. induction lines as [|l lines IH]; intros t Hb; cbn [each flat_map].
  - eexists. split; [reflexivity|apply printed_nothing].
  - destruct (println_printed (indent ++ l) t Hb) as (t1 & E1 & P1). rewrite (bind_ok _ _ _ _ _ E1).
    destruct (IH t1) as (t2 & E2 & P2); [rewrite (printed_buf _ _ _ P1); exact Hb|].
    exists t2. split; [exact E2|]. pose proof (printed_trans _ _ _ _ _ P1 P2) as Ht.
    change indent with spaced in Ht. rewrite <- !app_assoc in Ht. rewrite <- !app_assoc. exact Ht.
Qed.

Lemma code_call p x n r t : fst (exec P (RecoveryCode x n r (sp_password p)) (t_st t)) =
    match fst (api (get_recovery_code P p) t) with COk c => OCode c | CErr (Lib e) => OErr e | _ => OPanic end /\
  same_but_random (t_st t) (t_st (snd (api (get_recovery_code P p) t))) /\
  snd (api (get_recovery_code P p) t) = with_st (t_st (snd (api (get_recovery_code P p) t))) t /\
  (forall m, fst (api (get_recovery_code P p) t) = CErr m -> exists e, m = Lib e) /\
  fst (api (get_recovery_code P p) t) <> CStuck.
Proof.
  assert (get_recovery_code P p (t_st t) = get_recovery_code P (stored_password_new x n r (sp_password p)) (t_st t)) as E
    by reflexivity.
  pose proof (exec_reading P (RecoveryCode x n r (sp_password p)) (t_st t) eq_refl) as [Hs _].
  cbn [exec] in Hs |- *. unfold as_out in *. rewrite <- E in Hs |- *. clear E. unfold api.
  destruct (get_recovery_code P p (t_st t)) as [[c|e|] s1]; cbn [fst snd] in *; (split; [reflexivity|]); (split; [exact Hs|]);
    (split; [reflexivity|]); (split; [|discriminate]); try discriminate; intros m Hm; injection Hm as <-; eauto.
Qed.

Definition show_part (sh : bool) (x : bytes) (p : password) : C unit :=
  if sh then
    let& _ := print indent in
    let& _ := flush_stdout in
    let& value := api (get P x (id_name (pass_id p)) (id_revision (pass_id p))) in
    let& _ := write_direct value in
    println []
  else cret tt.
Definition code_part (rc : bool) (p : password) : C unit :=
  match rc, p with
  | true, Stored sp =>
      let& _ := println (indent ++ bs "Recovery code:") in
      let& code := api (get_recovery_code P sp) in
      each (fun line => println (indent ++ line)) (split_on newline code)
  | _, _ => cret tt
  end.
Definition notes_part (p : password) : C unit :=
  match pass_notes p with
  | [] => cret tt
  | notes =>
      let& _ := print (indent ++ bs "Notes: ") in
      let& _ := flush_stdout in
      let& _ := write_direct notes in
      println []
  end.
Definition kind_part (p : password) : C unit :=
  match p with
  | Generated g =>
      let& _ := println (indent ++ bs "Length: " ++ write_number (gp_length g)) in
      println (indent ++ bs "Allowed characters: " ++ allowed_chars (gp_charset g))
  | Stored _ => cret tt
  end.
Lemma list_password_parts sh rc v x p : list_password P sh rc v x p =
  (let& _ := println (password_line p) in
   let& _ := show_part sh x p in
   let& _ := code_part rc p in
   if v then let& _ := notes_part p in kind_part p else cret tt).
Proof. reflexivity. Qed.

Lemma indented b t : t_buf t = [] -> ~ In newline b -> forall value, exists t1,
  (let& _ := print (indent ++ b) in
   let& _ := flush_stdout in
   let& _ := write_direct value in
   println []) t = (COk tt, t1) /\ printed t (spaced ++ b ++ value ++ [newline]) t1.
Proof.
  intros Hb Hn value.
  assert ((let& _ := print (indent ++ b) in flush_stdout) t = (COk tt, show_text (indent ++ b) t)) as E.
  { apply print_flush; [exact Hb|]. rewrite in_app_iff. intros [H|H]; [|exact (Hn H)]. vm_compute in H. intuition discriminate. }
  unfold cbind in E. unfold cbind. destruct (print (indent ++ b) t) as [[[]| | |] t0]; try discriminate E.
  rewrite E, direct_eq. rewrite println_eq by exact Hb. rewrite !show_show. eexists. split; [reflexivity|].
  change indent with spaced. rewrite <- !app_assoc. cbn [app]. apply printed_show.
Qed.

Lemma show_part_cases sh x p t : t_buf t = [] ->
  let '(r, t') := show_part sh x p t in
  match r with
  | COk _ => exists value, (sh = true -> fst (exec P (Get x (id_name (pass_id p)) (id_revision (pass_id p))) (t_st t)) = OText value) /\
      printed t (if sh then spaced ++ value ++ [newline] else []) t'
  | CErr m => exists e, m = Lib e /\ sh = true /\ fst (exec P (Get x (id_name (pass_id p)) (id_revision (pass_id p))) (t_st t)) = OErr e
  | CPanic => sh = true /\ fst (exec P (Get x (id_name (pass_id p)) (id_revision (pass_id p))) (t_st t)) = OPanic
  | CStuck => False
  end.
Proof.
  intros Hb. unfold show_part. destruct sh.
  2:{ exists []. split; [discriminate|apply printed_nothing]. }
  set (n := id_name (pass_id p)). set (r := id_revision (pass_id p)).
  assert ((let& _ := print indent in flush_stdout) t = (COk tt, show_text indent t)) as E.
  { apply print_flush; [exact Hb|]. intros H. vm_compute in H. intuition discriminate. }
  unfold cbind in E. unfold cbind. destruct (print indent t) as [[[]| | |] t0]; try discriminate E. rewrite E.
  set (t1 := show_text indent t). rewrite (api_text P (get P x n r) (Get x n r) t1) by reflexivity.
  rewrite (reading_st P (Get x n r)) by (reflexivity || exact I). change (t_st t1) with (t_st t).
  assert (match fst (exec P (Get x n r) (t_st t)) with OText _ | OErr _ | OPanic => True | _ => False end) as Hk.
  { cbn [exec]. unfold as_out. cbn [fst]. destruct (fst (get P x n r (t_st t))); exact I. }
  destruct (fst (exec P (Get x n r) (t_st t))) as [|b|value| | | | |e|]; try destruct Hk.
  - rewrite direct_eq. rewrite println_eq by exact Hb. exists value. split; [reflexivity|].
    unfold t1. rewrite !show_show. change indent with spaced. rewrite <- ?app_assoc. apply printed_show.
  - eauto.
  - auto.
Qed.

Lemma code_part_cases rc x p t : t_buf t = [] ->
  let '(r, t') := code_part rc p t in
  match r with
  | COk _ => exists code, (rc = true -> forall text, e_secret (show_password p).2 = SFixed text ->
        fst (exec P (RecoveryCode x (id_name (pass_id p)) (id_revision (pass_id p)) text) (t_st t)) = OCode code) /\
      printed t (match rc, e_secret (show_password p).2 with
                 | true, SFixed _ => spaced ++ bs "Recovery code:" ++ [newline] ++
                     flat_map (fun line => spaced ++ line ++ [newline]) (split_on newline code)
                 | _, _ => [] end) t'
  | CErr m => exists e text, m = Lib e /\ rc = true /\ e_secret (show_password p).2 = SFixed text /\
      fst (exec P (RecoveryCode x (id_name (pass_id p)) (id_revision (pass_id p)) text) (t_st t)) = OErr e
  | CPanic => exists text, rc = true /\ e_secret (show_password p).2 = SFixed text /\
      fst (exec P (RecoveryCode x (id_name (pass_id p)) (id_revision (pass_id p)) text) (t_st t)) = OPanic
  | CStuck => False
  end.
Proof.
  intros Hb. unfold code_part. destruct rc; [destruct p as [g|q]|].
  - exists []. split; [discriminate|apply printed_nothing].
  - cbn [show_password snd e_secret pass_id].
    destruct (println_printed (indent ++ bs "Recovery code:") t Hb) as (t1 & E1 & P1). rewrite (bind_ok _ _ _ _ _ E1).
    assert (t_st t1 = t_st t) as Est by (rewrite println_eq in E1 by exact Hb; injection E1 as <-; reflexivity).
    destruct (code_call q x (id_name (sp_id q)) (id_revision (sp_id q)) t1) as (Hc & Hs & Ht & He & Hns). rewrite Est in Hc, Hs.
    destruct (api (get_recovery_code P q) t1) as [[code|m| |] t2] eqn:E2; cbn [fst snd] in *.
    + rewrite (bind_ok _ _ _ _ _ E2).
      assert (printed t1 [] t2) as P2.
      { split; [rewrite Est; exact Hs|]. rewrite Ht at 1. unfold show_text, with_out, with_st. cbn. rewrite app_nil_r. reflexivity. }
      pose proof (printed_trans _ _ _ _ _ P1 P2) as P12. rewrite app_nil_r in P12.
      destruct (each_lines (split_on newline code) t2) as (t3 & E3 & P3).
      { rewrite (printed_buf _ _ _ P12). exact Hb. }
      rewrite E3. exists code. split; [intros _ text Htx; injection Htx as <-; exact Hc|].
      pose proof (printed_trans _ _ _ _ _ P12 P3) as P123. change indent with spaced in P123. rewrite <- !app_assoc in P123. exact P123.
    + rewrite (bind_err _ _ _ _ _ E2). destruct (He m eq_refl) as [e ->]. exists e, (sp_password q). auto.
    + rewrite (bind_panic _ _ _ _ E2). exists (sp_password q). auto.
    + destruct (Hns eq_refl).
  - exists []. split; [discriminate|]. apply printed_nothing.
Qed.

Lemma notes_part_prints p t : t_buf t = [] -> exists t', notes_part p t = (COk tt, t') /\
  printed t (match e_notes (show_password p).2 with [] => [] | notes => spaced ++ bs "Notes: " ++ notes ++ [newline] end) t'.
Proof.
  intros Hb. unfold notes_part. replace (pass_notes p) with (e_notes (show_password p).2) by (destruct p; reflexivity).
  destruct (e_notes (show_password p).2) as [|c notes].
  - eexists. split; [reflexivity|apply printed_nothing].
  - destruct (indented (bs "Notes: ") t Hb) with (value := c :: notes) as (t1 & E1 & P1).
    { intros H. vm_compute in H. intuition discriminate. }
    exists t1. split; [exact E1|exact P1].
Qed.
Lemma kind_part_prints p t : t_buf t = [] -> exists t', kind_part p t = (COk tt, t') /\
  printed t (match e_secret (show_password p).2 with
      | SGenerated len cs =>
          spaced ++ bs "Length: " ++ write_number len ++ [newline] ++
          spaced ++ bs "Allowed characters: " ++ charset_text cs ++ [newline]
      | SFixed _ => []
      end) t'.
Proof.
  intros Hb. destruct p as [g|q]; cbn [kind_part show_password snd e_secret].
  - destruct (println_printed (indent ++ bs "Length: " ++ write_number (gp_length g)) t Hb) as (t1 & E1 & P1).
    rewrite (bind_ok _ _ _ _ _ E1).
    destruct (println_printed (indent ++ bs "Allowed characters: " ++ allowed_chars (gp_charset g)) t1) as (t2 & E2 & P2).
    { rewrite (printed_buf _ _ _ P1). exact Hb. }
    exists t2. split; [exact E2|]. pose proof (printed_trans _ _ _ _ _ P1 P2) as P12.
    change indent with spaced in P12. rewrite <- !app_assoc in P12. exact P12.
  - eexists. split; [reflexivity|apply printed_nothing].
Qed.

Lemma line_eq p : password_line p ++ [newline] =
  let '((_, n, r), e) := show_password p in
  bs "    " ++ n ++ (match e_secret e with SGenerated _ _ => bs " (generated" | SFixed _ => bs " (stored" end) ++
  (match r with [] => [] | _ => bs ", revision: " ++ r end) ++ bs ")" ++ [newline].
Proof.
  destruct p as [[[x n r] len cs no]|[[x n r] pw no]]; unfold password_line; cbn [pass_id show_password gp_id sp_id pid_of id_site id_name id_revision e_secret];
    destruct r as [|c r]; rewrite <- ?app_assoc; reflexivity.
Qed.

Lemma list_password_cases sh rc v x p t : t_buf t = [] ->
  let '(r, t') := list_password P sh rc v x p t in
  match r with
  | COk _ => exists value code, let it := mk_shown (show_password p) value code in
      item_ok P (t_st t) sh rc x it /\ printed t (item_text sh rc v it) t'
  | CErr m => exists e, m = Lib e /\ lookup_gives P (t_st t) sh rc (OErr e) x (show_password p)
  | CPanic => lookup_gives P (t_st t) sh rc OPanic x (show_password p)
  | CStuck => False
  end.
Proof.
  intros Hb. rewrite list_password_parts.
  assert (forall o, sh = true -> fst (exec P (Get x (id_name (pass_id p)) (id_revision (pass_id p))) (t_st t)) = o -> lookup_gives P (t_st t) sh rc o x (show_password p)) as Hl1.
  { intros o Hsh H. destruct p; left; auto. }
  assert (forall o text s', rc = true -> same_but_random (t_st t) s' -> e_secret (show_password p).2 = SFixed text ->
    fst (exec P (RecoveryCode x (id_name (pass_id p)) (id_revision (pass_id p)) text) s') = o -> lookup_gives P (t_st t) sh rc o x (show_password p)) as Hl2.
  { intros o text s' H0 H1 H2 H3. destruct p as [g|q]; [discriminate H2|]. right. split; [exact H0|]. exists text, s'. auto. }
  destruct (println_printed (password_line p) t Hb) as (t1 & E1 & P1). rewrite (bind_ok _ _ _ _ _ E1).
  assert (t_buf t1 = []) as Hb1 by (rewrite (printed_buf _ _ _ P1); exact Hb).
  pose proof (show_part_cases sh x p t1 Hb1) as C2.
  rewrite (get_same _ _ _ _ _ (proj1 P1)) in C2.
  destruct (show_part sh x p t1) as [[[]|m| |] t2] eqn:E2.
  2:{ rewrite (bind_err _ _ _ _ _ E2). destruct C2 as (e & -> & Hsh & He). eauto. }
  2:{ rewrite (bind_panic _ _ _ _ E2). destruct C2. auto. }
  2:{ destruct C2. }
  rewrite (bind_ok _ _ _ _ _ E2). destruct C2 as (value & Hv & P2).
  pose proof (printed_trans _ _ _ _ _ P1 P2) as P12.
  assert (t_buf t2 = []) as Hb2 by (rewrite (printed_buf _ _ _ P12); exact Hb).
  pose proof (code_part_cases rc x p t2 Hb2) as C3.
  destruct (code_part rc p t2) as [[[]|m| |] t3] eqn:E3.
  2:{ rewrite (bind_err _ _ _ _ _ E3). destruct C3 as (e & text & -> & Hrc & Hs & He). exists e. split; [reflexivity|].
      exact (Hl2 _ _ _ Hrc (proj1 P12) Hs He). }
  2:{ rewrite (bind_panic _ _ _ _ E3). destruct C3 as (text & Hrc & Hs & He). exact (Hl2 _ _ _ Hrc (proj1 P12) Hs He). }
  2:{ destruct C3. }
  rewrite (bind_ok _ _ _ _ _ E3). destruct C3 as (code & Hc & P3).
  pose proof (printed_trans _ _ _ _ _ P12 P3) as P123.
  assert (t_buf t3 = []) as Hb3 by (rewrite (printed_buf _ _ _ P123); exact Hb).
  assert (item_ok P (t_st t) sh rc x (mk_shown (show_password p) value code)) as Hok.
  { unfold item_ok. cbn [sh_item sh_value sh_code].
    assert (forall text, rc = true -> e_secret (show_password p).2 = SFixed text -> exists s', same_but_random (t_st t) s' /\
      fst (exec P (RecoveryCode x (id_name (pass_id p)) (id_revision (pass_id p)) text) s') = OCode code) as Hcode.
    { intros text Hrc Hs. exists (t_st t2). split; [exact (proj1 P12)|exact (Hc Hrc text Hs)]. }
    destruct p as [g|q]; cbn [show_password pass_id pid_of snd] in *; (split; [exact Hv|intros Hrc text Hs; exact (Hcode text Hrc Hs)]). }
  rewrite line_eq in P123.
  destruct v.
  - destruct (notes_part_prints p t3 Hb3) as (t4 & E4 & P4). rewrite (bind_ok _ _ _ _ _ E4).
    destruct (kind_part_prints p t4) as (t5 & E5 & P5); [rewrite (printed_buf _ _ _ P4); exact Hb3|]. rewrite E5.
    exists value, code. split; [exact Hok|].
    pose proof (printed_trans _ _ _ _ _ P123 (printed_trans _ _ _ _ _ P4 P5)) as Hall.
    unfold item_text. cbn [sh_item sh_value sh_code]. destruct (show_password p) as [[[x0 n] r] e]; cbn [snd] in Hall.
    rewrite <- !app_assoc in Hall. exact Hall.
  - exists value, code. split; [exact Hok|].
    unfold item_text. cbn [sh_item sh_value sh_code]. destruct (show_password p) as [[[x0 n] r] e]; cbn [snd] in P123.
    cbn [cret]. rewrite <- !app_assoc in P123. rewrite app_nil_r. exact P123.
Qed.

(** * Reading only *)

Definition calm {A : Type} (c : C A) : Prop := forall t, same_but_random (t_st t) (t_st (snd (c t))).
Lemma calm_bind {A B : Type} (c : C A) (f : A -> C B) : calm c -> (forall a, calm (f a)) -> calm (cbind c f).
Proof.
  intros H1 H2 t. unfold cbind. specialize (H1 t). destruct (c t) as [[a|m| |] t1]; cbn [snd] in *; try exact H1.
  exact (same_trans _ _ _ H1 (H2 a t1)).
Qed.
Lemma calm_ret {A : Type} (a : A) : calm (cret a).
Proof. intros t. apply same_refl. Qed.
Lemma calm_print b : calm (print b).
Proof. intros t. unfold print. destruct (last_line _). apply same_refl. Qed.
Lemma calm_println b : calm (println b).
Proof. apply calm_print. Qed.
Lemma calm_flush : calm flush_stdout.
Proof. intros t. apply same_refl. Qed.
Lemma calm_direct b : calm (write_direct b).
Proof. intros t. apply same_refl. Qed.
Lemma calm_api {A : Type} (m : M A) : (forall s, same_but_random s (snd (m s))) -> calm (api m).
Proof. intros H t. unfold api. specialize (H (t_st t)). destruct (m (t_st t)) as [[a|e|] s]; exact H. Qed.
Lemma calm_get x n r : calm (api (get P x n r)).
Proof. apply calm_api. intros s. destruct (steady_get P x n r s) as [-> _]. apply same_refl. Qed.
Lemma calm_list x n : calm (api (list_ P x n)).
Proof. apply calm_api. intros s. destruct (steady_list P x n s) as [-> _]. apply same_refl. Qed.
Lemma calm_code p : calm (api (get_recovery_code P p)).
Proof. intros t. destruct (code_call p [] [] [] t) as (_ & H & _). exact H. Qed.
Lemma calm_each {A : Type} (f : A -> C unit) l : (forall a, calm (f a)) -> calm (each f l).
Proof. intros H. induction l as [|a l IH]; cbn [each]; [apply calm_ret|]. apply calm_bind; [apply H|intros _; exact IH]. Qed.
Ltac calm_tac := repeat first [apply calm_bind; [|intros ?] | apply calm_ret | apply calm_println | apply calm_print | apply calm_flush |
  apply calm_direct | apply calm_get | apply calm_list | apply calm_code | apply calm_each; intros ?].
Lemma calm_password sh rc v x p : calm (list_password P sh rc v x p).
Proof.
  unfold list_password. apply calm_bind; [calm_tac|intros _]. apply calm_bind; [destruct sh; calm_tac|intros _].
  apply calm_bind; [destruct rc, p; calm_tac|intros _]. destruct v; [|calm_tac].
  apply calm_bind; [destruct (pass_notes p); calm_tac|intros _]. destruct p; calm_tac.
Qed.
Lemma calm_loop name sh rc v all rest : calm (list_loop P name sh rc v all rest).
Proof.
  induction rest as [|s rest IH]; cbn [list_loop]; [apply calm_ret|].
  apply calm_bind; [calm_tac|]. intros [|p l].
  - apply calm_bind; [exact IH|]. intros []. calm_tac.
  - unfold heading. apply calm_bind; [calm_tac; destruct v, (aliased all (site_name s)); calm_tac|intros _].
    apply calm_bind; [apply calm_each; intros q; apply calm_password|intros _].
    apply calm_bind; [exact IH|]. intros []. calm_tac.
Qed.

(** * The passwords of a site *)

Lemma item_ok_same s s' sh rc x it : same_but_random s s' -> item_ok P s' sh rc x it -> item_ok P s sh rc x it.
Proof.
  intros H. unfold item_ok. destruct (sh_item it) as [[[y n] r] e]. rewrite (get_same _ _ _ _ _ H). intros [H1 H2]. split; [exact H1|].
  intros Hr text Ht. destruct (H2 Hr text Ht) as (s1 & Hs1 & E). exists s1. split; [exact (same_trans _ _ _ H Hs1)|exact E].
Qed.
Lemma lookup_same s s' sh rc o x it : same_but_random s s' -> lookup_gives P s' sh rc o x it -> lookup_gives P s sh rc o x it.
Proof.
  intros H. unfold lookup_gives. destruct it as [[[y n] r] e]. rewrite (get_same _ _ _ _ _ H). intros [H1|(Hrc & text & s1 & H1 & H2 & H3)]; [auto|].
  right. split; [exact Hrc|]. exists text, s1. split; [exact H1|]. split; [exact (same_trans _ _ _ H H2)|exact H3].
Qed.

Lemma each_password sh rc v x l : forall t s0, t_buf t = [] -> same_but_random s0 (t_st t) ->
  let '(r, t') := each (list_password P sh rc v x) l t in
  match r with
  | COk _ => exists items, map sh_item items = map show_password l /\ Forall (item_ok P s0 sh rc x) items /\
      printed t (flat_map (item_text sh rc v) items) t'
  | CErr m => exists e p, m = Lib e /\ In p l /\ lookup_gives P s0 sh rc (OErr e) x (show_password p)
  | CPanic => exists p, In p l /\ lookup_gives P s0 sh rc OPanic x (show_password p)
  | CStuck => False
  end.
Proof.
  induction l as [|p l IH]; intros t s0 Hb Hs; cbn [each].
  - exists []. split; [reflexivity|]. split; [constructor|apply printed_nothing].
  - pose proof (list_password_cases sh rc v x p t Hb) as C1.
    destruct (list_password P sh rc v x p t) as [[[]|m| |] t1] eqn:E1.
    + destruct C1 as (value & code & Hok & P1). rewrite (bind_ok _ _ _ _ _ E1).
      specialize (IH t1 s0). rewrite (printed_buf _ _ _ P1) in IH. specialize (IH Hb (same_trans _ _ _ Hs (proj1 P1))).
      destruct (each (list_password P sh rc v x) l t1) as [[[]|m| |] t2].
      * destruct IH as (items & Hi & Hf & P2). exists (mk_shown (show_password p) value code :: items).
        cbn [map sh_item flat_map]. split; [rewrite Hi; reflexivity|]. split; [constructor; [exact (item_ok_same _ _ _ _ _ _ Hs Hok)|exact Hf]|].
        exact (printed_trans _ _ _ _ _ P1 P2).
      * destruct IH as (e & q & -> & Hq & Hl). exists e, q. cbn. auto.
      * destruct IH as (q & Hq & Hl). exists q. cbn. auto.
      * destruct IH.
    + rewrite (bind_err _ _ _ _ _ E1). destruct C1 as (e & -> & Hl). exists e, p. cbn. split; [reflexivity|]. split; [auto|].
      exact (lookup_same _ _ _ _ _ _ _ Hs Hl).
    + rewrite (bind_panic _ _ _ _ E1). exists p. cbn. split; [auto|]. exact (lookup_same _ _ _ _ _ _ _ Hs C1).
    + destruct C1.
Qed.

Lemma password_key_eq p : password_key p = order_key (show_password p).1.
Proof. destruct p as [[[x n r] ? ? ?]|[[x n r] ? ?]]; reflexivity. Qed.

Lemma items_sorted l items : map sh_item items = map show_password (sort_by password_key l) -> StronglySorted not_after items.
Proof.
  pose proof (sort_sorted password_key l) as H. revert items. induction H as [|p m H IH Hf]; intros items E.
  - destruct items; [constructor|discriminate].
  - destruct items as [|it items]; [discriminate|]. cbn [map] in E. injection E as E1 E2. constructor; [apply IH; exact E2|].
    apply List.Forall_forall. intros y Hy. assert (In (sh_item y) (map show_password m)) as Hm by (rewrite <- E2; apply in_map; exact Hy).
    apply in_map_iff in Hm. destruct Hm as (q & Eq & Hq). rewrite List.Forall_forall in Hf. specialize (Hf q Hq).
    unfold upto in Hf. rewrite !password_key_eq in Hf. unfold not_after. rewrite E1, <- Eq. exact Hf.
Qed.

Lemma heading_prints v x al t : t_buf t = [] -> exists t', heading v x al t = (COk tt, t') /\
  printed t (bs "Passwords for " ++ x ++ bs ":" ++ [newline] ++
    (match v, al with
     | true, _ :: _ => bs "    Aliases: " ++ join (bs "," ++ [newline] ++ bs "             ") al ++ [newline]
     | _, _ => [] end)) t'.
Proof.
  intros Hb. unfold heading.
  destruct (println_printed (bs "Passwords for " ++ x ++ bs ":") t Hb) as (t1 & E1 & P1). rewrite (bind_ok _ _ _ _ _ E1).
  assert (t_buf t1 = []) as Hb1 by (rewrite (printed_buf _ _ _ P1); exact Hb).
  rewrite <- !app_assoc in P1. destruct v, al as [|a al]; try (exists t1; split; [reflexivity|]; rewrite app_nil_r; exact P1).
  destruct (println_printed (bs "    Aliases: " ++ join (bs "," ++ [newline] ++ bs "             ") (a :: al)) t1 Hb1) as (t2 & E2 & P2).
  exists t2. split; [exact E2|]. pose proof (printed_trans _ _ _ _ _ P1 P2) as P12. rewrite <- !app_assoc in P12. exact P12.
Qed.

(** * The sites *)

(** A group as far as it does not concern the order of the sites. *)
Definition one_ok (s : st) (all : list M_Types.site) (name : bytes) (sh rc : bool) (g : group) : Prop :=
  gr_aliases g = aliased all (gr_site g) /\ gr_items g <> [] /\
  (exists l, fst (exec P (ListPasswords (gr_site g) name) s) = OPasswords l /\ map sh_item (gr_items g) ≡ₚ l) /\
  StronglySorted not_after (gr_items g) /\ Forall (item_ok P s sh rc (gr_site g)) (gr_items g).
Definition groups_text (sh rc v : bool) (groups : list group) : bytes :=
  flat_map (fun g => group_text sh rc v (gr_site g) (gr_aliases g) (gr_items g)) groups.

Lemma api_list x n t : api (list_ P x n) t =
  match fst (list_ P x n (t_st t)) with Ok l => (COk l, t) | Err e => (CErr (Lib e), t) | Panic => (CPanic, t) end.
Proof.
  unfold api. destruct (steady_list P x n (t_st t)) as [E _]. destruct (list_ P x n (t_st t)) as [r s1]. cbn [fst snd] in *. subst s1.
  destruct t, r; reflexivity.
Qed.
Lemma exec_list x n s : fst (exec P (ListPasswords x n) s) =
  match fst (list_ P x n s) with Ok l => OPasswords (map show_password l) | Err e => OErr e | Panic => OPanic end.
Proof. cbn [exec]. unfold as_out. cbn [fst]. destruct (fst (list_ P x n s)); reflexivity. Qed.

Lemma list_loop_cases name sh rc v all rest : forall t s0, t_buf t = [] -> same_but_random s0 (t_st t) ->
  let '(r, t') := list_loop P name sh rc v all rest t in
  match r with
  | COk (found, empties) => exists groups,
      found = (match groups with [] => false | _ => true end) /\
      printed t (groups_text sh rc v groups) t' /\
      Forall (one_ok s0 all name sh rc) groups /\
      map gr_site groups `sublist_of` map site_name rest /\
      empties `sublist_of` map site_name rest /\
      (forall x, In x (map site_name rest) -> In x (map gr_site groups) \/ no_passwords P s0 name x) /\
      (forall x, In x empties <-> name = bs "*" /\ In x (map site_name rest) /\ no_passwords P s0 name x)
  | CErr m => exists e x, m = Lib e /\ In x (map site_name rest) /\
      (fst (exec P (ListPasswords x name) s0) = OErr e \/
       exists l it, fst (exec P (ListPasswords x name) s0) = OPasswords l /\ In it l /\ lookup_gives P s0 sh rc (OErr e) x it)
  | CPanic => exists x, In x (map site_name rest) /\
      (fst (exec P (ListPasswords x name) s0) = OPanic \/
       exists l it, fst (exec P (ListPasswords x name) s0) = OPasswords l /\ In it l /\ lookup_gives P s0 sh rc OPanic x it)
  | CStuck => False
  end.
Proof.
  induction rest as [|s rest IH]; intros t s0 Hb Hs; cbn [list_loop map].
  - exists []. split; [reflexivity|]. split; [apply printed_nothing|]. split; [constructor|]. split; [constructor|]. split; [constructor|].
    split; [intros x []|]. intros x. split; [intros []|intros (_ & [] & _)].
  - set (x := site_name s).
    assert (fst (exec P (ListPasswords x name) s0) = match fst (list_ P x name (t_st t)) with
       Ok l => OPasswords (map show_password l) | Err e => OErr e | Panic => OPanic end) as Ex.
    { rewrite <- (list_same _ _ _ _ Hs). apply exec_list. }
    pose proof (api_list x name t) as Ea.
    destruct (fst (list_ P x name (t_st t))) as [l|e|].
    2:{ rewrite (bind_err _ _ _ _ _ Ea). exists e, x. split; [reflexivity|]. split; [left; reflexivity|left; exact Ex]. }
    2:{ rewrite (bind_panic _ _ _ _ Ea). exists x. split; [left; reflexivity|left; exact Ex]. }
    rewrite (bind_ok _ _ _ _ _ Ea). destruct l as [|p l].
    + specialize (IH t s0 Hb Hs). destruct (list_loop P name sh rc v all rest t) as [[[found empties]|m| |] t1] eqn:E1.
      * rewrite (bind_ok _ _ _ _ _ E1). destruct IH as (groups & Hf & P1 & Hg & Hsub & Hse & Hall & Hem).
        exists groups. split; [exact Hf|]. split; [exact P1|]. split; [exact Hg|]. split; [constructor; exact Hsub|].
        assert (no_passwords P s0 name x) as Hnone by exact Ex.
        assert (forall b, match b with true => x :: empties | false => empties end `sublist_of` x :: map site_name rest) as Hsub2.
        { intros []; constructor; exact Hse. }
        split; [exact (Hsub2 (bytes_eqb name (bs "*")))|]. split.
        -- intros y [<-|Hy]; [auto|apply Hall, Hy].
        -- intros y. destruct (bytes_eqb name (bs "*")) eqn:En.
           ++ apply bytes_eqb_eq in En. cbn [In]. rewrite Hem. split.
              ** intros [<-|(? & ? & ?)]; auto.
              ** intros (_ & [<-|H] & ?); auto.
           ++ rewrite Hem. split; [intros (? & ? & ?); cbn; auto|]. intros (-> & _). rewrite bytes_eqb_refl in En. discriminate.
      * rewrite (bind_err _ _ _ _ _ E1). destruct IH as (e & y & -> & Hy & H). exists e, y. cbn. auto.
      * rewrite (bind_panic _ _ _ _ E1). destruct IH as (y & Hy & H). exists y. cbn. auto.
      * destruct IH.
    + destruct (heading_prints v x (aliased all x) t Hb) as (t1 & E1 & P1). rewrite (bind_ok _ _ _ _ _ E1).
      set (ps := p :: l) in *.
      assert (t_buf t1 = []) as Hb1 by (rewrite (printed_buf _ _ _ P1); exact Hb).
      assert (same_but_random s0 (t_st t1)) as Hs1 by exact (same_trans _ _ _ Hs (proj1 P1)).
      pose proof (each_password sh rc v x (sort_by password_key ps) t1 s0 Hb1 Hs1) as C2.
      assert (forall q, In q (sort_by password_key ps) -> In (show_password q) (map show_password ps)) as Hin.
      { intros q Hq. apply in_map. apply in_sort in Hq. exact Hq. }
      destruct (each (list_password P sh rc v x) (sort_by password_key ps) t1) as [[[]|m| |] t2] eqn:E2.
      2:{ rewrite (bind_err _ _ _ _ _ E2). destruct C2 as (e & q & -> & Hq & H). exists e, x. split; [reflexivity|]. split; [cbn; auto|].
          right. eauto 10. }
      2:{ rewrite (bind_panic _ _ _ _ E2). destruct C2 as (q & Hq & H). exists x. split; [cbn; auto|]. right. eauto 10. }
      2:{ destruct C2. }
      rewrite (bind_ok _ _ _ _ _ E2). destruct C2 as (items & Hi & Hok & P2).
      assert (t_buf t2 = []) as Hb2 by (rewrite (printed_buf _ _ _ P2); exact Hb1).
      specialize (IH t2 s0 Hb2 (same_trans _ _ _ Hs1 (proj1 P2))).
      destruct (list_loop P name sh rc v all rest t2) as [[[found empties]|m| |] t3] eqn:E3.
      2:{ rewrite (bind_err _ _ _ _ _ E3). destruct IH as (e & y & -> & Hy & H). exists e, y. cbn. auto. }
      2:{ rewrite (bind_panic _ _ _ _ E3). destruct IH as (y & Hy & H). exists y. cbn. auto. }
      2:{ destruct IH. }
      rewrite (bind_ok _ _ _ _ _ E3). destruct IH as (groups & Hf & P3 & Hg & Hsub & Hse & Hall & Hem).
      exists (mk_group x (aliased all x) items :: groups). split; [reflexivity|]. split.
      { cbn [groups_text flat_map gr_site gr_aliases gr_items]. unfold group_text.
        pose proof (printed_trans _ _ _ _ _ (printed_trans _ _ _ _ _ P1 P2) P3) as Hp. rewrite <- !app_assoc in Hp. rewrite <- !app_assoc. exact Hp. }
      split.
      { constructor; [|exact Hg]. unfold one_ok. cbn [gr_site gr_aliases gr_items]. split; [reflexivity|]. split.
        { intros ->. change (map sh_item []) with (@nil (pid * entry)) in Hi. symmetry in Hi. apply List.map_eq_nil in Hi. pose proof (sort_perm password_key ps) as Hp. rewrite Hi in Hp.
          apply Permutation_nil in Hp. discriminate Hp. }
        split; [exists (map show_password ps); split; [exact Ex|]; rewrite Hi; apply Permutation_map, sort_perm|].
        split; [exact (items_sorted _ _ Hi)|exact Hok]. }
      assert (~ no_passwords P s0 name x) as Hsome by (unfold no_passwords; rewrite Ex; discriminate).
      split; [cbn [map gr_site]; constructor; exact Hsub|]. split; [constructor; exact Hse|]. split.
      { intros y [<-|Hy]; [cbn; auto|]. destruct (Hall y Hy); cbn; auto. }
      intros y. rewrite Hem. split; [intros (? & ? & ?); cbn; auto|]. intros (? & [<-|H] & ?); [contradiction|auto].
Qed.

Lemma sorted_sublist {A : Type} (R : A -> A -> Prop) (l k : list A) : l `sublist_of` k -> StronglySorted R k -> StronglySorted R l.
Proof.
  induction 1 as [|x l k H IH|x l k H IH]; intros Hs; [constructor| |]; inversion Hs as [|? ? Hs' Hf]; subst; [|auto].
  constructor; [auto|]. rewrite List.Forall_forall in *. intros y Hy. apply Hf. clear -H Hy.
  induction H as [|z l k H IH|z l k H IH]; [destruct Hy| |right; auto]. destruct Hy as [->|Hy]; [left; reflexivity|right; auto].
Qed.
Lemma sublist_in {A : Type} (l k : list A) x : l `sublist_of` k -> In x l -> In x k.
Proof. induction 1 as [|z l k H IH|z l k H IH]; intros Hy; [destruct Hy| |right; auto]. destruct Hy as [->|Hy]; [left; reflexivity|right; auto]. Qed.

(** * The command *)

Lemma list_cmd_cases sp domain name sh rc v t : ready t ->
  match fst (exec P (ListSites domain) (t_st t)) with
  | OSites L => List.NoDup (map fst L) ->
      let '(r, t') := list_cmd P sp domain name sh rc v t in
      match r with
      | COk _ => exists groups empties s1,
          Forall (group_ok P (t_st t) L name sh rc) groups /\ StronglySorted before (map gr_site groups) /\
          (forall x, listed L x -> In x (map gr_site groups) \/ no_passwords P (t_st t) name x) /\
          unused P (t_st t) L name empties /\
          same_but_random (t_st t) s1 /\ exec P (RemoveSites empties) s1 = (ODone, t_st t') /\
          t' = show_text (list_text sh rc v groups) (with_st (t_st t') t)
      | CErr m => exists e, m = Lib e /\
          ((same_but_random (t_st t) (t_st t') /\ list_fault P (t_st t) L name sh rc (OErr e)) \/
           exists empties s1, unused P (t_st t) L name empties /\
             same_but_random (t_st t) s1 /\ exec P (RemoveSites empties) s1 = (OErr e, t_st t'))
      | CPanic =>
          (same_but_random (t_st t) (t_st t') /\ list_fault P (t_st t) L name sh rc OPanic) \/
           exists empties s1, unused P (t_st t) L name empties /\
             same_but_random (t_st t) s1 /\ exec P (RemoveSites empties) s1 = (OPanic, t_st t')
      | CStuck => False
      end
  | OErr e => list_cmd P sp domain name sh rc v t = (CErr (Lib e), t)
  | OPanic => list_cmd P sp domain name sh rc v t = (CPanic, t)
  | _ => False
  end.
Proof.
  intros Hr. assert (t_buf t = []) as Hb by apply Hr. unfold list_cmd. rewrite bind_ready by exact Hr.
  assert (api (list_sites P domain) t = match fst (list_sites P domain (t_st t)) with
    Ok l => (COk l, t) | Err e => (CErr (Lib e), t) | Panic => (CPanic, t) end) as Ea.
  { unfold api. assert (snd (list_sites P domain (t_st t)) = t_st t) as Es by reflexivity.
    destruct (list_sites P domain (t_st t)) as [r s1]. cbn [fst snd] in *. subst s1. destruct t, r; reflexivity. }
  replace (fst (exec P (ListSites domain) (t_st t))) with
    (match fst (list_sites P domain (t_st t)) with Ok l => OSites (map show_site l) | Err e => OErr e | Panic => OPanic end)
    by (cbn [exec]; unfold as_out; cbn [fst]; destruct (fst (list_sites P domain (t_st t))); reflexivity).
  destruct (fst (list_sites P domain (t_st t))) as [sites|e|].
  2:{ rewrite (bind_err _ _ _ _ _ Ea). reflexivity. }
  2:{ rewrite (bind_panic _ _ _ _ Ea). reflexivity. }
  intros Hnd. rewrite (bind_ok _ _ _ _ _ Ea). cbv zeta.
  set (all := arrange_sites sites).
  pose proof (list_loop_cases name sh rc v all (regular_sites all) t (t_st t) Hb (same_refl _)) as C1.
  pose proof (calm_loop name sh rc v all (regular_sites all) t) as Hcalm.
  assert (forall x, In x (map site_name (regular_sites all)) <-> listed (map show_site sites) x) as Hreg.
  { intros x. rewrite in_map_iff. split.
    - intros (s & <- & Hs). apply (regular_in sites Hnd) in Hs. apply Hs.
    - intros Hx. exists (mk_site x None). split; [reflexivity|]. apply (regular_in sites Hnd). auto. }
  destruct (list_loop P name sh rc v all (regular_sites all) t) as [[[found empties]|m| |] t1] eqn:E1.
  2:{ rewrite (bind_err _ _ _ _ _ E1). destruct C1 as (e & x & -> & Hx & H). exists e. split; [reflexivity|]. left. split; [exact Hcalm|].
      exists x. split; [apply Hreg, Hx|exact H]. }
  2:{ rewrite (bind_panic _ _ _ _ E1). destruct C1 as (x & Hx & H). left. split; [exact Hcalm|]. exists x. split; [apply Hreg, Hx|exact H]. }
  2:{ destruct C1. }
  rewrite (bind_ok _ _ _ _ _ E1). destruct C1 as (groups & Hf & P1 & Hg & Hsub & Hse & Hall & Hem).
  assert (unused P (t_st t) (map show_site sites) name empties) as Hun.
  { split; [exact (sorted_sublist _ _ _ Hse (regular_strict sites))|]. intros x. rewrite Hem, Hreg. reflexivity. }
  assert (Forall (group_ok P (t_st t) (map show_site sites) name sh rc) groups) as Hgok.
  { apply List.Forall_forall. intros g Hin. rewrite List.Forall_forall in Hg. destruct (Hg g Hin) as (H1 & H2 & H3 & H4 & H5).
    constructor; try assumption.
    - apply Hreg. apply (sublist_in _ _ _ Hsub). apply in_map, Hin.
    - intros y. rewrite H1. apply (aliased_in sites Hnd).
    - rewrite H1. apply aliased_strict. }
  assert (api (remove_sites P empties) t1 = match exec P (RemoveSites empties) (t_st t1) with
     | (ODone, s) => (COk tt, with_st s t1) | (OErr e, s) => (CErr (Lib e), with_st s t1) | (_, s) => (CPanic, with_st s t1) end) as Er.
  { unfold api. cbn [exec]. unfold as_out. destruct (remove_sites P empties (t_st t1)) as [[[]|e|] s]; reflexivity. }
  assert (match fst (exec P (RemoveSites empties) (t_st t1)) with ODone | OErr _ | OPanic => True | _ => False end) as Hk.
  { cbn [exec]. unfold as_out. destruct (remove_sites P empties (t_st t1)) as [[[]|e|] s]; exact I. }
  pose proof (proj1 P1) as Hs1.
  destruct (exec P (RemoveSites empties) (t_st t1)) as [o s2] eqn:Ex; cbn [fst] in Hk. destruct o; try destruct Hk.
  - rewrite (bind_ok _ _ _ _ _ Er).
    assert (exists t2, (if found then cret tt else println (bs "No matching passwords found.")) (with_st s2 t1) = (COk tt, t2) /\
      t_st t2 = s2 /\ t2 = show_text (list_text sh rc v groups) (with_st s2 t)) as (t2 & E2 & E3 & E4).
    { destruct P1 as [_ P1]. subst found. destruct groups as [|g groups].
      - rewrite println_eq by (rewrite P1; exact Hb). eexists. split; [reflexivity|]. split; [reflexivity|].
        rewrite P1. unfold show_text, with_st, with_out. cbn. rewrite app_nil_r. reflexivity.
      - eexists. split; [reflexivity|]. split; [reflexivity|]. rewrite P1. unfold show_text, with_st, with_out, list_text, groups_text. reflexivity. }
    rewrite E2. exists groups, empties, (t_st t1). rewrite E3.
    split; [exact Hgok|]. split; [exact (sorted_sublist _ _ _ Hsub (regular_strict sites))|].
    split; [intros x Hx; apply Hall, Hreg, Hx|]. split; [exact Hun|]. split; [exact Hs1|]. split; [exact Ex|exact E4].
  - rewrite (bind_err _ _ _ _ _ Er). eexists. split; [reflexivity|]. right. exists empties, (t_st t1). auto.
  - rewrite (bind_panic _ _ _ _ Er). right. exists empties, (t_st t1). auto.
Qed.
End listing.
