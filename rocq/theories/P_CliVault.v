(** The command line program: listing passwords, given what is stored. *)
From Coq Require Import Permutation Sorted ZArith ZifyBool ZifyNat ZifyN.
From stdpp Require Import gmap.
From Verif Require Import M_Base M_Base64 M_Utf8 M_Prims M_Types M_Crypto M_Recovery M_Json M_Serde M_Storage M_Passwords S_Serde
  S_Vault M_History S_Api S_History P_Base P_Policy P_Utf8 P_Json P_Serde P_Storage P_Api P_Calls P_Vault P_History P_Sound M_Cli S_Cli P_CliBase
  P_CliCalls P_CliUnlock P_CliCommands P_CliList M_Codec S_Recovery P_Format.

(** * Revisions are stored in a normal form *)

Definition revs (v : vault) : Prop := forall i e, v_pw v !! i = Some e -> rev_of i.2 = i.2.
Definition all_revs (m : option (bytes * vault)) : Prop := forall q v, m = Some (q, v) -> revs v.

Lemma rev_of_idem r : rev_of (rev_of r) = rev_of r.
Proof. unfold rev_of. destruct (bytes_eqb r (bs "1")) eqn:E; [reflexivity|rewrite E; reflexivity]. Qed.
Lemma revs_empty : revs empty_vault.
Proof. intros i e. unfold empty_vault. cbn. rewrite lookup_empty. discriminate. Qed.
Lemma revs_sites m v : revs v -> revs (mk_vault m (v_pw v)).
Proof. intros H. exact H. Qed.
Lemma revs_insert m v x n r e : revs v -> revs (mk_vault m (<[(x, n, rev_of r) := e]> (v_pw v))).
Proof.
  intros H i e'. cbn. intros Hi. destruct (decide ((x, n, rev_of r) = i)) as [<-|Hn]; [apply rev_of_idem|].
  rewrite lookup_insert_ne in Hi by exact Hn. eapply H, Hi.
Qed.
Lemma revs_delete m v i : revs v -> revs (mk_vault m (delete i (v_pw v))).
Proof. intros H j e. cbn. intros Hj. apply lookup_delete_Some in Hj. eapply H, Hj. Qed.

Lemma vstep_revs P o wr w : all_revs (w_mem w) /\ all_revs (w_file w) ->
  all_revs (w_mem (fst (vstep P wr w o))) /\ all_revs (w_file (fst (vstep P wr w o))).
Proof.
  intros [Hm Hf]. destruct w as [m op f]. cbn [w_mem w_file] in *.
  assert (forall p v, revs v -> all_revs (Some (p, v))) as Hk by (intros p v H q v' [= <- <-]; exact H).
  assert (all_revs None) as Hn by (intros q v [=]).
  assert (forall p v wr', revs v -> let w' := fst (commit wr' (mk_world m op f) p v) in all_revs (w_mem w') /\ all_revs (w_file w')) as Hc.
  { intros p v wr' H. destruct wr'; cbn; auto. }
  destruct m as [[q v]|].
  2:{ destruct op; destruct o; cbn [vstep w_mem w_open w_file fst snd]; auto.
      all: try (pose proof (Hc pp empty_vault wr revs_empty) as Hc'; cbv zeta in Hc'; destruct (commit _ _ _ _) as [w' r]; exact Hc').
      all: destruct l; cbn; auto. }
  assert (revs v) as Hv by (exact (Hm q v eq_refl)).
  destruct op; destruct o; cbn [vstep w_mem w_open w_file fst snd]; auto;
    try (pose proof (Hc pp empty_vault wr revs_empty) as Hc'; cbv zeta in Hc'; destruct (commit _ _ _ _) as [w' r]; exact Hc');
    repeat first [ apply Hc; first [exact Hv | apply revs_insert; exact Hv | apply revs_delete; exact Hv | apply revs_sites; exact Hv]
      | match goal with |- context [match ?x with _ => _ end] =>
      lazymatch x with context [commit] => fail | _ => destruct x eqn:? end; cbn [w_mem w_open w_file fst snd]; auto end ].
Qed.

(** Recovery codes come in the usual layout. *)
Lemma code_layout P x n r text s code : fst (exec P (RecoveryCode x n r text) s) = OCode code -> code = layout (significant code).
Proof.
  intros H. cbn [exec] in H. unfold as_out, get_recovery_code, bindM, reads in H.
  assert (forall rnd pw salt key, generate P rnd pw salt key = Ok code -> code = layout (significant code)) as Hg.
  { intros rnd pw salt key Hc. unfold generate in Hc. destruct (negb _); [discriminate|]. destruct (encrypt_data _ _ _ _) as [en| |]; cbn [bind] in Hc; [|discriminate..].
    destruct (split_once _ _) as [[a b]|]; cbn [ok_or bind] in Hc; [|discriminate].
    destruct (b64_decode a); cbn [ok_or bind] in Hc; [|discriminate]. destruct (negb _); [discriminate|].
    destruct (b64_decode b); cbn [ok_or bind] in Hc; [|discriminate]. destruct (negb _); [discriminate|].
    destruct (checksum_loop _ _ _ _ _) as [o| |]; cbn [bind] in Hc; [|discriminate..].
    destruct (base32_encode o) as [enc| |]; cbn [bind] in Hc; [|discriminate..]. injection Hc as <-.
    rewrite significant_format. apply format_code_true. }
  destruct (get_salt (s_data s)) as [salt|e|]; [|discriminate H..]. destruct (the_key s) as [[key|e|] s2]; [|discriminate H..].
  cbn [fst snd] in H. destruct (generate P _ _ salt key) eqn:E; try discriminate H. injection H as <-. exact (Hg _ _ _ _ E).
Qed.

Section vault.
Context (P : prims) (sc : scope) (l : list op) (s0 : st) (So : sound P sc l s0).
Notation HP := (so_prims _ _ _ _ So).
Notation Holds := (holds P sc l s0).
Notation s1 := (snd (run P l s0)).

Lemma holds_same s s' pp v : same_but_random s s' -> Holds s pp v -> Holds s' pp v.
Proof.
  intros (H1 & H2 & H3 & _) [f [M F]]. unfold secrets in H2. injection H2 as K1 K2 K3. exists f. split.
  - unfold mem_rep, secrets_rep in *. cbn in *. rewrite H1, K1, K2, K3. exact M.
  - rewrite H3. exact F.
Qed.

Lemma vrun_revs wrs : all_revs (w_mem (fst (vrun P wrs nothing l))) /\ all_revs (w_file (fst (vrun P wrs nothing l))).
Proof.
  apply (vrun_inv P (fun w => all_revs (w_mem w) /\ all_revs (w_file w))).
  - intros o wr w _. apply vstep_revs.
  - split; intros q v' [=].
Qed.
Lemma start_vault : unlocked s1 = true -> exists pp v wrs, Holds s1 pp v /\ s_primary s1 = Some pp /\ revs v /\
  writes_ok P l wrs s0 /\ w_mem (fst (vrun P wrs nothing l)) = Some (pp, v).
Proof.
  intros Hu. destruct (sound_rep P sc l s0 So) as (wrs & Hw & R & _).
  destruct (open_holds P sc l s0 _ _ R Hu) as (pp & v & H & Hp & Hm). exists pp, v, wrs. split; [exact H|]. split; [exact Hp|].
  split; [|auto].
  exact (proj1 (vrun_revs wrs) _ _ Hm).
Qed.

Section state.
Context (Hhost : forall x, In x (sc_sites sc) -> host x = x).
Context (s : st) (pp : bytes) (v : vault) (H : Holds s pp v) (Hrev : revs v).

Lemma v_scope x o : v_sites v !! x = Some o -> In x (sc_sites sc) /\ forall a, o = Some a -> In a (sc_sites sc).
Proof. destruct (holds_secrets P sc l s0 s pp v H) as (i & D & _). intros E. destruct (dr_site _ _ _ _ _ _ _ _ _ D x o E) as (H1 & H2 & _). auto. Qed.
Lemma pw_scope x n r e : v_pw v !! (x, n, r) = Some e -> In x (sc_sites sc) /\ In (n, r) (sc_ids sc) /\ entry_valid e.
Proof.
  destruct (holds_secrets P sc l s0 s pp v H) as (i & D & _). intros E. destruct (dr_pw _ _ _ _ _ _ _ _ _ D _ e E) as ([H1 H2] & H3 & _). auto.
Qed.

Lemma sites_are domain : exists L, fst (exec P (ListSites domain) s) = OSites L /\ List.NoDup (map fst L) /\
  forall y a, In (y, a) L <-> v_sites v !! y = Some a /\
    (p_wild P domain y = true \/ exists t, a = Some t /\ p_wild P domain t = true).
Proof.
  assert (covered sc (ListSites domain)) as Hc by (repeat split; intros ? []).
  pose proof (look P sc l s0 So s pp v _ H Hc eq_refl) as Ha. cbn in Ha. destruct Ha as (L & Hi & Hperm).
  exists L. split; [exact Hi|]. split.
  - eapply (Permutation_NoDup (l := map fst (List.filter _ (map_to_list (v_sites v))))).
    { apply Permutation_map, Permutation_sym, Hperm. }
    pose proof (NoDup_fst_map_to_list (v_sites v)) as Hn. apply NoDup_ListNoDup in Hn. revert Hn. generalize (map_to_list (v_sites v)).
    change (fmap fst : list (bytes * option bytes) -> list bytes) with (map (@fst bytes (option bytes))).
    induction l0 as [|[i e] l0 IH]; cbn; [intros; constructor|]. intros Hn. inversion Hn; subst.
    destruct (_ || _); cbn; [|apply IH; assumption]. constructor; [|apply IH; assumption].
    intros Hx. apply in_map_iff in Hx. destruct Hx as ([i' e'] & E & Hx). cbn in E. subst i'. apply filter_In in Hx.
    match goal with H : ~ In i _ |- _ => apply H end. apply in_map_iff. exists (i, e'). split; [reflexivity|apply Hx].
  - intros y a. split.
    + intros Hx. apply (Permutation_in _ Hperm) in Hx. apply filter_In in Hx. destruct Hx as [Hx Hf].
      rewrite <- elem_of_list_In in Hx. apply elem_of_map_to_list in Hx. split; [exact Hx|]. apply orb_true_iff in Hf.
      destruct Hf as [Hf|Hf]; [|auto]. destruct a; [eauto|discriminate Hf].
    + intros (Hx & Hw). apply (Permutation_in _ (Permutation_sym Hperm)), filter_In. split.
      * rewrite <- elem_of_list_In. apply elem_of_map_to_list, Hx.
      * apply orb_true_iff. destruct Hw as [Hw|(t & -> & Hw)]; auto.
Qed.

Lemma listed_shows domain L : chains_match P v domain -> (forall y a, In (y, a) L <-> v_sites v !! y = Some a /\
    (p_wild P domain y = true \/ exists t, a = Some t /\ p_wild P domain t = true)) ->
  forall x, listed L x <-> shows_site P v domain x.
Proof.
  intros Hch HL x. unfold listed, shows_site. rewrite HL. split.
  - intros [[Hx [Hw|(t & [=] & _)]]|[(y & Hy) Hna]]; [split; [congruence|auto]|].
    apply HL in Hy. destruct Hy as [Hy Hw].
    assert (p_wild P domain y = true \/ p_wild P domain x = true) as Hw' by (destruct Hw as [Hw|(t & [= <-] & Hw)]; auto).
    split; [|right; exists y; tauto]. intros a Ha. apply (Hna a), HL. split; [exact Ha|].
    destruct (Hch _ _ _ Hy Ha Hw'); eauto.
  - intros [Hna [[Hx Hw]|(y & Hy & Hw)]]; [auto|]. right. split.
    + exists y. apply HL. split; [exact Hy|]. destruct Hw; eauto.
    + intros a Ha. apply HL in Ha. exact (Hna a (proj1 Ha)).
Qed.

Lemma shown_scope domain x : shows_site P v domain x ->
  In x (sc_sites sc) /\ utf8 x = true /\ host x = x /\ target v x = x /\ forall a, v_sites v !! x <> Some (Some a).
Proof.
  intros [Hna Hx]. assert (In x (sc_sites sc)) as Hin.
  { destruct Hx as [[Hx _]|(y & Hy & _)]; [exact (proj1 (v_scope _ _ Hx))|exact (proj2 (v_scope _ _ Hy) _ eq_refl)]. }
  split; [exact Hin|]. split; [apply (so_sites _ _ _ _ So), Hin|]. split; [apply Hhost, Hin|]. split; [|exact Hna].
  unfold target. rewrite (Hhost x Hin). destruct (v_sites v !! x) as [[a|]|] eqn:E; [destruct (Hna a eq_refl)|reflexivity|reflexivity].
Qed.

Lemma passwords_are domain x name : shows_site P v domain x ->
  exists lst, fst (exec P (ListPasswords x name) s) = OPasswords lst /\ List.NoDup (map fst lst) /\
    forall i e, In (i, e) lst <-> shows_password P v name x i e.
Proof.
  intros Hx. destruct (shown_scope _ _ Hx) as (Hin & Hu & Hh & Ht & _).
  assert (covered sc (ListPasswords x name)) as Hc.
  { split; [exact Hu|]. split; [intros y [<-|[]]; rewrite Hh; exact Hin|]. split; intros ? []. }
  pose proof (look P sc l s0 So s pp v _ H Hc eq_refl) as Ha. cbn in Ha. destruct Ha as (items & Hi & Hperm). rewrite Ht in Hperm.
  exists items. split; [exact Hi|]. split.
  - apply (Permutation_NoDup (l := map fst (List.filter (fun '(i, _) => bytes_eqb (pid_site i) x && p_wild P name (pid_name i)) (map_to_list (v_pw v))))).
    { apply Permutation_map, Permutation_sym, Hperm. }
    pose proof (NoDup_fst_map_to_list (v_pw v)) as Hn. apply NoDup_ListNoDup in Hn. revert Hn. generalize (map_to_list (v_pw v)).
    change (fmap fst : list (pid * entry) -> list pid) with (map (@fst pid entry)).
    induction l0 as [|[i e] l0 IH]; cbn; [intros; constructor|]. intros Hn. inversion Hn; subst.
    destruct (_ && _); cbn; [|apply IH; assumption]. constructor; [|apply IH; assumption].
    intros Hx'. apply in_map_iff in Hx'. destruct Hx' as ([i' e'] & E & Hx'). cbn in E. subst i'. apply filter_In in Hx'.
    match goal with H : ~ In i _ |- _ => apply H end. apply in_map_iff. exists (i, e'). split; [reflexivity|apply Hx'].
  - intros i e. unfold shows_password. split.
    + intros Hy. apply (Permutation_in _ Hperm) in Hy. apply filter_In in Hy. destruct Hy as [Hy Hf].
      rewrite <- elem_of_list_In in Hy. apply elem_of_map_to_list in Hy. apply andb_true_iff in Hf. destruct Hf as [Hf ?].
      apply bytes_eqb_eq in Hf. auto.
    + intros (Hy & Hs & Hw). apply (Permutation_in _ (Permutation_sym Hperm)), filter_In. split.
      * rewrite <- elem_of_list_In. apply elem_of_map_to_list, Hy.
      * rewrite Hw, Hs, bytes_eqb_refl. reflexivity.
Qed.

(** Values and codes. *)
Lemma value_is domain x name n r e y : shows_site P v domain x -> shows_password P v name x (y, n, r) e ->
  fst (exec P (Get x n r) s) = reveal P pp (y, n, r) (e_secret e).
Proof.
  intros Hx (He & Hs & _). cbn in Hs. subst y. destruct (shown_scope _ _ Hx) as (Hin & Hu & Hh & Ht & _).
  destruct (pw_scope _ _ _ _ He) as (_ & Hid & _). pose proof (Hrev _ _ He) as Hr. cbn in Hr.
  destruct (so_ids _ _ _ _ So _ _ Hid) as (Hun & Hur & _).
  assert (covered sc (Get x n r)) as Hc.
  { split; [cbn; auto|]. split; [intros z [<-|[]]; rewrite Hh; exact Hin|]. split; [intros z [<-|[]]; rewrite Hr; exact Hid|intros ? []]. }
  rewrite (holds_get P sc l s0 So s pp v _ _ _ H Hc), Ht, Hr, He. reflexivity.
Qed.
Lemma code_is s' x n r text : same_but_random s s' -> utf8 text = true ->
  (exists code, fst (exec P (RecoveryCode x n r text) s') = OCode code /\
     (text <> [] -> (forall q, text <> q ++ [x00]) -> decode P code pp = Ok text)) \/
  (fst (exec P (RecoveryCode x n r text) s') = OPanic /\ p_overflow_checks P = true /\ (3539 < N.of_nat (length text))%N).
Proof.
  intros Hs Hu. assert (covered sc (RecoveryCode x n r text)) as Hc by (split; [exact Hu|]; repeat split; intros ? []).
  exact (look P sc l s0 So s' pp v _ (holds_same _ _ _ _ Hs H) Hc eq_refl).
Qed.
Lemma reveal_cases i x o : reveal P pp i x = o -> match o with
  | OText _ => True
  | OPanic => exists len cs, x = SGenerated len cs /\ (len = 0 \/ cs = cs_empty \/ 137438953471 < len)%N
  | _ => False end.
Proof.
  intros <-. unfold reveal. destruct x as [len cs|t]; [|exact I]. pose proof (derive_password_panic P pp (generation_input i) len cs HP) as Hd.
  destruct (derive_password P pp (generation_input i) len cs) as [pw|e|] eqn:E; cbn; [exact I| |eexists _, _; split; [reflexivity|apply Hd, eq_refl]].
  unfold derive_password, derive_bits in E. destruct ((len =? 0)%N || _); cbn in E; [discriminate E|].
  destruct (Nat.eq_dec (cs_len cs) 0) as [E0|E0].
  - apply cs_len_zero in E0. subst cs. rewrite to_password_empty_charset in E. destruct (p_scrypt _ _ _ _); discriminate E.
  - destruct (to_password_ok (p_scrypt P pp (generation_input i) (N.to_nat len)) cs E0) as (pw & Hpw & _). rewrite Hpw in E. discriminate E.
Qed.

Lemma fault_is domain name sh rc L o x : (forall x, listed L x <-> shows_site P v domain x) -> listed L x ->
  (match o with OErr _ | OPanic => True | _ => False end) ->
  (fst (exec P (ListPasswords x name) s) = o \/
   exists lst it, fst (exec P (ListPasswords x name) s) = OPasswords lst /\ In it lst /\ lookup_gives P s sh rc o x it) ->
  o = OPanic /\ cannot_show P pp v domain name sh rc.
Proof.
  intros HL Hx Ho Hf. apply HL in Hx. destruct (passwords_are domain x name Hx) as (lst & Hl & _ & Hin).
  destruct Hf as [Hf|(lst' & it & Hl' & Hi & Hf)]; [rewrite Hl in Hf; subst o; destruct Ho|].
  rewrite Hl in Hl'. injection Hl' as <-. destruct it as [[[y n] r] e]. apply Hin in Hi. unfold lookup_gives in Hf.
  destruct Hf as [[Hsh Hf]|(Hrc & text & s' & Ht & Hs & Hf)].
  - rewrite (value_is domain x name n r e y Hx Hi) in Hf. apply reveal_cases in Hf. destruct o; try destruct Ho; try destruct Hf.
    split; [reflexivity|]. exists x, (y, n, r), e. split; [exact Hx|]. split; [exact Hi|]. left. eauto.
  - destruct Hi as (He & Hi). pose proof (pw_scope _ _ _ _ He) as (_ & _ & Hv). unfold entry_valid in Hv. rewrite Ht in Hv.
    destruct (code_is s' x n r text Hs) as [(code & Hc & _)|(Hc & Hoc & Hlen)]; [apply Hv| |].
    + rewrite Hc in Hf. subst o. destruct Ho.
    + rewrite Hc in Hf. subst o. split; [reflexivity|]. exists x, (y, n, r), e. split; [exact Hx|]. split; [split; [exact He|exact Hi]|]. right. eauto.
Qed.

Lemma group_shows domain name sh rc L g : chains_match P v domain ->
  (forall y a, In (y, a) L <-> v_sites v !! y = Some a /\
     (p_wild P domain y = true \/ exists t, a = Some t /\ p_wild P domain t = true)) ->
  group_ok P s L name sh rc g -> shows P pp v domain name sh rc g.
Proof.
  intros Hch HL [H1 H2 H3 H4 (lst & Hl & Hp) H6 H7]. apply (listed_shows domain L Hch HL) in H1.
  destruct (passwords_are domain _ name H1) as (lst' & Hl' & Hnd & Hin). rewrite Hl in Hl'. injection Hl' as <-.
  assert (forall i e, (exists it, In it (gr_items g) /\ sh_item it = (i, e)) <-> shows_password P v name (gr_site g) i e) as Hitems.
  { intros i e. rewrite <- Hin. split.
    - intros (it & Hit & E). apply (Permutation_in _ Hp). rewrite <- E. apply in_map, Hit.
    - intros Hie. apply (Permutation_in _ (Permutation_sym Hp)) in Hie. apply in_map_iff in Hie. destruct Hie as (it & E & Hit). eauto. }
  rewrite List.Forall_forall in H7.
  constructor; try assumption.
  - intros y. rewrite H2, HL. split; intros [Hy Hw]; (split; [exact Hy|]).
    + destruct Hw as [Hw|(t & [= <-] & Hw)]; auto.
    + destruct Hw; eauto.
  - assert (map (fun it => (sh_item it).1) (gr_items g) = map fst (map sh_item (gr_items g))) as -> by (rewrite map_map; reflexivity).
    apply (Permutation_NoDup (l := map fst lst)); [apply Permutation_map, Permutation_sym, Hp|exact Hnd].
  - intros -> it Hit. specialize (H7 it Hit). unfold item_ok in H7.
    destruct (sh_item it) as [[[y n] r] e] eqn:E. cbn [fst snd].
    assert (shows_password P v name (gr_site g) (y, n, r) e) as Hs by (apply Hitems; eauto).
    rewrite <- (value_is domain _ name n r e y H1 Hs). apply H7. reflexivity.
  - intros -> it text Hit Ht Hne Hnz. specialize (H7 it Hit). unfold item_ok in H7.
    destruct (sh_item it) as [[[y n] r] e] eqn:E. cbn [fst snd] in Ht.
    assert (shows_password P v name (gr_site g) (y, n, r) e) as (He & _) by (apply Hitems; eauto).
    destruct H7 as [_ H7]. destruct (H7 eq_refl text Ht) as (s' & Hs' & Hc).
    pose proof (pw_scope _ _ _ _ He) as (_ & _ & Hv). unfold entry_valid in Hv. rewrite Ht in Hv.
    destruct (code_is s' (gr_site g) n r text Hs' (proj2 Hv)) as [(code & Hc' & Hd)|(Hc' & _)]; rewrite Hc in Hc'; [|discriminate Hc'].
    injection Hc' as <-. apply Hd; assumption.
  - intros -> it text Hit Ht. specialize (H7 it Hit). unfold item_ok in H7.
    destruct (sh_item it) as [[[y n] r] e] eqn:E. cbn [fst snd] in Ht.
    destruct H7 as [_ H7]. destruct (H7 eq_refl text Ht) as (s' & _ & Hc). exact (code_layout _ _ _ _ _ _ _ Hc).
Qed.

Lemma none_shown domain name x : shows_site P v domain x ->
  no_passwords P s name x <-> forall i e, ~ shows_password P v name x i e.
Proof.
  intros Hx. destruct (passwords_are domain x name Hx) as (lst & Hl & _ & Hin). unfold no_passwords. rewrite Hl. split.
  - intros [= ->] i e Hi. apply Hin in Hi. destruct Hi.
  - intros Hn. destruct lst as [|[i e] lst]; [reflexivity|]. destruct (Hn i e). apply Hin. left. reflexivity.
Qed.

Lemma unused_leftover domain name L empties : (forall x, listed L x <-> shows_site P v domain x) ->
  unused P s L name empties -> forall x, In x empties <-> leftover P v domain name x.
Proof.
  intros HL [_ Hu] x. rewrite Hu. unfold leftover. rewrite HL. split; intros (H1 & H2 & H3); (split; [exact H1|]; split; [exact H2|]);
    apply (none_shown domain name x H2); exact H3.
Qed.
End state.

(** * Removing sites *)

Lemma before_nodup (k : list bytes) : StronglySorted before k -> List.NoDup k.
Proof.
  induction 1 as [|x k H IH Hf]; constructor; [|exact IH]. intros Hx. rewrite List.Forall_forall in Hf. exact (before_irrefl _ (Hf x Hx)).
Qed.
Lemma drop_in (k : list bytes) : forall m x, fst (drop_sites m k) !! x = m !! x \/ (In x k /\ fst (drop_sites m k) !! x = None).
Proof.
  induction k as [|y k IH]; intros m x; cbn [drop_sites]; [auto|]. destruct (m !! y) as [a|] eqn:E; [|auto].
  destruct (IH (delete y m) x) as [Hx|[Hin Hx]]; [|right; split; [right; exact Hin|exact Hx]]. rewrite Hx.
  destruct (decide (y = x)) as [->|Hne]; [right; split; [left; reflexivity|apply lookup_delete]|left; apply lookup_delete_ne, Hne].
Qed.
Lemma drop_done (k : list bytes) : List.NoDup k -> forall m, snd (drop_sites m k) = true ->
  forall x, In x k -> is_Some (m !! x) /\ fst (drop_sites m k) !! x = None.
Proof.
  induction 1 as [|y k Hni Hnd IH]; intros m Hd x []; cbn [drop_sites] in *.
  - subst y. destruct (m !! x) as [a|] eqn:E; [|discriminate Hd]. split; [eauto|].
    destruct (drop_in k (delete x m) x) as [Hx|[Hin _]]; [rewrite Hx; apply lookup_delete|contradiction].
  - destruct (m !! y) as [a|] eqn:E; [|discriminate Hd]. destruct (IH _ Hd x H) as [H1 H2]. split; [|exact H2].
    rewrite lookup_delete_ne in H1; [exact H1|]. intros ->. contradiction.
Qed.
Lemma drop_fails (k : list bytes) : List.NoDup k -> forall m, snd (drop_sites m k) = false -> exists x, In x k /\ m !! x = None.
Proof.
  induction 1 as [|y k Hni Hnd IH]; intros m Hd; cbn [drop_sites] in *; [discriminate|].
  destruct (m !! y) as [a|] eqn:E; [|exists y; cbn; auto]. destruct (IH _ Hd) as (x & Hx & Hm). exists x. split; [right; exact Hx|].
  rewrite lookup_delete_ne in Hm; [exact Hm|]. intros ->. contradiction.
Qed.

(** Removing sites that are no aliases. *)
Lemma removing s pp v empties : Holds s pp v -> List.NoDup empties ->
  (forall x, In x empties -> In x (sc_sites sc) /\ utf8 x = true /\ forall a, v_sites v !! x <> Some (Some a)) ->
  exists m, Holds (snd (exec P (RemoveSites empties) s)) pp (mk_vault m (v_pw v)) /\
    (forall x, target (mk_vault m (v_pw v)) x = target v x) /\
    (forall x a, m !! x = Some (Some a) <-> v_sites v !! x = Some (Some a)) /\
    match fst (exec P (RemoveSites empties) s) with
    | ODone => (forall x, In x empties -> is_Some (v_sites v !! x)) /\
               (forall x, m !! x = if in_dec (fun a b : bytes => decide (a = b)) x empties then None else v_sites v !! x)
    | OErr KeyMissing => exists x, In x empties /\ v_sites v !! x = None
    | OErr e => (e = CreateDirFailure \/ e = FileWriteFailure) /\ empties <> [] /\ (forall x, In x empties -> is_Some (v_sites v !! x))
    | _ => False
    end.
Proof.
  intros [f R] Hnd Hin.
  assert (covered sc (RemoveSites empties)) as Hc.
  { split; [cbn; apply List.Forall_forall; intros x Hx; apply Hin, Hx|]. split; [intros x Hx; apply Hin, Hx|]. split; intros ? []. }
  destruct (sound_step P sc l s0 So _ s _ R Hc eq_refl) as (wr & Hwr & R1 & Ha).
  assert (forall m, (forall x, m !! x = v_sites v !! x \/ (In x empties /\ m !! x = None)) ->
    (forall x, target (mk_vault m (v_pw v)) x = target v x) /\
    (forall x a, m !! x = Some (Some a) <-> v_sites v !! x = Some (Some a))) as Hm.
  { intros m Hm. assert (forall x a, m !! x = Some (Some a) <-> v_sites v !! x = Some (Some a)) as Hal.
    { intros x a. destruct (Hm x) as [->|[Hx ->]]; [reflexivity|]. destruct (Hin x Hx) as (_ & _ & Hna). split; [discriminate|]. intros E. destruct (Hna a E). }
    split; [|exact Hal]. intros x. unfold target. cbn. pose proof (Hal (host x)) as H'.
    destruct (v_sites v !! host x) as [[a|]|] eqn:E1; destruct (m !! host x) as [[b|]|] eqn:E2; try reflexivity.
    - pose proof (proj1 (H' b) eq_refl) as [= ->]. reflexivity.
    - pose proof (proj2 (H' a) eq_refl) as [=].
    - pose proof (proj2 (H' a) eq_refl) as [=].
    - pose proof (proj1 (H' b) eq_refl) as [=].
    - pose proof (proj1 (H' b) eq_refl) as [=]. }
  destruct empties as [|y k] eqn:Ek.
  - exists (v_sites v). cbn in R1, Ha. destruct v as [vs vp]. split; [exists f; exact R1|]. split; [reflexivity|]. split; [reflexivity|].
    cbn. split; [intros x []|]. intros x. reflexivity.
  - rewrite <- Ek in *. exists (fst (drop_sites (v_sites v) empties)).
    destruct (Hm _ (drop_in empties (v_sites v))) as [Ht Hal].
    assert (vstep P wr (mk_world (Some (pp, v)) true f) (RemoveSites empties) =
      match drop_sites (v_sites v) empties with
        | (m, true) => commit wr (mk_world (Some (pp, v)) true f) pp (mk_vault m (v_pw v))
        | (m, false) =>
            (mk_world (Some (pp, mk_vault m (v_pw v))) true f, OErr KeyMissing)
        end) as Ev by (rewrite Ek; reflexivity).
    rewrite Ev in R1, Ha. pose proof (drop_done empties Hnd (v_sites v)) as Hd. pose proof (drop_fails empties Hnd (v_sites v)) as Hf.
    pose proof (drop_in empties (v_sites v)) as Hdi.
    destruct (drop_sites (v_sites v) empties) as [m []]; cbn [fst snd] in *.
    + assert (fst (exec P (RemoveSites empties) s) = snd (commit wr (mk_world (Some (pp, v)) true f) pp (mk_vault m (v_pw v)))) as Ha'.
      { destruct wr; exact Ha. }
      split; [destruct wr; cbn in R1; eexists; exact R1|]. split; [exact Ht|]. split; [exact Hal|].
      assert (forall x, In x empties -> is_Some (v_sites v !! x)) as Hsome by (intros x Hx; apply (Hd eq_refl x Hx)).
      assert (empties <> []) as Hne by (rewrite Ek; discriminate).
      rewrite Ha'. destruct wr as [|e| |]; cbn.
      * split; [exact Hsome|]. intros x. destruct (in_dec (fun a b : bytes => decide (a = b)) x empties) as [Hx|Hx]; [apply (Hd eq_refl x Hx)|].
        destruct (Hdi x) as [E|[E _]]; [exact E|contradiction].
      * assert (e = CreateDirFailure \/ e = FileWriteFailure) as [-> | ->]; [|auto|auto].
        unfold allowed in Hwr. destruct (p_write P (s_flushes s)); [discriminate Hwr|injection Hwr as ->; auto|injection Hwr as ->; auto|].
        destruct Hwr; discriminate.
      * auto.
      * auto.
    + split; [eexists; exact R1|]. split; [exact Ht|]. split; [exact Hal|]. rewrite Ha. apply Hf. reflexivity.
Qed.

(** * The command *)

Lemma list_holds s pp v sp domain name sh rc vb t : (forall x, In x (sc_sites sc) -> host x = x) -> Holds s pp v -> revs v ->
  chains_match P v domain -> ready t -> t_st t = s -> list_goes P sc pp v domain name sh rc vb t (list_cmd P sp domain name sh rc vb t).
Proof.
  intros Hhost H Hrev Hch Hr Et. unfold list_goes.
  pose proof (list_cmd_cases P sp domain name sh rc vb t Hr) as C. rewrite Et in C.
  destruct (sites_are s pp v H domain) as (L & HL & Hnd & HinL). rewrite HL in C. specialize (C Hnd).
  pose proof (listed_shows v domain L Hch HinL) as Hls.
  assert (forall s2 v', Holds s2 pp v' -> (forall x, target v' x = target v x) -> v_pw v' = v_pw v ->
     (forall x a, v_sites v' !! x = Some (Some a) <-> v_sites v !! x = Some (Some a)) ->
     forall q x n r, covered sc (Has x n r) -> q = Get x n r \/ q = GetNotes x n r \/ q = Has x n r \/ q = GetAlias x ->
       fst (exec P q s2) = fst (exec P q s)) as Hsame.
  { intros s2 v' H' Ht Ep Hal q x n r Hc Hq.
    assert (sees q x n r \/ q = GetAlias x) as [Hs | ->] by (unfold sees; tauto).
    - apply (sees_same P sc l s0 So s s2 pp v v' q x n r H H' Hc Hs (Ht x)). rewrite Ep. reflexivity.
    - pose proof (cover_alias sc x n r Hc) as Hca. rewrite (holds_alias P sc l s0 So _ _ _ _ H Hca), (holds_alias P sc l s0 So _ _ _ _ H' Hca).
      pose proof (Hal (host x)) as Hx. destruct (v_sites v' !! host x) as [[a|]|] eqn:E1; destruct (v_sites v !! host x) as [[b|]|] eqn:E2; try reflexivity.
      + pose proof (proj1 (Hx a) eq_refl) as [= ->]. reflexivity.
      + pose proof (proj1 (Hx a) eq_refl) as [=].
      + pose proof (proj1 (Hx a) eq_refl) as [=].
      + pose proof (proj2 (Hx b) eq_refl) as [=].
      + pose proof (proj2 (Hx b) eq_refl) as [=]. }
  assert (forall empties s2, unused P s L name empties -> same_but_random s s2 ->
    (forall x, In x empties <-> leftover P v domain name x) /\
    exists m, Holds (snd (exec P (RemoveSites empties) s2)) pp (mk_vault m (v_pw v)) /\
    (forall x, target (mk_vault m (v_pw v)) x = target v x) /\
    (forall x a, m !! x = Some (Some a) <-> v_sites v !! x = Some (Some a)) /\
    match fst (exec P (RemoveSites empties) s2) with
    | ODone => (forall x, In x empties -> is_Some (v_sites v !! x)) /\
               (forall x, m !! x = if in_dec (fun a b : bytes => decide (a = b)) x empties then None else v_sites v !! x)
    | OErr KeyMissing => exists x, In x empties /\ v_sites v !! x = None
    | OErr e => (e = CreateDirFailure \/ e = FileWriteFailure) /\ empties <> [] /\ (forall x, In x empties -> is_Some (v_sites v !! x))
    | _ => False
    end) as Hrem.
  { intros empties s2 Hun Hs2. pose proof (unused_leftover Hhost s pp v H domain name L empties Hls Hun) as Hlo. split; [exact Hlo|].
    apply removing; [exact (holds_same _ _ _ _ Hs2 H)|apply before_nodup, Hun|].
    intros x Hx. apply Hlo in Hx. destruct Hx as (_ & Hx & _). destruct (shown_scope Hhost s pp v H domain x Hx) as (? & ? & _ & _ & ?). auto. }
  destruct (list_cmd P sp domain name sh rc vb t) as [[[]|m| |] t'] eqn:Ec; rewrite Et.
  - destruct C as (groups & empties & s2 & Hg & Hso & Hall & Hun & Hs2 & Hex & Ht').
    destruct (Hrem empties s2 Hun Hs2) as (Hlo & m & H2 & Htg & Hal & Hres). rewrite Hex in H2, Hres. cbn [fst snd] in H2, Hres.
    split; [exact (Hsame _ _ H2 Htg eq_refl Hal)|].
    exists groups. split; [eapply List.Forall_impl; [|exact Hg]; intros g; apply (group_shows Hhost s pp v H Hrev); [exact Hch|exact HinL]|].
    split; [exact Hso|]. split.
    { intros x i e Hx Hi. destruct (Hall x) as [Hin|Hno]; [apply Hls, Hx|exact Hin|].
      destruct (proj1 (none_shown Hhost s pp v H domain name x Hx) Hno i e Hi). }
    split; [rewrite Ht'; reflexivity|]. destruct Hres as [Hsome Hmm]. split; [intros x Hx; apply Hsome, Hlo, Hx|].
    intros pattern. destruct (sites_are (t_st t') pp _ H2 pattern) as (L' & HL' & _ & HinL'). exists L'. split; [exact HL'|].
    intros y a. rewrite HinL'. cbn [v_sites]. rewrite Hmm. destruct (in_dec (fun a b : bytes => decide (a = b)) y empties) as [Hy|Hy].
    + split; [intros [[=] _]|]. intros (_ & Hn & _). destruct Hn. apply Hlo, Hy.
    + rewrite Hlo in Hy. split; [intros (? & ?); auto|intros (? & _ & ?); auto].
  - destruct C as (e & -> & [[Hs2 (x & Hx & Hf)]|(empties & s2 & Hun & Hs2 & Hex)]).
    + exfalso. destruct (fault_is Hhost s pp v H Hrev domain name sh rc L (OErr e) x Hls Hx I Hf) as [[=] _].
    + destruct (Hrem empties s2 Hun Hs2) as (Hlo & m & H2 & Htg & Hal & Hres). rewrite Hex in H2, Hres. cbn [fst snd] in H2, Hres.
      split; [exact (Hsame _ _ H2 Htg eq_refl Hal)|].
      assert ((e = KeyMissing /\ exists x, In x empties /\ v_sites v !! x = None) \/ ((e = CreateDirFailure \/ e = FileWriteFailure) /\ empties <> [])) as [[-> (x & Hx & Ex)]|[He Hne]].
      { destruct e; auto; right; destruct Hres as (Hres & Hne & _); auto. }
      * left. split; [reflexivity|]. exists x. split; [apply Hlo, Hx|exact Ex].
      * right. split; [destruct He as [-> | ->]; auto|]. destruct empties as [|x k]; [contradiction|]. exists x. apply Hlo. left. reflexivity.
  - destruct C as [[Hs2 (x & Hx & Hf)]|(empties & s2 & Hun & Hs2 & Hex)].
    + destruct (fault_is Hhost s pp v H Hrev domain name sh rc L OPanic x Hls Hx I Hf) as [_ Hcs]. split; [|exact Hcs].
      apply (Hsame _ v (holds_same _ _ _ _ Hs2 H)); reflexivity.
    + exfalso. destruct (Hrem empties s2 Hun Hs2) as (_ & m & _ & _ & _ & Hres). rewrite Hex in Hres. exact Hres.
  - destruct C.
Qed.

Lemma list_vault : (forall x, In x (sc_sites sc) -> host x = x) -> unlocked s1 = true ->
  exists pp v wrs, s_primary s1 = Some pp /\ writes_ok P l wrs s0 /\ w_mem (fst (vrun P wrs nothing l)) = Some (pp, v) /\
  (forall sp domain name sh rc vb t, chains_match P v domain -> ready t -> t_st t = s1 ->
   list_goes P sc pp v domain name sh rc vb t (list_cmd P sp domain name sh rc vb t)).
Proof.
  intros Hhost Hu. destruct (start_vault Hu) as (pp & v & wrs & H & Hpp & Hrev & Hw & Hm). exists pp, v, wrs.
  split; [exact Hpp|]. split; [exact Hw|]. split; [exact Hm|]. intros sp domain name sh rc vb t Hch Hr Et.
  exact (list_holds s1 pp v sp domain name sh rc vb t Hhost H Hrev Hch Hr Et).
Qed.
End vault.
