(** The allocator that logs. *)
From stdpp Require Import gmap.
From Verif Require Import M_Base M_Logging S_Logging.

(** * Hexadecimal numbers *)
Lemma hex_value_digit n : (n < 16)%N -> hex_value (hex_digit n) = Some n.
Proof.
  intros H. assert (exists k, n = N.of_nat k /\ k < 16) as (k & -> & Hk) by (exists (N.to_nat n); lia).
  do 16 (destruct k as [|k]; [reflexivity|]). lia.
Qed.
Lemma hex_number_app t : forall acc u, hex_number acc (t ++ u) = match hex_number acc t with Some a => hex_number a u | None => None end.
Proof. induction t as [|b t IH]; intros acc u; cbn; [reflexivity|]. destruct (hex_value b); [apply IH|reflexivity]. Qed.

Lemma hex_digits_app fuel : forall n rest, hex_digits fuel n rest = hex_digits fuel n [] ++ rest.
Proof.
  induction fuel as [|fuel IH]; intros n rest; cbn [hex_digits]; [reflexivity|]. cbv zeta.
  destruct (n / 16 =? 0)%N; [reflexivity|]. rewrite (IH _ (_ :: rest)), (IH _ [_]), <- app_assoc. reflexivity.
Qed.
Lemma hex_digits_ok fuel : forall n, (n < 2 ^ N.of_nat fuel)%N ->
  hex_digits fuel n [] <> [] \/ fuel = 0 /\ n = 0%N.
Proof.
  destruct fuel as [|fuel]; intros n H; [right; split; [reflexivity|cbn in H; lia]|left]. cbn [hex_digits]. cbv zeta.
  destruct (n / 16 =? 0)%N; [discriminate|]. rewrite hex_digits_app. intros F. apply app_eq_nil in F. destruct F; discriminate.
Qed.
Lemma div16 n fuel : (n < 2 ^ N.of_nat (S fuel))%N -> (n / 16 < 2 ^ N.of_nat fuel)%N.
Proof.
  intros H. rewrite Nat2N.inj_succ, N.pow_succ_r' in H. apply N.div_lt_upper_bound; [lia|].
  remember (2 ^ N.of_nat fuel)%N as q. lia.
Qed.
Lemma hex_digits_value fuel : forall n, fuel <> 0 -> (n < 2 ^ N.of_nat fuel)%N -> hex_number 0 (hex_digits fuel n []) = Some n.
Proof.
  induction fuel as [|fuel IH]; intros n Hf H; [congruence|]. cbn [hex_digits]. cbv zeta.
  pose proof (N.mod_lt n 16 ltac:(lia)) as Hm. pose proof (N.div_mod n 16 ltac:(lia)) as Hd.
  destruct (N.eqb_spec (n / 16) 0) as [E|E].
  - cbn [hex_number]. rewrite hex_value_digit by exact Hm. f_equal. rewrite E in Hd. lia.
  - rewrite hex_digits_app, hex_number_app. apply div16 in H.
    destruct (decide (fuel = 0)) as [->|Hne]; [cbn in H; lia|].
    rewrite IH by assumption. cbn [hex_number]. rewrite hex_value_digit by exact Hm. f_equal. lia.
Qed.
Lemma hex_digit_zero n : (n < 16)%N -> hex_digit n = x30 -> n = 0%N.
Proof. intros H E. pose proof (hex_value_digit n H) as F. rewrite E in F. cbn in F. congruence. Qed.
Lemma hex_digits_lead fuel : forall n, fuel <> 0 -> (n < 2 ^ N.of_nat fuel)%N -> hd x00 (hex_digits fuel n []) = x30 -> n = 0%N.
Proof.
  induction fuel as [|fuel IH]; intros n Hf H; [congruence|]. cbn [hex_digits]. cbv zeta.
  pose proof (N.mod_lt n 16 ltac:(lia)) as Hm. pose proof (N.div_mod n 16 ltac:(lia)) as Hd.
  destruct (N.eqb_spec (n / 16) 0) as [E|E].
  - cbn [hd]. intros F. apply hex_digit_zero in F; [|exact Hm]. lia.
  - rewrite hex_digits_app. apply div16 in H.
    destruct (decide (fuel = 0)) as [->|Hne]; [cbn in H; lia|].
    specialize (IH _ Hne H). destruct (hex_digits_ok _ _ H) as [Hn|[F _]]; [|contradiction].
    destruct (hex_digits fuel (n / 16) []) as [|b t]; [contradiction|]. cbn [app hd] in *. intros F. specialize (IH F). contradiction.
Qed.
Lemma hex_tells p trace : tells (entry_text (p, trace)) p trace.
Proof.
  assert (p < 2 ^ N.of_nat (S (N.to_nat (N.size p))))%N as H.
  { rewrite Nat2N.inj_succ, N2Nat.id, N.pow_succ_r'. pose proof (N.size_gt p). lia. }
  exists (hex p). split; [|split; [|split]].
  - unfold hex. destruct (hex_digits_ok _ _ H) as [E|[E _]]; [exact E|discriminate].
  - apply hex_digits_value; [discriminate|exact H].
  - intros F. apply hex_digits_lead in F; [|discriminate|exact H]. subst p. reflexivity.
  - reflexivity.
Qed.

(** * The allocator *)
Section allocator.
Context (E : alloc_env).

(** [n] blocks while the mutex is locked, or without a log *)
Fixpoint plain_taken (n : nat) (h : heap) : heap := match n with 0 => h | S n => plain_taken n (taken E h) end.
Fixpoint plain_blocks (n : nat) (h : heap) : list N := match n with 0 => [] | S n => system E h :: plain_blocks n (taken E h) end.

Lemma plain_log n : forall h, h_log (plain_taken n h) = h_log h.
Proof. induction n as [|n IH]; intros h; cbn; [reflexivity|]. rewrite IH. reflexivity. Qed.
Lemma plain_locked n : forall h, h_locked (plain_taken n h) = h_locked h.
Proof. induction n as [|n IH]; intros h; cbn; [reflexivity|]. rewrite IH. reflexivity. Qed.
Lemma plain_used n : forall h, h_used (plain_taken n h) = h_used h ++ plain_blocks n h.
Proof. induction n as [|n IH]; intros h; cbn; [rewrite app_nil_r; reflexivity|]. rewrite IH. cbn. rewrite <- app_assoc. reflexivity. Qed.

Definition silent (h : heap) : Prop := h_log h = None \/ h_locked h = true.
Lemma silent_alloc h p h' : silent h -> alloc E h p h' <-> p = system E h /\ h' = taken E h.
Proof.
  intros Hs. split.
  - intros H. inversion H; subst; [auto|auto|]. destruct Hs; congruence.
  - intros [-> ->]. destruct (h_log h) as [l|] eqn:El; [|apply alloc_off, El]. destruct Hs as [?|Hs]; [congruence|]. exact (alloc_busy E h l El Hs).
Qed.
Lemma silent_allocs n : forall h ps h', silent h -> allocs E n h ps h' <-> ps = plain_blocks n h /\ h' = plain_taken n h.
Proof.
  induction n as [|n IH]; intros h ps h' Hs; cbn.
  - split; [intros H; inversion H; subst; auto|intros [-> ->]; constructor].
  - assert (silent (taken E h)) as Hs' by exact Hs. split.
    + intros H. inversion H as [|n0 h0 p h1 qs h2 Ha Hr]; subst. apply silent_alloc in Ha; [|exact Hs]. destruct Ha as [-> ->].
      apply IH in Hr; [|exact Hs']. destruct Hr as [-> ->]. auto.
    + intros [-> ->]. econstructor; [apply silent_alloc; [exact Hs|auto]|]. apply IH; [exact Hs'|auto].
Qed.

(** the state after a logged allocation *)
Definition logged (h : heap) : heap :=
  let n := length (h_used h) in
  let h2 := plain_taken (e_growing E n) (plain_taken (e_tracing E n) (set_locked true (taken E h))) in
  set_locked false (push_entry (system E h, e_trace E n) h2).
Definition active (h : heap) : Prop := (exists l, h_log h = Some l) /\ h_locked h = false.
Lemma active_alloc h p h' : active h -> alloc E h p h' <-> p = system E h /\ h' = logged h.
Proof.
  intros [[l El] Hb].
  assert (silent (set_locked true (taken E h))) as Hs by (right; reflexivity).
  assert (silent (plain_taken (e_tracing E (length (h_used h))) (set_locked true (taken E h)))) as Hs' by (right; apply plain_locked).
  split.
  - intros H. inversion H as [| |h0 l0 h1 h2 ps qs E1 E2 Ha Hc]; subst; [congruence|congruence|].
    apply silent_allocs in Ha; [|exact Hs]. destruct Ha as [-> ->]. apply silent_allocs in Hc; [|exact Hs']. destruct Hc as [-> ->].
    split; reflexivity.
  - intros [-> ->]. econstructor; [exact El|exact Hb|apply silent_allocs; [exact Hs|auto]|apply silent_allocs; [exact Hs'|auto]].
Qed.
Lemma logged_log h l : h_log h = Some l -> h_log (logged h) = Some (l ++ [(system E h, e_trace E (length (h_used h)))]).
Proof. intros H. unfold logged. cbn. rewrite !plain_log. cbn. rewrite H. reflexivity. Qed.
Lemma logged_active h : active h -> active (logged h).
Proof. intros [[l H] _]. split; [eexists; apply logged_log, H|reflexivity]. Qed.
Lemma logged_used h : exists more, h_used (logged h) = h_used h ++ system E h :: more.
Proof. unfold logged. cbn. rewrite !plain_used. cbn. eexists. rewrite <- !app_assoc. reflexivity. Qed.

(** * Several *)
Fixpoint logged_taken (n : nat) (h : heap) : heap := match n with 0 => h | S n => logged_taken n (logged h) end.
Fixpoint logged_blocks (n : nat) (h : heap) : list N := match n with 0 => [] | S n => system E h :: logged_blocks n (logged h) end.
Fixpoint logged_entries (n : nat) (h : heap) : list (N * bytes) :=
  match n with 0 => [] | S n => (system E h, e_trace E (length (h_used h))) :: logged_entries n (logged h) end.
Lemma active_allocs n : forall h ps h', active h -> allocs E n h ps h' <-> ps = logged_blocks n h /\ h' = logged_taken n h.
Proof.
  induction n as [|n IH]; intros h ps h' Hs; cbn.
  - split; [intros H; inversion H; subst; auto|intros [-> ->]; constructor].
  - pose proof (logged_active h Hs) as Hs'. split.
    + intros H. inversion H as [|n0 h0 p h1 qs h2 Ha Hr]; subst. apply active_alloc in Ha; [|exact Hs]. destruct Ha as [-> ->].
      apply IH in Hr; [|exact Hs']. destruct Hr as [-> ->]. auto.
    + intros [-> ->]. econstructor; [apply active_alloc; [exact Hs|auto]|]. apply IH; [exact Hs'|auto].
Qed.
Lemma logged_taken_active n : forall h, active h -> active (logged_taken n h).
Proof. induction n as [|n IH]; intros h H; cbn; [exact H|]. apply IH, logged_active, H. Qed.
Lemma logged_taken_log n : forall h l, h_log h = Some l -> h_log (logged_taken n h) = Some (l ++ logged_entries n h).
Proof.
  induction n as [|n IH]; intros h l H; cbn; [rewrite app_nil_r; exact H|]. rewrite (IH _ _ (logged_log h l H)), <- app_assoc. reflexivity.
Qed.
Lemma logged_taken_used n : forall h, exists more, h_used (logged_taken n h) = h_used h ++ more /\ sublist (logged_blocks n h) more.
Proof.
  induction n as [|n IH]; intros h; cbn; [exists []; rewrite app_nil_r; split; constructor|].
  destruct (logged_used h) as [m1 H1]. destruct (IH (logged h)) as (m2 & H2 & Hs). rewrite H2, H1.
  exists (system E h :: m1 ++ m2). split; [rewrite <- app_assoc; reflexivity|]. constructor. apply sublist_inserts_l, Hs.
Qed.
Lemma logged_entries_blocks n : forall h, map fst (logged_entries n h) = logged_blocks n h.
Proof. induction n as [|n IH]; intros h; cbn; [reflexivity|]. rewrite IH. reflexivity. Qed.
Lemma logged_blocks_add n : forall m h, logged_blocks (n + m) h = logged_blocks n h ++ logged_blocks m (logged_taken n h).
Proof. induction n as [|n IH]; intros m h; cbn; [reflexivity|]. rewrite IH. reflexivity. Qed.
Lemma logged_entries_add n : forall m h, logged_entries (n + m) h = logged_entries n h ++ logged_entries m (logged_taken n h).
Proof. induction n as [|n IH]; intros m h; cbn; [reflexivity|]. rewrite IH. reflexivity. Qed.

(** * Programs *)
Lemma uses_allocs l : forall h ps h', uses E l h ps h' <-> allocs E (asked l) h ps h'.
Proof.
  induction l as [|u l IH]; intros h ps h'.
  - cbn. split; intros H; inversion H; subst; constructor.
  - destruct u as [|p]; cbn.
    + split; intros H; inversion H; subst; (econstructor; [eassumption|]; apply IH; assumption).
    + unfold asked. cbn. fold (asked l). split; intros H.
      * inversion H; subst. apply IH. assumption.
      * constructor. apply IH. exact H.
Qed.

Lemma writes_ok l : forall i h, silent h -> exists h', forall h2, writes E i l h h2 <-> h2 = h'.
Proof.
  induction l as [|x l IH]; intros i h Hs.
  - exists h. intros h2. split; [intros H; inversion H; subst; reflexivity|intros ->; constructor].
  - destruct (IH (S i) (plain_taken (e_write E i) h)) as [h' Hh'].
    { destruct Hs as [Hs|Hs]; [left; rewrite plain_log; exact Hs|right; rewrite plain_locked; exact Hs]. }
    exists h'. intros h2. split.
    + intros H. inversion H as [|i0 x0 l0 h0 ps h1 h3 Ha Hw]; subst. apply silent_allocs in Ha; [|exact Hs]. destruct Ha as [_ ->].
      apply Hh', Hw.
    + intros H. econstructor; [apply silent_allocs; [exact Hs|split; reflexivity]|]. apply Hh', H.
Qed.
Lemma writes_used l : forall i h h', silent h -> writes E i l h h' -> exists more, h_used h' = h_used h ++ more.
Proof.
  induction l as [|x l IH]; intros i h h' Hs H; inversion H as [|i0 x0 l0 h0 ps h1 h3 Ha Hw]; subst; [exists []; rewrite app_nil_r; reflexivity|].
  apply silent_allocs in Ha; [|exact Hs]. destruct Ha as [_ ->].
  apply IH in Hw.
  - destruct Hw as [more ->]. rewrite plain_used, <- app_assoc. eexists. reflexivity.
  - destruct Hs as [Hs|Hs]; [left; rewrite plain_log; exact Hs|right; rewrite plain_locked; exact Hs].
Qed.

Section run.
Context (before during : list use).
Definition at_start : heap := plain_taken (asked before) no_heap.
Definition in_main : heap := init_allocator at_start.
Definition at_end : heap := logged_taken (asked during) in_main.
Definition created : heap := logged_taken (e_create E) at_end.

Lemma in_main_active : active in_main.
Proof. split; [exists []; reflexivity|reflexivity]. Qed.
Lemma at_end_active : active at_end.
Proof. apply logged_taken_active, in_main_active. Qed.
Lemma created_log : h_log created = Some (logged_entries (asked during + e_create E) in_main).
Proof.
  unfold created, at_end. rewrite logged_entries_add.
  rewrite (logged_taken_log (e_create E) _ (logged_entries (asked during) in_main)); [reflexivity|].
  apply (logged_taken_log (asked during) in_main []). reflexivity.
Qed.

Lemma program_is old ps create file h : program E before during old ps create file h <->
  old = plain_blocks (asked before) no_heap /\ ps = logged_blocks (asked during) in_main /\
  create = logged_blocks (e_create E) at_end /\
  file = Some (concat (map entry_text (logged_entries (asked during + e_create E) in_main))) /\
  exists h2, writes E 0 (logged_entries (asked during + e_create E) in_main) (set_locked true created) h2 /\ h = set_locked false h2.
Proof.
  assert (silent no_heap) as H0 by (left; reflexivity). split.
  - intros (h1 & h2 & Hu & Hv & Hs). apply uses_allocs in Hu, Hv. apply silent_allocs in Hu; [|exact H0]. destruct Hu as [-> ->].
    fold at_start in Hv. fold in_main in Hv. apply active_allocs in Hv; [|exact in_main_active]. destruct Hv as [-> ->]. fold at_end in Hs.
    inversion Hs as [h0 F|h0 l0 qs h1 l h2 E0 Ha El Hb Hw]; subst.
    + destruct at_end_active as [[l Hl] _]. congruence.
    + apply active_allocs in Ha; [|exact at_end_active]. destruct Ha as [-> ->]. fold created in El, Hw. rewrite created_log in El.
      injection El as <-. repeat (split; [reflexivity|]). exists h2. split; [exact Hw|reflexivity].
  - intros (-> & -> & -> & -> & h2 & Hw & ->). exists at_start, at_end. split; [|split].
    + apply uses_allocs, silent_allocs; [exact H0|auto].
    + apply uses_allocs. fold in_main. apply active_allocs; [exact in_main_active|auto].
    + destruct at_end_active as [[l Hl] _].
      refine (shutdown_on E at_end l (logged_blocks (e_create E) at_end) created _ h2 Hl _ created_log _ Hw).
      * apply active_allocs; [exact at_end_active|auto].
      * exact (proj2 (logged_taken_active (e_create E) at_end at_end_active)).
Qed.

Lemma blocks_length n : forall h, length (logged_blocks n h) = n.
Proof. induction n as [|n IH]; intros h; cbn; [reflexivity|]. rewrite IH. reflexivity. Qed.

Lemma program_ends : exists ps create t h,
  length ps = asked during /\
  forall old' ps' create' file' h', program E before during old' ps' create' file' h' <->
    old' = plain_blocks (asked before) no_heap /\ ps' = ps /\ create' = create /\ file' = Some t /\ h' = h.
Proof.
  destruct (writes_ok (logged_entries (asked during + e_create E) in_main) 0 (set_locked true created)) as [h2 H2]; [right; reflexivity|].
  eexists _, _, _, (set_locked false h2). split; [apply (blocks_length (asked during) in_main)|].
  intros old' ps' create' file' h'. rewrite program_is. split.
  - intros (-> & -> & -> & -> & h3 & Hw & ->). apply H2 in Hw. subst h3. auto.
  - intros (-> & -> & -> & -> & ->). repeat (split; [reflexivity|]). exists h2. split; [apply H2; reflexivity|reflexivity].
Qed.

Lemma entries_log (about : N -> bytes -> Prop) l : Forall (fun x => about (fst x) (snd x)) l -> log_of about (map fst l) (concat (map entry_text l)).
Proof. induction 1 as [|[p tr] l H _ IH]; [constructor|]. cbn [map concat fst]. econstructor; [exact H|apply hex_tells|exact IH]. Qed.
Lemma entries_made n : forall h used more, used = h_used (logged_taken n h) ++ more ->
  Forall (fun x => made_for E used (fst x) (snd x)) (logged_entries n h).
Proof.
  induction n as [|n IH]; intros h used more Hu; cbn in *; constructor; [|exact (IH _ _ _ Hu)].
  cbn. exists (length (h_used h)). split; [|reflexivity]. destruct (logged_taken_used n (logged h)) as (m & Hm & _). destruct (logged_used h) as [m1 H1].
  rewrite Hu, Hm, H1, <- !app_assoc. rewrite nth_error_app2 by lia. rewrite Nat.sub_diag. reflexivity.
Qed.

Lemma logged_taken_add n : forall m h, logged_taken (n + m) h = logged_taken m (logged_taken n h).
Proof. induction n as [|n IH]; intros m h; cbn; [reflexivity|]. apply IH. Qed.
Lemma program_log old ps create file h : program E before during old ps create file h ->
  exists t, file = Some t /\ log_of (made_for E (h_used h)) (ps ++ create) t.
Proof.
  intros H. apply program_is in H. destruct H as (_ & -> & -> & -> & h2 & Hw & ->). eexists. split; [reflexivity|].
  apply writes_used in Hw; [|right; reflexivity]. destruct Hw as [more Hm]. cbn in Hm.
  unfold at_end. rewrite <- logged_blocks_add, <- logged_entries_blocks. apply entries_log, (entries_made _ _ _ more). cbn.
  rewrite Hm. unfold created, at_end. rewrite logged_taken_add. reflexivity.
Qed.

(** * Nothing is given back *)
Lemma sublist_distinct (l l' : list N) : sublist l l' -> base.NoDup l' -> base.NoDup l.
Proof.
  intros Hs H. apply NoDup_ListNoDup. apply NoDup_ListNoDup in H. induction Hs as [|x l l' Hs IH|x l l' Hs IH]; [exact H| |].
  - inversion H as [|? ? Hx H']; subst. constructor; [|exact (IH H')]. intros F. apply Hx. revert F. clear -Hs. induction Hs; cbn; intuition.
  - inversion H; subst. auto.
Qed.
Definition distinct (h : heap) : Prop := base.NoDup (h_used h).
Lemma taken_distinct h : fresh_blocks E -> distinct h -> distinct (taken E h).
Proof.
  intros F H. unfold distinct. cbn. apply NoDup_app. split; [exact H|]. split; [|apply NoDup_singleton].
  intros x Hx Hy. apply elem_of_list_singleton in Hy. subst x. apply elem_of_list_In in Hx. exact (F _ Hx).
Qed.
Lemma plain_distinct n : forall h, fresh_blocks E -> distinct h -> distinct (plain_taken n h).
Proof. induction n as [|n IH]; intros h F H; cbn; [exact H|]. apply IH; [exact F|]. apply taken_distinct; assumption. Qed.
Lemma logged_distinct n : forall h, fresh_blocks E -> distinct h -> distinct (logged_taken n h).
Proof.
  induction n as [|n IH]; intros h F H; cbn; [exact H|]. apply IH; [exact F|].
  change (distinct (plain_taken (e_growing E (length (h_used h))) (plain_taken (e_tracing E (length (h_used h))) (set_locked true (taken E h))))).
  apply plain_distinct, plain_distinct; try exact F. exact (taken_distinct h F H).
Qed.
Lemma writes_distinct l : forall i h h', fresh_blocks E -> distinct h -> writes E i l h h' -> silent h -> distinct h'.
Proof.
  induction l as [|x l IH]; intros i h h' F H Hw Hs; inversion Hw as [|i0 x0 l0 h0 ps h1 h3 Ha Hr]; subst; [exact H|].
  apply silent_allocs in Ha; [|exact Hs]. destruct Ha as [_ ->]. refine (IH _ _ _ F (plain_distinct _ _ F H) Hr _).
  destruct Hs as [Hs|Hs]; [left; rewrite plain_log; exact Hs|right; rewrite plain_locked; exact Hs].
Qed.
Lemma program_distinct old ps create file h : fresh_blocks E -> program E before during old ps create file h -> NoDup (old ++ ps ++ create).
Proof.
  intros F H. apply NoDup_ListNoDup. apply program_is in H. destruct H as (-> & -> & -> & _). unfold at_end. rewrite <- logged_blocks_add.
  assert (distinct in_main) as H1 by exact (plain_distinct (asked before) no_heap F (NoDup_nil_2)).
  pose proof (logged_distinct (asked during + e_create E) in_main F H1) as Hd.
  destruct (logged_taken_used (asked during + e_create E) in_main) as (more & Hm & Hs). unfold distinct in Hd. rewrite Hm in Hd.
  assert (h_used in_main = plain_blocks (asked before) no_heap) as Hi.
  { unfold in_main, at_start. cbn. rewrite plain_used. reflexivity. }
  rewrite Hi in Hd. refine (sublist_distinct _ _ _ Hd). apply sublist_app; [reflexivity|exact Hs].
Qed.
Lemma program_all_distinct old ps create file h : fresh_blocks E -> program E before during old ps create file h -> NoDup (h_used h).
Proof.
  intros F H. apply NoDup_ListNoDup. apply program_is in H. destruct H as (_ & _ & _ & _ & h2 & Hw & ->).
  refine (writes_distinct _ _ _ _ F _ Hw (or_intror eq_refl)). change (distinct created). unfold created, at_end.
  apply logged_distinct, logged_distinct; try exact F. exact (plain_distinct (asked before) no_heap F NoDup_nil_2).
Qed.
End run.
End allocator.
