(** The logging allocator with several threads. *)
From stdpp Require Import gmap.
From Verif Require Import M_Base M_Logging S_Logging M_LogThreads.

Lemma goes_same t x f : goes t x f t = x. Proof. unfold goes. rewrite Nat.eqb_refl. reflexivity. Qed.
Lemma goes_other t x f t' : t' <> t -> goes t x f t' = f t'.
Proof. intros H. unfold goes. destruct (Nat.eqb_spec t' t); [contradiction|reflexivity]. Qed.

Definition pending (x : stage) (p : N) : Prop := (exists i, x = Obtained p i) \/ exists i k, x = Logging p i k.
Record fine (g : shared) : Prop := {
  f_holder : forall t, (exists p i k, g_stage g t = Logging p i k) <-> g_holder g = Some t;
  f_pending : forall t p, pending (g_stage g t) p -> In p (g_used g) /\ ~ In p (map snd (g_returned g));
  f_apart : forall t t' p, pending (g_stage g t) p -> pending (g_stage g t') p -> t = t';
  f_returned : forall p, In p (map snd (g_returned g)) -> In p (g_used g);
  f_logged : forall p, In p (map fst (g_log g)) -> In p (map snd (g_returned g));
  f_once : List.NoDup (map snd (g_returned g));
  f_log_once : List.NoDup (map fst (g_log g))
}.

Lemma nodup_snoc (l : list N) p : List.NoDup l -> ~ In p l -> List.NoDup (l ++ [p]).
Proof. intros H Hp. apply NoDup_ListNoDup, NoDup_app. split; [apply NoDup_ListNoDup, H|]. split; [|apply NoDup_singleton].
  intros x Hx Hy. apply elem_of_list_singleton in Hy. subst x. apply Hp, elem_of_list_In, Hx. Qed.

Lemma fine_start : fine all_ready.
Proof.
  constructor; cbn.
  - intros t. split; [intros (p & i & k & H); discriminate H|discriminate].
  - intros t p [[i H]|(i & k & H)]; discriminate H.
  - intros t t' p [[i H]|(i & k & H)]; discriminate H.
  - intros p [].
  - intros p [].
  - constructor.
  - constructor.
Qed.

Lemma pending_goes t x f t' p : pending (goes t x f t') p -> t' = t /\ pending x p \/ t' <> t /\ pending (f t') p.
Proof. destruct (decide (t' = t)) as [->|H]; [rewrite goes_same; auto|rewrite goes_other by exact H; auto]. Qed.
Lemma pending_obtained p i q : pending (Obtained p i) q <-> q = p.
Proof. split; [intros [[j H]|(j & k & H)]; congruence|intros ->; left; eauto]. Qed.
Lemma pending_logging p i k q : pending (Logging p i k) q <-> q = p.
Proof. split; [intros [[j H]|(j & k' & H)]; congruence|intros ->; right; eauto]. Qed.
Lemma pending_ready q : ~ pending Ready q.
Proof. intros [[j H]|(j & k & H)]; discriminate H. Qed.

Lemma fine_step E t g g' : fresh_blocks E -> fine g -> tstep E t g g' -> fine g'.
Proof.
  intros HE [Hh Hp Ha Hr Hl H1 H2] H. inversion H as [Hs p E0|p i Hs Hn E0|p i Hs Hn E0|p i k Hs Hn E0|p i Hs E0]; subst.
  - (* obtain *) assert (~ In p (g_used g)) as Hnew by apply HE.
    constructor; cbn; auto.
    + intros t'. rewrite <- Hh. destruct (decide (t' = t)) as [->|Hne]; [rewrite goes_same, Hs|rewrite goes_other by exact Hne; tauto].
      split; intros (q & j & k & F); discriminate F.
    + intros t' q Hq. apply pending_goes in Hq. destruct Hq as [[-> Hq]|[Hne Hq]].
      * apply pending_obtained in Hq. subst q. split; [apply in_or_app; right; left; reflexivity|]. intros F. exact (Hnew (Hr _ F)).
      * destruct (Hp _ _ Hq) as [F1 F2]. split; [apply in_or_app; auto|exact F2].
    + intros t1 t2 q Hq Hq'. apply pending_goes in Hq, Hq'. destruct Hq as [[-> Hq]|[Hne Hq]], Hq' as [[-> Hq']|[Hne' Hq']]; auto.
      * apply pending_obtained in Hq. subst q. destruct (Hnew (proj1 (Hp _ _ Hq'))).
      * apply pending_obtained in Hq'. subst q. destruct (Hnew (proj1 (Hp _ _ Hq))).
      * exact (Ha _ _ _ Hq Hq').
    + intros q Hq. apply in_or_app. auto.
  - (* skip *) assert (pending (g_stage g t) p) as Hpt by (rewrite Hs; apply pending_obtained; reflexivity).
    constructor; cbn; rewrite ?map_app; cbn; auto.
    + intros t'. rewrite <- Hh. destruct (decide (t' = t)) as [->|Hne]; [rewrite goes_same, Hs|rewrite goes_other by exact Hne; tauto].
      split; intros (q & j & k & F); discriminate F.
    + intros t' q Hq. apply pending_goes in Hq. destruct Hq as [[-> Hq]|[Hne Hq]]; [destruct (pending_ready _ Hq)|].
      destruct (Hp _ _ Hq) as [F1 F2]. split; [exact F1|]. intros F. apply in_app_or in F. destruct F as [F|[<-|[]]]; [exact (F2 F)|].
      apply Hne, (Ha _ _ _ Hq Hpt).
    + intros t1 t2 q Hq Hq'. apply pending_goes in Hq, Hq'. destruct Hq as [[-> Hq]|[Hne Hq]]; [destruct (pending_ready _ Hq)|].
      destruct Hq' as [[-> Hq']|[Hne' Hq']]; [destruct (pending_ready _ Hq')|]. exact (Ha _ _ _ Hq Hq').
    + intros q Hq. apply in_app_or in Hq. destruct Hq as [Hq|[<-|[]]]; [auto|]. exact (proj1 (Hp _ _ Hpt)).
    + intros q Hq. apply in_or_app. auto.
    + apply nodup_snoc; [exact H1|exact (proj2 (Hp _ _ Hpt))].
  - (* lock *) assert (pending (g_stage g t) p) as Hpt by (rewrite Hs; apply pending_obtained; reflexivity).
    constructor; cbn; auto.
    + intros t'. destruct (decide (t' = t)) as [->|Hne]; [rewrite goes_same|rewrite goes_other by exact Hne].
      * split; [reflexivity|]. intros _. eauto.
      * rewrite Hh, Hn. split; [discriminate|]. intros [= F]. congruence.
    + intros t' q Hq. apply pending_goes in Hq. destruct Hq as [[-> Hq]|[Hne Hq]]; [|exact (Hp _ _ Hq)].
      apply pending_logging in Hq. subst q. exact (Hp _ _ Hpt).
    + intros t1 t2 q Hq Hq'. apply pending_goes in Hq, Hq'. destruct Hq as [[-> Hq]|[Hne Hq]], Hq' as [[-> Hq']|[Hne' Hq']]; auto.
      * apply pending_logging in Hq. subst q. exact (Ha _ _ _ Hpt Hq').
      * apply pending_logging in Hq'. subst q. exact (Ha _ _ _ Hq Hpt).
      * exact (Ha _ _ _ Hq Hq').
  - (* own *) assert (pending (g_stage g t) p) as Hpt by (rewrite Hs; apply pending_logging; reflexivity).
    constructor; cbn; auto.
    + intros t'. rewrite <- Hh. destruct (decide (t' = t)) as [->|Hne]; [rewrite goes_same, Hs|rewrite goes_other by exact Hne; tauto].
      split; intros _; eauto.
    + intros t' q Hq. apply pending_goes in Hq. destruct Hq as [[-> Hq]|[Hne Hq]].
      * apply pending_logging in Hq. subst q. destruct (Hp _ _ Hpt). split; [apply in_or_app; auto|assumption].
      * destruct (Hp _ _ Hq). split; [apply in_or_app; auto|assumption].
    + intros t1 t2 q Hq Hq'. apply pending_goes in Hq, Hq'. destruct Hq as [[-> Hq]|[Hne Hq]], Hq' as [[-> Hq']|[Hne' Hq']]; auto.
      * apply pending_logging in Hq. subst q. exact (Ha _ _ _ Hpt Hq').
      * apply pending_logging in Hq'. subst q. exact (Ha _ _ _ Hq Hpt).
      * exact (Ha _ _ _ Hq Hq').
    + intros q Hq. apply in_or_app. auto.
  - (* push *) assert (pending (g_stage g t) p) as Hpt by (rewrite Hs; apply pending_logging; reflexivity).
    assert (g_holder g = Some t) as Ht by (apply Hh; rewrite Hs; eauto).
    constructor; cbn; rewrite ?map_app; cbn; auto.
    + intros t'. destruct (decide (t' = t)) as [->|Hne]; [rewrite goes_same|rewrite goes_other by exact Hne].
      * split; [intros (q & j & k & F); discriminate F|discriminate].
      * rewrite Hh, Ht. split; [intros [= F]; congruence|discriminate].
    + intros t' q Hq. apply pending_goes in Hq. destruct Hq as [[-> Hq]|[Hne Hq]]; [destruct (pending_ready _ Hq)|].
      destruct (Hp _ _ Hq) as [F1 F2]. split; [exact F1|]. intros F. apply in_app_or in F. destruct F as [F|[<-|[]]]; [exact (F2 F)|].
      apply Hne, (Ha _ _ _ Hq Hpt).
    + intros t1 t2 q Hq Hq'. apply pending_goes in Hq, Hq'. destruct Hq as [[-> Hq]|[Hne Hq]]; [destruct (pending_ready _ Hq)|].
      destruct Hq' as [[-> Hq']|[Hne' Hq']]; [destruct (pending_ready _ Hq')|]. exact (Ha _ _ _ Hq Hq').
    + intros q Hq. apply in_app_or in Hq. destruct Hq as [Hq|[<-|[]]]; [auto|]. exact (proj1 (Hp _ _ Hpt)).
    + intros q Hq. apply in_or_app. apply in_app_or in Hq. destruct Hq as [Hq|[<-|[]]]; [left; auto|right; left; reflexivity].
    + apply nodup_snoc; [exact H1|exact (proj2 (Hp _ _ Hpt))].
    + apply nodup_snoc; [exact H2|]. intros F. exact (proj2 (Hp _ _ Hpt) (Hl _ F)).
Qed.
Lemma interleaved_fine E g : fresh_blocks E -> interleaved E g -> fine g.
Proof. intros HE. induction 1; [apply fine_start|]. eapply fine_step; eassumption. Qed.

Lemma threads_log E g : fresh_blocks E -> interleaved E g ->
  List.NoDup (map fst (g_log g)) /\ List.NoDup (map snd (g_returned g)) /\
  forall p trace, In (p, trace) (g_log g) -> exists t, In (t, p) (g_returned g).
Proof.
  intros HE H. destruct (interleaved_fine E g HE H) as [_ _ _ _ Hl H1 H2]. split; [exact H2|]. split; [exact H1|].
  intros p trace Hi. assert (In p (map fst (g_log g))) as F by (apply in_map_iff; exists (p, trace); auto).
  apply Hl, in_map_iff in F. destruct F as ([t q] & <- & F). exists t. exact F.
Qed.

(** A thread need not wait for another one. *)
Lemma logging_alone E t k : forall g p i, g_stage g t = Logging p i k -> g_holder g <> None ->
  exists g', alone E t g g' /\ g_stage g' t = Ready /\ g_returned g' = g_returned g ++ [(t, p)] /\ g_log g' = g_log g ++ [(p, e_trace E i)].
Proof.
  induction k as [|k IH]; intros g p i Hs Hn.
  - eexists. split; [eapply al_step; [eapply t_push; exact Hs|apply al_stop]|]. cbn. rewrite goes_same. auto.
  - destruct (IH (mk_shared (g_log g) (g_holder g) (g_used g ++ [e_system E (g_used g)]) (goes t (Logging p i k) (g_stage g)) (g_returned g)) p i) as (g' & Ha & Hg);
      [apply goes_same|exact Hn|].
    exists g'. split; [|exact Hg]. eapply al_step; [eapply t_own; eassumption|exact Ha].
Qed.
Lemma no_waiting E g t : fresh_blocks E -> interleaved E g ->
  exists g', alone E t g g' /\ g_stage g' t = Ready /\
    forall p, pending (g_stage g t) p -> g_returned g' = g_returned g ++ [(t, p)].
Proof.
  intros HE H. destruct (interleaved_fine E g HE H) as [Hh _ _ _ _ _ _].
  destruct (g_stage g t) as [|p i|p i k] eqn:Hs.
  - exists g. split; [apply al_stop|]. split; [exact Hs|]. intros p F. destruct (pending_ready _ F).
  - destruct (g_holder g) as [u|] eqn:Hn.
    + eexists. split; [eapply al_step; [eapply t_skip; [exact Hs|rewrite Hn; discriminate]|apply al_stop]|]. cbn. rewrite goes_same.
      split; [reflexivity|]. intros q Hq. apply pending_obtained in Hq. subst q. reflexivity.
    + edestruct (logging_alone E t (e_tracing E i + e_growing E i)
        (mk_shared (g_log g) (Some t) (g_used g) (goes t (Logging p i (e_tracing E i + e_growing E i)) (g_stage g)) (g_returned g)) p i) as (g' & Ha & Hr & Hg & _);
        [apply goes_same|discriminate|].
      exists g'. split; [eapply al_step; [eapply t_lock; eassumption|exact Ha]|]. split; [exact Hr|]. intros q Hq. apply pending_obtained in Hq. subst q. exact Hg.
  - destruct (logging_alone E t k g p i Hs) as (g' & Ha & Hr & Hg & _).
    + rewrite (proj1 (Hh t)); [discriminate|]. rewrite Hs. eauto.
    + exists g'. split; [exact Ha|]. split; [exact Hr|]. intros q Hq. apply pending_logging in Hq. subst q. exact Hg.
Qed.

(** An entry is made unless another thread is making one. *)
Lemma logged_unless_busy E g : fresh_blocks E -> interleaved E g ->
  (forall t t' p i k p' i' k', g_stage g t = Logging p i k -> g_stage g t' = Logging p' i' k' -> t = t') /\
  forall t p i, (forall t' q j k, g_stage g t' <> Logging q j k) -> g_stage g t = Obtained p i ->
    (exists g', alone E t g g' /\ g_stage g' t = Ready /\ g_log g' = g_log g ++ [(p, e_trace E i)]) /\
    forall g', tstep E t g g' -> exists k, g_stage g' t = Logging p i k.
Proof.
  intros HE H. destruct (interleaved_fine E g HE H) as [Hh _ _ _ _ _ _]. split.
  - intros t t' p i k p' i' k' H1 H2. assert (g_holder g = Some t) as F1 by (apply Hh; eauto). assert (g_holder g = Some t') as F2 by (apply Hh; eauto). congruence.
  - intros t p i Hn Hs. assert (g_holder g = None) as F.
    { destruct (g_holder g) as [u|] eqn:F; [|reflexivity]. destruct (proj2 (Hh u) eq_refl) as (q & j & k & F'). destruct (Hn _ _ _ _ F'). }
    split.
    + edestruct (logging_alone E t (e_tracing E i + e_growing E i)
        (mk_shared (g_log g) (Some t) (g_used g) (goes t (Logging p i (e_tracing E i + e_growing E i)) (g_stage g)) (g_returned g)) p i) as (g' & Ha & Hr & _ & Hg);
        [apply goes_same|discriminate|].
      exists g'. split; [eapply al_step; [eapply t_lock; eassumption|exact Ha]|]. split; [exact Hr|exact Hg].
    + intros g' Ht. inversion Ht as [Hs' q E0|q j Hs' Hn' E0|q j Hs' Hn' E0|q j k Hs' Hn' E0|q j Hs' E0]; subst; try congruence.
      cbn. rewrite goes_same. rewrite Hs in Hs'. injection Hs' as -> ->. eauto.
Qed.
