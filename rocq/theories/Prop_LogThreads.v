(** C83 with several threads. *)
From stdpp Require Import gmap.
From Verif Require Import M_Base M_Logging S_Logging M_LogThreads P_LogThreads.

(** Whatever the other threads are doing, also if they are stopped in the middle of it: a thread that goes on by itself comes to the
    end of its request and gets its block. *)
Theorem C83_no_waiting : forall E g t, fresh_blocks E -> interleaved E g ->
  exists g', alone E t g g' /\ g_stage g' t = Ready /\
    forall p i k, g_stage g t = Obtained p i \/ g_stage g t = Logging p i k -> g_returned g' = g_returned g ++ [(t, p)].
Proof.
  intros E g t HE H. destruct (no_waiting E g t HE H) as (g' & Ha & Hr & Hp). exists g'. split; [exact Ha|]. split; [exact Hr|].
  intros p i k Hs. apply Hp. destruct Hs as [Hs|Hs]; [left|right]; eauto.
Qed.
Print Assumptions C83_no_waiting.

(** No block is handed out twice, none is in the log twice, and all that are in the log have been handed out to a thread of the
    program, not to the allocator itself. *)
Theorem C83_threads : forall E g, fresh_blocks E -> interleaved E g ->
  List.NoDup (map fst (g_log g)) /\ List.NoDup (map snd (g_returned g)) /\
  forall p trace, In (p, trace) (g_log g) -> exists t, In (t, p) (g_returned g).
Proof. exact threads_log. Qed.
Print Assumptions C83_threads.

(** Only one thread at a time adds to the log. A block is left out only if another thread is doing that when it is obtained. *)
Theorem C83_threads_logged : forall E g, fresh_blocks E -> interleaved E g ->
  (forall t t' p i k p' i' k', g_stage g t = Logging p i k -> g_stage g t' = Logging p' i' k' -> t = t') /\
  forall t p i, (forall t' q j k, g_stage g t' <> Logging q j k) -> g_stage g t = Obtained p i ->
    (exists g', alone E t g g' /\ g_stage g' t = Ready /\ g_log g' = g_log g ++ [(p, e_trace E i)]) /\
    forall g', tstep E t g g' -> exists k, g_stage g' t = Logging p i k.
Proof. exact logged_unless_busy. Qed.
Print Assumptions C83_threads_logged.

Definition th_env : alloc_env :=
  mk_alloc_env (fun used => fold_right N.max 4080 used + 16)%N (fun i => bs "at " ++ repeat x2a i) (fun _ => 1) (fun _ => 0) 1 (fun _ => 2).
Lemma th_fresh : fresh_blocks th_env.
Proof.
  intros used H. assert (forall l x, In x l -> x <= fold_right N.max 4080 l)%N as Hm.
  { induction l as [|y l IH]; intros x []; cbn [fold_right]; [subst; lia|]. pose proof (IH x ltac:(assumption)). lia. }
  specialize (Hm _ _ H). unfold th_env in Hm. cbn [e_system] in Hm. lia.
Qed.
Lemma then_ E t g g' : tstep E t g g' -> interleaved E g -> interleaved E g'.
Proof. intros H H'. exact (in_step E t g g' H' H). Qed.
(** Thread 1 asks for memory while thread 0 makes a backtrace. *)
Example C83_threads_example : exists g, interleaved th_env g /\ g_returned g = [(1, 4112%N); (0, 4096%N)] /\
  g_log g = [(4096%N, bs "at ")] /\ g_used g = [4096%N; 4112%N; 4128%N] /\ forall t, g_stage g t = Ready.
Proof.
  pose proof (in_start th_env) as H0.
  match type of H0 with interleaved _ ?g => pose proof (then_ _ _ _ _ (t_obtain th_env 0 g eq_refl) H0) as H1 end. clear H0.
  match type of H1 with interleaved _ ?g => pose proof (then_ _ _ _ _ (t_lock th_env 0 g _ _ eq_refl eq_refl) H1) as H2 end. clear H1.
  match type of H2 with interleaved _ ?g => pose proof (then_ _ _ _ _ (t_obtain th_env 1 g eq_refl) H2) as H3 end. clear H2.
  match type of H3 with interleaved _ ?g => pose proof (then_ _ _ _ _ (t_skip th_env 1 g _ _ eq_refl ltac:(discriminate)) H3) as H4 end. clear H3.
  match type of H4 with interleaved _ ?g => pose proof (then_ _ _ _ _ (t_own th_env 0 g _ _ _ eq_refl ltac:(discriminate)) H4) as H end. clear H4.
  match type of H with interleaved _ ?g => pose proof (then_ _ _ _ _ (t_push th_env 0 g _ _ eq_refl) H) as H5 end. clear H.
  eexists. split; [exact H5|]. split; [|split; [|split]].
  - reflexivity.
  - reflexivity.
  - reflexivity.
  - intros [|[|t]]; reflexivity.
Qed.

(** With several threads the log is not complete. *)
Theorem C83_threads_all_refuted : ~ forall E g, fresh_blocks E -> interleaved E g -> (forall t, g_stage g t = Ready) ->
  forall t p, In (t, p) (g_returned g) -> In p (map fst (g_log g)).
Proof.
  intros H. destruct C83_threads_example as (g & Hi & Hr & Hl & _ & Hs). specialize (H _ _ th_fresh Hi Hs 1 4112%N).
  rewrite Hr, Hl in H. destruct (H (or_introl eq_refl)) as [F|[]]. discriminate F.
Qed.
Print Assumptions C83_threads_all_refuted.
