(** --wait action by action (C60, C80). *)
From stdpp Require Import gmap.
From Verif Require Import M_Base M_Utf8 M_Prims M_Types M_Recovery M_Json M_Storage M_Passwords S_Vault M_History S_Api P_Base M_Cli S_Cli M_Args M_Steps S_Steps M_Pipe S_Pipe M_Wait
  P_Steps P_Points P_StepCalls P_StepFile P_StepProps P_StepShell P_Pipe P_PipeMain P_Shell.

Definition told (x : exit) : Prop := x = Success \/ x = Failure.
Lemma main_ok P E path a t x t1 : completes (main_p P E path a) t (COk x) t1 <-> main P E path a t = (x, t1) /\ told x.
Proof.
  rewrite main_completes. split.
  - intros (y & H & Ho). unfold told. destruct y; cbn in Ho; try discriminate Ho; injection Ho as <-; auto.
  - intros [H [-> | ->]]; eexists; (split; [exact H|reflexivity]).
Qed.
Lemma main_no_error P E path a t m t1 : ~ completes (main_p P E path a) t (CErr m) t1.
Proof. rewrite main_completes. intros (y & _ & Ho). destruct y; discriminate Ho. Qed.
Lemma main_aborts P E path a t t1 : completes (main_p P E path a) t CPanic t1 <-> main P E path a t = (Aborted, t1).
Proof.
  rewrite main_completes. split; [|intros H; exists Aborted; split; [exact H|reflexivity]]. intros (y & H & Ho). destruct y; try discriminate Ho. exact H.
Qed.

(** The end of the process with --wait *)
Definition waits_p (x : exit) : prog exit := do _ <- Flush; do _ <- Direct WAITING; do _ <- Stdin; Ret x.
Lemma waits_completes x t r t' : told x -> completes (waits_p x) t r t' <->
  match wait_for_line t with (COk _, t1) => r = COk x /\ t' = t1 | (_, t1) => r = CPanic /\ t' = t1 end.
Proof.
  intros _. assert (sim (waits_p x) (let& _ := wait_for_line in cret x)) as Hs.
  { assert (forall t0, (let& _ := wait_for_line in cret x) t0 = (let& _ := flush_stdout in let& _ := write_direct WAITING in let& _ := stdin_line in cret x) t0) as E0.
    { intros t0. unfold wait_for_line, stdin_line, cbind, flush_stdout, write_direct, cret. cbn. destruct (read_line (t_stdin t0)) as [l rest]. destruct (utf8 l); reflexivity. }
    assert (sim (waits_p x) (let& _ := flush_stdout in let& _ := write_direct WAITING in let& _ := stdin_line in cret x)) as Hs0.
    { unfold waits_p. apply sim_bind; [apply sim_flush|intros _]. apply sim_bind; [apply sim_direct|intros _]. apply sim_bind; [apply sim_stdin|intros _]. apply sim_ret. }
    intros t0 r0 t0'. rewrite (Hs0 t0 r0 t0'). unfold acts. rewrite E0. reflexivity. }
  rewrite (Hs t r t'). unfold acts, cbind, cret. destruct (wait_for_line t) as [[u|m| |] t1] eqn:E.
  - split; [intros [H _]; injection H as <- <-; auto|]. intros [-> ->]. split; [reflexivity|discriminate].
  - unfold wait_for_line, cbind, flush_stdout, write_direct in E. cbn in E. destruct (read_line _) as [l rest]. destruct (utf8 l); discriminate E.
  - split; [intros [H _]; injection H as <- <-; auto|]. intros [-> ->]. split; [reflexivity|discriminate].
  - unfold wait_for_line, cbind, flush_stdout, write_direct in E. cbn in E. destruct (read_line _) as [l rest]. destruct (utf8 l); discriminate E.
Qed.

Lemma program_completes P E path i t r t' :
  completes (program_p P E path i) t r t' <-> exists x, program P E path i t = (x, t') /\ outcome x = Some r.
Proof.
  unfold program_p. destruct (i_wait i) eqn:Hi.
  - change (completes (Bind (main_p P E path (i_args i)) waits_p) t r t' <-> exists x, program P E path i t = (x, t') /\ outcome x = Some r).
    cbn [completes]. unfold program. rewrite Hi. split.
    + intros [(x & t1 & H1 & H2)|[(m & H1 & _)|(H1 & ->)]].
      * apply main_ok in H1. destruct H1 as [H1 T]. rewrite H1. apply (waits_completes x _ _ _ T) in H2.
        destruct (wait_for_line t1) as [[u|m| |] t2]; destruct H2 as [-> ->]; destruct T as [-> | ->]; eexists; (split; reflexivity).
      * destruct (main_no_error _ _ _ _ _ _ _ H1).
      * apply main_aborts in H1. rewrite H1. exists Aborted. split; reflexivity.
    + destruct (main P E path (i_args i) t) as [x t1] eqn:Hm. intros (y & H & Ho).
      assert (told x \/ x = Aborted \/ x = Waiting) as [T|[-> | ->]] by (unfold told; destruct x; auto).
      * left. exists x, t1. split; [apply main_ok; auto|]. apply (waits_completes x _ _ _ T).
        destruct (wait_for_line t1) as [[u|m| |] t2]; destruct T as [-> | ->]; injection H as <- <-; cbn in Ho; injection Ho as <-; auto.
      * injection H as <- <-. cbn in Ho. injection Ho as <-. right. right. split; [apply main_aborts; exact Hm|reflexivity].
      * injection H as <- <-. discriminate Ho.
  - cbn [completes]. unfold program. rewrite Hi. split.
    + intros [(x & t1 & H1 & -> & ->)|[(m & H1 & _)|(H1 & ->)]].
      * apply main_ok in H1. destruct H1 as [H1 T]. rewrite H1. destruct T as [-> | ->]; eexists; (split; reflexivity).
      * destruct (main_no_error _ _ _ _ _ _ _ H1).
      * apply main_aborts in H1. rewrite H1. exists Aborted. split; reflexivity.
    + destruct (main P E path (i_args i) t) as [x t1] eqn:Hm. intros (y & H & Ho).
      assert (told x \/ x = Aborted \/ x = Waiting) as [T|[-> | ->]] by (unfold told; destruct x; auto).
      * left. exists x, t1. split; [apply main_ok; auto|]. destruct T as [-> | ->]; injection H as <- <-; cbn in Ho; injection Ho as <-; split; reflexivity.
      * injection H as <- <-. cbn in Ho. injection Ho as <-. right. right. split; [apply main_aborts; exact Hm|reflexivity].
      * injection H as <- <-. discriminate Ho.
Qed.

(** At any moment: as without --wait, or everything else is done. *)
Lemma program_during P E path i t pt : during (program_p P E path i) t pt ->
  during (main_p P E path (i_args i)) t pt \/
  (i_wait i = true /\ exists x t1, main P E path (i_args i) t = (x, t1) /\ told x /\ t_st (pt_term pt) = t_st t1 /\ t_err (pt_term pt) = t_err t1 /\ t_stdin (pt_term pt) = t_stdin t1 /\
    ((pt_next pt = Flushes /\ pt_term pt = t1) \/ (pt_next pt = Writes WAITING /\ t_shown (pt_term pt) = t_shown t1 ++ t_buf t1) \/
     (pt_next pt = Waits Input /\ t_shown (pt_term pt) = (t_shown t1 ++ t_buf t1) ++ WAITING))).
Proof.
  unfold program_p. cbn [during]. intros [H|(x & t1 & H1 & H2)]; [left; exact H|]. apply main_ok in H1. destruct H1 as [H1 T]. destruct (i_wait i); [|destruct H2].
  right. split; [reflexivity|]. exists x, t1. split; [exact H1|]. split; [exact T|]. cbn [during completes] in H2.
  destruct H2 as [->|(u & t2 & G & H2)]; [repeat split; left; auto|]. destruct G as [G _]. injection G as _ <-.
  destruct H2 as [->|(u2 & t3 & G & H2)]; [repeat split; right; left; auto|]. destruct G as [G _]. injection G as _ <-.
  destruct H2 as [->|(u3 & t4 & G & [])]. repeat split. right. right. auto.
Qed.

Lemma program_pipe P E path i L t x t1 : fits L t -> program P E path i t = (x, t1) -> x <> Waiting ->
  (fits L t1 -> exists r, outcome x = Some r /\ forall r' t', completes_to L (program_p P E path i) t r' t' <-> r' = r /\ t' = t1) /\
  (~ fits L t1 -> (exists t', completes_to L (program_p P E path i) t CPanic t') /\
     forall r' t', completes_to L (program_p P E path i) t r' t' -> r' = CPanic /\ begins (t_shown t') (t_shown t1) /\ begins (t_err t') (t_err t1) /\
       (length (t_shown t') = lim_out L \/ length (t_err t') = lim_err L)).
Proof.
  intros Hf Hm Hw. assert (exists r, outcome x = Some r) as [r Hr] by (destruct x; cbn; eauto; contradiction).
  assert (completes (program_p P E path i) t r t1) as Hc by (apply program_completes; eauto). split.
  - intros F. exists r. split; [exact Hr|]. pose proof (unlimited L _ _ _ _ Hc F) as U. intros r' t'. split.
    + intros H. exact (completes_to_once L _ _ _ _ _ _ H U).
    + intros [-> ->]. exact U.
  - intros F. destruct (overflow L _ _ _ _ Hc Hf F) as [t' Ho]. split; [eauto|]. intros r' t'' H.
    destruct (completes_to_once L _ _ _ _ _ _ H Ho) as [-> ->]. split; [reflexivity|].
    destruct (limited_begins L _ _ _ _ _ _ Hf Ho Hc) as [B1 B2]. split; [exact B1|]. split; [exact B2|].
    destruct (limited L _ _ _ _ Hf Ho) as [[G F']|[_ (pt & D & W)]].
    + destruct (completes_once _ _ _ _ _ _ G Hc) as [_ ->]. contradiction.
    + destruct W as [_ W]. destruct (pt_next pt); try contradiction; [left|left|left|right]; tauto.
Qed.

(** The text of --wait cannot be written: everything else has been done. *)
Lemma program_file P E path i L t r t' : fits L t -> completes_to L (program_p P E path i) t r t' ->
  (exists r0 t0, completes_to L (main_p P E path (i_args i)) t r0 t0 /\ t_st t' = t_st t0).
Proof.
  unfold program_p. cbn [completes_to]. intros Hf [(x & t1 & H1 & H2)|[(m & H1 & _)|(H1 & ->)]]; [|eauto|eauto]. exists (COk x), t1. split; [exact H1|].
  assert (fits L t1) as F1.
  { destruct (limited L _ _ _ _ Hf H1) as [[_ F]|[K _]]; [exact F|discriminate K]. }
  destruct (i_wait i); [|destruct H2 as [_ ->]; reflexivity].
  destruct (limited L (waits_p x) t1 r t' F1 H2) as [[G _]|[_ (pt & D & W & _)]].
  - assert (told x \/ ~ told x) as [T|T] by (unfold told; destruct x; ((left; auto; fail) || (right; intros [K|K]; discriminate K))).
    + apply (waits_completes x _ _ _ T) in G. unfold wait_for_line, cbind, flush_stdout, write_direct in G. cbn in G. destruct (read_line _) as [l rest].
      destruct (utf8 l); destruct G as [_ ->]; reflexivity.
    + destruct (limited L _ _ _ _ Hf H1) as [[K _]|[K _]]; [|discriminate K]. apply main_ok in K. destruct (T (proj2 K)).
  - rewrite W. cbn [waits_p during completes] in D. destruct D as [->|(u & t2 & G & D)]; [reflexivity|]. destruct G as [G _]. injection G as _ <-.
    destruct D as [->|(u2 & t3 & G & D)]; [reflexivity|]. destruct G as [G _]. injection G as _ <-. destruct D as [->|(u3 & t4 & G & [])]. reflexivity.
Qed.

Lemma stopped_waiting P E path i t pt : during (program_p P E path i) t pt ->
  during (main_p P E path (i_args i)) t pt \/
  (i_wait i = true /\ exists x t1, main P E path (i_args i) t = (x, t1) /\ (x = Success \/ x = Failure) /\
    t_st (pt_term pt) = t_st t1 /\ locked (t_st t1) /\ t_err (pt_term pt) = t_err t1 /\ t_stdin (pt_term pt) = t_stdin t1 /\
    match pt_next pt with
    | Flushes | Writes _ => t_shown (pt_term pt) = t_shown t1
    | Waits Input => t_shown (pt_term pt) = t_shown t1 ++ newline :: bs "Waiting..." ++ [newline]
    | _ => False
    end).
Proof.
  intros H. destruct (program_during P E path i t pt H) as [G|(Hw & x & t1 & Hm & T & H1 & H2 & H3 & H4)]; [left; exact G|right]. split; [exact Hw|].
  pose proof (waiting P E path None (i_args i) t x t1 Hm) as [_ K].
  assert (t_buf t1 = [] /\ locked (t_st t1)) as [Kb Kl].
  { destruct T as [-> | ->]; destruct (read_line (t_stdin t1)); exact (proj2 K). }
  exists x, t1. split; [exact Hm|]. split; [exact T|]. split; [exact H1|]. split; [exact Kl|]. split; [exact H2|]. split; [exact H3|].
  rewrite Kb, app_nil_r in H4. destruct H4 as [[-> ->]|[[-> ->]|[-> ->]]]; reflexivity.
Qed.

Lemma wait_file P E path i L t r t' : prims_ok P -> externals_valid E -> command_valid (a_command (i_args i)) -> typed_valid t -> fits L t ->
  completes_to L (program_p P E path i) t r t' ->
  (a_command (i_args i) <> Shell -> s_disk (t_st t') = s_disk (t_st t) \/
     exists x t1, main P E path (i_args i) t = (x, t1) /\ x <> Waiting /\ s_disk (t_st t1) = s_disk (t_st t')) /\
  (a_command (i_args i) = Shell -> (exists x t1, main P E path (i_args i) t = (x, t1) /\ x <> Waiting /\ s_disk (t_st t1) = s_disk (t_st t')) \/
     exists k x t1, main P E path (i_args i) (with_lines (firstn k (t_lines t) ++ [Eof]) t) = (x, t1) /\ x <> Waiting /\ s_disk (t_st t1) = s_disk (t_st t')).
Proof.
  intros HP HE Hc Ht Hf H. destruct (program_file P E path i L t r t' Hf H) as (r0 & t0 & H0 & Es). rewrite Es.
  split; [exact (proj1 (pipe_file P E path (i_args i) L t r0 t0 HP HE Hc Ht Hf H0))|]. intros Hs.
  destruct (pipe_outcome P E path (i_args i) L t r0 t0 Hf H0) as [(x & G1 & G2 & _)|[_ (pt & D & W)]].
  - left. exists x, t0. split; [exact G1|]. split; [|reflexivity]. intros ->. discriminate G2.
  - right. destruct (pipe_stopped P L pt t0 W) as [S N]. destruct (stopped_shell P E path (i_args i) t pt _ HP HE Hc Ht Hs D S) as [G|[G _]]; [exact G|]. destruct (N _ G).
Qed.
