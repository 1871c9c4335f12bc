(** Stopping a process. *)
From Coq Require Import ZArith ZifyBool ZifyNat ZifyN.
From stdpp Require Import gmap.
From Verif Require Import M_Base M_Base64 M_Utf8 M_Prims M_Types M_Crypto M_Recovery M_Json M_Serde M_Storage M_Passwords S_Serde
  S_Vault M_History S_Api P_Base P_Utf8 P_Json P_Serde P_Storage P_Api P_File P_Calls P_Props M_Cli S_Cli P_CliBase P_CliCalls P_CliCommands M_Steps S_Steps
  P_Steps P_Points P_StepCalls P_StepFile.

(** * Writing the file *)

(** A call that writes the file writes the text for the data in memory after it. *)
Lemma exec_flushed P o s : prims_ok P -> s_flushes (snd (exec P o s)) <> s_flushes s ->
  s_disk (snd (exec P o s)) = match p_write P (s_flushes s) with
    | WriteOk => Some (flush_text P (snd (exec P o s)))
    | WriteFailsAfter n => Some (firstn n (flush_text P (snd (exec P o s))))
    | _ => s_disk s
    end.
Proof.
  intros HP Hf.
  assert (forall s1, s_flushes s1 = s_flushes s -> s_disk s1 = s_disk s -> s_disk (snd (flush P s1)) = match p_write P (s_flushes s) with
    | WriteOk => Some (flush_text P s1) | WriteFailsAfter n => Some (firstn n (flush_text P s1)) | _ => s_disk s end) as HF.
  { intros s1 E1 E2. unfold flush. rewrite E1, <- E2. destruct (p_write P (s_flushes s)); reflexivity. }
  destruct (modifies o) eqn:Em.
  - destruct (is_reset o) eqn:Er.
    + destruct (not_reset o Er) as [pp ->].
      destruct (reset_cases P pp s HP) as (s1 & _ & Hd & Hfl & _ & _ & _ & _ & H).
      destruct (flush_facts P s1) as (F1 & _ & F3 & _).
      assert (s_disk (snd (exec P (Reset pp) s)) = s_disk (snd (flush P s1)) /\ flush_text P (snd (exec P (Reset pp) s)) = flush_text P s1) as [-> ->].
      { destruct H as [(_ & _ & ->)|(_ & ->)]; [split; [reflexivity|]|rewrite done_out_snd; split; [reflexivity|]].
        - apply flush_text_data; [exact F1|exact F3].
        - apply flush_text_data; assumption. }
      apply HF; assumption.
    + destruct (exec_shaped P o s Em Er) as [[((E1 & E2 & E3) & _) _]|(s1 & ((E1 & E2 & E3) & _) & H)]; [contradiction|].
      rewrite H, done_out_snd. destruct (flush_facts P s1) as (F1 & _ & F3 & _). rewrite (flush_text_data P s1 _ F1 F3). apply HF; assumption.
  - exfalso. apply Hf. destruct (reading o) eqn:Er.
    + destruct (exec_reading P o s Er) as ((_ & _ & _ & _ & E) & _). exact E.
    + destruct o; try discriminate Em; try discriminate Er.
      * cbn [exec]. rewrite as_out_snd. unfold unlock, bindM, reads, lift.
        destruct (get_salt (s_data s)) as [salt|e|]; [|reflexivity..].
        destruct (get_encryption_key P pp salt) as [key|e|]; [|reflexivity..].
        destruct (get_hmac_secret P (s_data s) key) as [x|e|]; reflexivity.
      * reflexivity.
      * reflexivity.
      * destruct l; discriminate.
Qed.

Lemma started_restart P s : started P (snd (exec P Restart s)).
Proof.
  cbn [exec snd passwords_new]. split; [repeat split|]. cbn [s_data s_disk passwords_new].
  destruct (load P (s_disk s)); [right; reflexivity|left; reflexivity..].
Qed.

(** Every moment is reached by calls of the library. *)
Lemma moment_history P E path a t pt : externals_valid E -> command_valid (a_command a) -> typed_valid t ->
  during (main_p P E path a) t pt ->
  (pt_term pt = t /\ pt_next pt = Calls (snd (exec P Restart (t_st t)))) \/
  exists l, Forall (fun o => o = Lock \/ session_calls E (a_command a) o /\ op_valid o) l /\
    t_st (pt_term pt) = snd (run P (Restart :: l) (t_st t)) /\
    forall s, pt_next pt = Calls s -> s = t_st (pt_term pt) \/
      exists o, (o = Lock \/ session_calls E (a_command a) o /\ op_valid o) /\ s = snd (exec P o (t_st (pt_term pt))).
Proof.
  intros HE Hc Ht H. destruct (moment_calls P path E a t pt HE Hc Ht H) as [H1|(l & Hl & E1 & _ & Hn & _)]; [left; exact H1|].
  right. exists l. split; [exact Hl|]. split; [|exact Hn]. cbn [run]. destruct (exec P Restart (t_st t)) as [r s1]. cbn [snd] in E1.
  rewrite E1. destruct (run P l s1). reflexivity.
Qed.
Lemma moment_reachable P E path a t pt : externals_valid E -> command_valid (a_command a) -> typed_valid t ->
  during (main_p P E path a) t pt -> pt_term pt = t \/ reachable P (t_st (pt_term pt)).
Proof.
  intros HE Hc Ht H. destruct (moment_calls P path E a t pt HE Hc Ht H) as [[H1 _]|(l & _ & E1 & _)]; [left; exact H1|].
  right. exists l, (snd (exec P Restart (t_st t))). split; [apply started_restart|exact E1].
Qed.

(** What is said is true. *)
Lemma moment_confirmed P E path a t pt b : prims_ok P -> externals_valid E -> command_valid (a_command a) -> typed_valid t ->
  during (main_p P E path a) t pt -> pt_next pt = Prints b -> confirmation path b ->
  exists o s, confirms path o b /\ session_calls E (a_command a) o /\ op_valid o /\ reachable P s /\
    exec P o s = (ODone, t_st (pt_term pt)) /\ load P (s_disk (t_st (pt_term pt))) = Ok (s_data (t_st (pt_term pt))).
Proof.
  intros HP HE Hc Ht H Hb Hcf. destruct (moment_calls P path E a t pt HE Hc Ht H) as [[_ H1]|(l & Hl & E1 & _ & _ & H2)];
    [rewrite Hb in H1; discriminate H1|].
  destruct (H2 b Hb Hcf) as (l' & o & -> & Ho & Hm & Hd). set (s0 := snd (exec P Restart (t_st t))) in *.
  exists o, (snd (run P l' s0)). split; [exact Ho|].
  apply Forall_app in Hl. destruct Hl as [_ Hl]. inversion Hl as [|? ? Hk _]; subst. destruct Hk as [-> |[Hk1 Hk2]]; [destruct Ho|].
  split; [exact Hk1|]. split; [exact Hk2|].
  assert (reachable P (snd (run P l' s0))) as HR by (exists l', s0; split; [apply started_restart|reflexivity]).
  split; [exact HR|]. rewrite run_app, run_one in E1. cbn [snd] in E1.
  split; [rewrite E1, <- Hd; apply surjective_pairing|]. rewrite E1. exact (load_after P o _ HP HR Hm Hd).
Qed.

(** The file if the process is stopped: as it was, as after the next call, or unusable. *)
Lemma moment_stopped P E path a t pt d : prims_ok P -> externals_valid E -> command_valid (a_command a) -> typed_valid t ->
  during (main_p P E path a) t pt -> stopped P pt d ->
  d = D (pt_term pt) \/ (exists s, pt_next pt = Calls s /\ d = s_disk s /\ load P d = Ok (s_data s)) \/
  (torn P pt d /\ (load P d = Err FileReadFailure \/ load P d = Err InvalidJson)).
Proof.
  intros HP HE Hc Ht H [Hs|(s & p & q & Hn & Hf & Ep & Hd & Hw)]; [left; exact Hs|]. right.
  destruct (moment_calls P path E a t pt HE Hc Ht H) as [[H0 H1]|(l & _ & E1 & _ & H1 & _)].
  { exfalso. rewrite Hn in H1. injection H1 as ->. rewrite H0 in Hf. apply Hf. reflexivity. }
  destruct (H1 s Hn) as [-> |(o & _ & Hs)]; [contradiction|].
  assert (reachable P (t_st (pt_term pt))) as HR by (exists l, (snd (exec P Restart (t_st t))); split; [apply started_restart|exact E1]).
  set (s0 := t_st (pt_term pt)) in *. assert (reachable P s) as HR' by (rewrite Hs; apply reachable_step, HR).
  pose proof (reachable_texts P _ HP HR') as Htx. destruct q as [|q0 q].
  - left. exists s. split; [exact Hn|]. rewrite app_nil_r in Ep. rewrite Hs in Hf. pose proof (exec_flushed P o s0 HP Hf) as G.
    rewrite <- Hs in G. assert (d = s_disk s) as ->.
    { rewrite G, Hd, <- Ep. destruct (p_write P (s_flushes s0)) as [| | |n]; [reflexivity|destruct Hw|destruct Hw|].
      rewrite firstn_all2; [reflexivity|]. rewrite Ep. exact Hw. }
    split; [reflexivity|]. assert (s_disk s = Some (flush_text P s)) as ->.
    { rewrite G. destruct (p_write P (s_flushes s0)) as [| | |n]; [reflexivity|destruct Hw|destruct Hw|].
      rewrite firstn_all2; [reflexivity|]. rewrite Ep. exact Hw. }
    apply load_flush; [exact HP|exact Htx].
  - right. split; [exists s, p, (q0 :: q); repeat split; auto; discriminate|]. subst d. apply (load_prefix P s p (q0 :: q) Htx Ep). discriminate.
Qed.

(** Not in a shell: before or after. *)
Lemma moment_settled P E path a t pt : prims_ok P -> a_command a <> Shell -> during (main_p P E path a) t pt ->
  let settled d := d = s_disk (t_st t) \/ exists x t', main P E path a t = (x, t') /\ x <> Waiting /\ s_disk (t_st t') = d in
  settled (s_disk (t_st (pt_term pt))) /\ forall s, pt_next pt = Calls s -> settled (s_disk s).
Proof.
  intros HP Hc H. cbv zeta. destruct (once_main P HP E path a Hc t pt H) as [H1 H2].
  assert (forall d, settled (main_p P E path a) t d ->
    d = s_disk (t_st t) \/ exists x t', main P E path a t = (x, t') /\ x <> Waiting /\ s_disk (t_st t') = d) as G.
  { intros d [-> |(r & t' & Hr & Hd)]; [left; reflexivity|]. right. apply main_completes in Hr. destruct Hr as (x & Hx & Ho).
    exists x, t'. split; [exact Hx|]. split; [intros ->; discriminate Ho|exact Hd]. }
  split; [exact (G _ H1)|]. intros s Hs. apply G. unfold soon in H2. rewrite Hs in H2. exact H2.
Qed.
Lemma stopped_settled P E path a t pt d : prims_ok P -> externals_valid E -> command_valid (a_command a) -> typed_valid t ->
  a_command a <> Shell -> during (main_p P E path a) t pt -> stopped P pt d ->
  d = s_disk (t_st t) \/ (exists x t', main P E path a t = (x, t') /\ x <> Waiting /\ s_disk (t_st t') = d) \/
  (torn P pt d /\ (load P d = Err FileReadFailure \/ load P d = Err InvalidJson)).
Proof.
  intros HP HE Hc Ht Hs H Hst. destruct (moment_settled P E path a t pt HP Hs H) as [G1 G2].
  destruct (moment_stopped P E path a t pt d HP HE Hc Ht H Hst) as [-> |[(s & Hn & -> & _)|Hto]]; [| |tauto].
  - destruct G1 as [G|G]; auto.
  - destruct (G2 s Hn) as [G|G]; auto.
Qed.

(** * Nothing is said before it is done *)

Lemma prompts_refl t : t_buf t = [] -> only_prompts t t.
Proof. intros H. split; [exact H|]. exists []. cbn. rewrite app_nil_r. auto. Qed.
Lemma prompts_trans a b c : only_prompts a b -> only_prompts b c -> only_prompts a c.
Proof.
  intros [_ (l1 & F1 & E1)] [H (l2 & F2 & E2)]. split; [exact H|]. exists (l1 ++ l2). split; [apply Forall_app; auto|].
  rewrite E2, E1, concat_app, <- app_assoc. reflexivity.
Qed.
Definition mute {A} (p : prog A) : Prop := forall t, t_buf t = [] ->
  (forall r t', completes p t r t' -> only_prompts t t') /\ forall pt, during p t pt -> only_prompts t (pt_term pt).
Lemma mute_ret {A} (a : A) : mute (Ret a). Proof. intros t Ht. split; [intros r t' [_ ->]; apply prompts_refl, Ht|intros pt []]. Qed.
Lemma mute_fail {A} m : mute (Fail m : prog A). Proof. intros t Ht. split; [intros r t' [_ ->]; apply prompts_refl, Ht|intros pt []]. Qed.
Lemma mute_abort {A} : mute (Abort : prog A). Proof. intros t Ht. split; [intros r t' [_ ->]; apply prompts_refl, Ht|intros pt []]. Qed.
Lemma mute_bind {A B} (p : prog A) (k : A -> prog B) : mute p -> (forall a, mute (k a)) -> mute (Bind p k).
Proof.
  intros H1 H2 t Ht. destruct (H1 t Ht) as [He Hd]. split.
  - intros r t' [(a & u & G1 & G2)|[(m & G1 & _)|(G1 & _)]]; eauto. pose proof (He _ _ G1) as Hu.
    exact (prompts_trans _ _ _ Hu (proj1 (H2 a u (proj1 Hu)) _ _ G2)).
  - intros pt [G|(a & u & G1 & G2)]; [auto|]. pose proof (He _ _ G1) as Hu. exact (prompts_trans _ _ _ Hu (proj2 (H2 a u (proj1 Hu)) _ G2)).
Qed.
Lemma mute_loop {A B} (body : A -> prog (A + B)) a : (forall x, mute (body x)) -> mute (Loop body a).
Proof.
  intros H t Ht. split.
  - intros r t' G. cbn [completes] in G. revert Ht. induction G as [x t y t1 r t' G _ IH|x t b t' G|x t m t' G|x t t' G];
      intros Ht; pose proof (proj1 (H x t Ht) _ _ G) as Hu; try exact Hu. exact (prompts_trans _ _ _ Hu (IH (proj1 Hu))).
  - intros pt G. cbn [during] in G. revert Ht. induction G as [x t pt G|x t y t1 pt G _ IH]; intros Ht; [exact (proj2 (H x t Ht) _ G)|].
    pose proof (proj1 (H x t Ht) _ _ G) as Hu. exact (prompts_trans _ _ _ Hu (IH (proj1 Hu))).
Qed.
Lemma mute_act {A} (p : prog A) : (forall t r t', completes p t r t' -> t_shown t' = t_shown t /\ t_buf t' = t_buf t) ->
  (forall t pt, during p t pt -> pt_term pt = t) -> mute p.
Proof.
  intros H1 H2 t Ht. split.
  - intros r t' G. destruct (H1 _ _ _ G) as [E1 E2]. split; [rewrite E2; exact Ht|]. exists []. rewrite E1. cbn. rewrite app_nil_r. auto.
  - intros pt G. rewrite (H2 _ _ G). apply prompts_refl, Ht.
Qed.
Ltac mute_action := apply mute_act; [intros t r t' [H _]|intros t pt H; cbn [during] in H; subst pt; reflexivity].
Lemma mute_complain m : mute (Complain m). Proof. mute_action. injection H as _ <-. split; reflexivity. Qed.
Lemma mute_confirm : mute Confirm. Proof. mute_action. unfold confirm in H. destruct (t_confirms t); injection H as _ <-; split; reflexivity. Qed.
Lemma mute_question : mute Question. Proof. mute_action. unfold ask in H. destruct (t_asks t); injection H as _ <-; split; reflexivity. Qed.
Lemma mute_typed : mute Typed. Proof. mute_action. unfold tty_password in H. destruct (t_tty t); injection H as _ <-; split; reflexivity. Qed.
Lemma mute_stdin : mute Stdin. Proof. mute_action. unfold stdin_line in H. destruct (read_line _). injection H as _ <-. split; reflexivity. Qed.
Lemma mute_call {A} (m : M A) : mute (Call m).
Proof. mute_action. unfold api_res in H. destruct (m (t_st t)). injection H as _ <-. split; reflexivity. Qed.
Lemma mute_direct b : prompt b -> mute (Direct b).
Proof.
  intros Hb t Ht. split.
  - intros r t' [H _]. injection H as _ <-. split; [exact Ht|]. exists [b]. cbn. rewrite app_nil_r. auto.
  - intros pt H. cbn [during] in H. subst pt. apply prompts_refl, Ht.
Qed.
Ltac mutes := repeat match goal with
  | |- mute (Bind _ _) => apply mute_bind; [|intros ?]
  | |- mute (Ret _) => apply mute_ret
  | |- mute (Fail _) => apply mute_fail
  | |- mute Abort => apply mute_abort
  | |- mute (Loop _ _) => apply mute_loop; intros ?
  | |- mute (lib _) => unfold lib
  | |- mute (lib_or _ _) => unfold lib_or
  | |- mute (Complain _) => apply mute_complain
  | |- mute Confirm => apply mute_confirm
  | |- mute Question => apply mute_question
  | |- mute Typed => apply mute_typed
  | |- mute Stdin => apply mute_stdin
  | |- mute (Call _) => apply mute_call
  | |- mute (let '(_, _) := ?x in _) => destruct x
  | |- mute (if ?b then _ else _) => destruct b
  | |- mute (match ?x with _ => _ end) => destruct x
  end.
Lemma mute_password pr sp : prompt pr -> mute (prompt_password_p pr sp).
Proof. intros H. unfold prompt_password_p, prompt_secret_text_p. mutes. apply mute_direct, H. Qed.
Lemma mute_ensure P sp : mute (ensure_unlocked_p P sp).
Proof. unfold ensure_unlocked_p, unlock_loop_p. mutes; apply mute_password; left; reflexivity. Qed.
Lemma mute_overwrite P y d n r : mute (overwrite_p P y d n r).
Proof. unfold overwrite_p. mutes. Qed.
Lemma mute_recovery P : mute (prompt_recovery_code_p P).
Proof. unfold prompt_recovery_code_p, first_lines_p. mutes. Qed.

(** Programs that only ask until they are successful. *)
Definition says {A} (p : prog A) : Prop := forall t, t_buf t = [] ->
  (forall r t', completes p t r t' -> only_prompts t t' \/ exists a, r = COk a) /\
  forall pt, during p t pt -> only_prompts t (pt_term pt).
Lemma says_mute {A} (p : prog A) : mute p -> says p.
Proof. intros H t Ht. destruct (H t Ht) as [He Hd]. split; [|exact Hd]. intros r t' G. left. eauto. Qed.
Lemma says_later {A B} (p : prog A) (k : A -> prog B) : mute p -> (forall a, says (k a)) -> says (Bind p k).
Proof.
  intros H1 H2 t Ht. destruct (H1 t Ht) as [He Hd]. split.
  - intros r t' [(a & u & G1 & G2)|[(m & G1 & _)|(G1 & _)]]; eauto. pose proof (He _ _ G1) as Hu.
    destruct (proj1 (H2 a u (proj1 Hu)) _ _ G2) as [H|H]; [left; exact (prompts_trans _ _ _ Hu H)|right; exact H].
  - intros pt [G|(a & u & G1 & G2)]; [auto|]. pose proof (He _ _ G1) as Hu. exact (prompts_trans _ _ _ Hu (proj2 (H2 a u (proj1 Hu)) _ G2)).
Qed.
Lemma says_line b : says (print_line b).
Proof.
  intros t Ht. split.
  - intros r t' [H _]. right. unfold print in H. destruct (last_line _). injection H as <- _. eauto.
  - intros pt H. cbn [during print_line] in H. subst pt. apply prompts_refl, Ht.
Qed.
Lemma says_done {A} (m : M A) b : says (do _ <- lib m; print_line b).
Proof. apply says_later; [mutes|]. intros _. apply says_line. Qed.
Lemma says_simple P E path sp c : tells c -> says (simple_p P E path sp c).
Proof.
  destruct c as [y|x n r len a b d e y|x n r rc y|x n r|x n r q|x n r set|d pat sh rc v|x al rm|]; intros Hc; try (destruct Hc; fail); cbn [simple_p].
  - unfold set_primary_p. apply says_later; [apply mute_password; right; right; left; reflexivity|]. intros p1.
    destruct (_ <? _); [apply says_mute, mute_fail|].
    apply says_later; [apply mute_password; right; right; right; reflexivity|]. intros p2. destruct (negb _); [apply says_mute, mute_fail|]. apply says_done.
  - unfold add_p. apply says_later; [apply mute_ensure|]. intros _. destruct (cs_is_empty _); [apply says_mute, mute_fail|].
    apply says_later; [apply mute_overwrite|]. intros [|]; [|apply says_mute, mute_ret]. apply says_done.
  - unfold add_stored_p. apply says_later; [apply mute_ensure|]. intros _.
    apply says_later; [apply mute_overwrite|]. intros [|]; [|apply says_mute, mute_ret].
    apply says_later; [destruct rc; [apply mute_recovery|apply mute_password; right; left; reflexivity]|]. intros p. apply says_done.
  - unfold remove_p. apply says_later; [apply mute_ensure|]. intros _. apply says_done.
  - unfold alias_p. apply says_later; [apply mute_ensure|]. intros _. destruct al as [al|]; [|destruct rm; [|destruct Hc]]; apply says_done.
Qed.
Lemma moment_said P E path a t pt : tells (a_command a) -> t_buf t = [] -> during (main_p P E path a) t pt ->
  only_prompts t (pt_term pt) \/
  exists t', main P E path a t = (Success, t') /\ s_disk (t_st t') = s_disk (t_st (pt_term pt)).
Proof.
  intros Hc Ht.
  assert (says (main_inner_p P E path a)) as HS.
  { unfold main_inner_p. apply says_later; [mutes|]. intros r.
    assert (forall c, tells c -> says (command_p P E path (a_stdin_passwords a) c)) as H.
    { intros c Hs. destruct c; try destruct Hs; apply says_simple; exact I || exact Hs. }
    destruct (a_command a) as [y| | | | | | | |] eqn:Ea; try (destruct Hc; fail).
    1: { apply says_later; [mutes|]. intros [|]; [|apply says_mute, mute_ret]. apply H. exact I. }
    all: destruct r; [apply H; exact Hc|apply says_mute, mute_fail|apply says_mute, mute_abort]. }
  destruct (HS t Ht) as [He Hd]. unfold main_p. intros [G|(r & u & G1 & G2)]; [left; exact (Hd pt G)|].
  destruct r as [m|x].
  - left. assert (only_prompts t u) as Hu.
    { destruct G1 as [(a0 & G & E0)|[(m0 & G & _)|(G & E0)]]; try discriminate E0. destruct (He _ _ G) as [H|[a0 H]]; [exact H|discriminate H]. }
    apply (prompts_trans _ _ _ Hu). pose proof (proj1 Hu) as Hb.
    destruct G2 as [G2|([] & u2 & G2 & G3)].
    + assert (mute (lib lock)) as HL by mutes. exact (proj2 (HL u Hb) pt G2).
    + assert (mute (lib lock)) as HL by mutes. pose proof (proj1 (HL u Hb) _ _ G2) as Hu2. apply (prompts_trans _ _ _ Hu2).
      destruct G3 as [G3|([] & u3 & G3 & G4)].
      * exact (proj2 (mute_complain m u2 (proj1 Hu2)) pt G3).
      * pose proof (proj1 (mute_complain m u2 (proj1 Hu2)) _ _ G3) as Hu3. apply (prompts_trans _ _ _ Hu3).
        destruct G4 as [G4|(? & ? & _ & [])]. cbn [during] in G4. subst pt. apply prompts_refl, Hu3.
  - right. assert (over (do _ <- lib lock; do _ <- Flush; Ret Success)) as [Hcalm Hend].
    { apply over_bind; [apply over_lib; reflexivity|]. intros _. apply over_bind; [apply over_flush|]. intros _. apply over_ret. }
    destruct (proj2 (Hcalm u) pt G2) as [Hdisk _]. destruct (Hend u) as (r' & t' & G3).
    assert (completes (main_p P E path a) t r' t') as Hm by (unfold main_p; left; exists (inr x), u; auto).
    pose proof (proj1 (Hcalm u) _ _ G3) as Hdisk'. apply main_completes in Hm. destruct Hm as (x' & Hx & Ho).
    assert (r' = COk Success) as ->.
    { destruct G3 as [(? & ? & _ & [(? & ? & _ & [G3 _])|[(m & [G3 _] & _)|([G3 _] & _)]])|[(m & G3 & _)|(G3 & _)]];
        [exact G3|discriminate G3|discriminate G3| |];
        destruct G3 as [(y & ? & [G3 _] & G4)|[(m' & [G3 _] & _)|([G3 _] & _)]]; cbn in G3; try discriminate G3;
        injection G3 as <- <-; destruct G4 as [G4 _]; discriminate G4. }
    destruct x'; try discriminate Ho. exists t'. split; [exact Hx|]. unfold D in *. congruence.
Qed.

(** * Prompts come before what is read *)

Definition asked (t : term) : Prop :=
  exists before text, t_shown t = before ++ text /\ (prompt text \/ text = bs "Please enter new notes to be stored:").
Definition asks {A} (p : prog A) : Prop := forall t pt, during p t pt -> pt_next pt = Waits Input -> asked (pt_term pt).
Lemma asks_bind {A B} (p : prog A) (k : A -> prog B) : asks p -> (forall a, asks (k a)) -> asks (Bind p k).
Proof. intros H1 H2 t pt [H|(a & t1 & _ & H)]; [exact (H1 _ _ H)|exact (H2 a _ _ H)]. Qed.
Lemma asks_loop {A B} (body : A -> prog (A + B)) a : (forall x, asks (body x)) -> asks (Loop body a).
Proof. intros H t pt G. cbn [during] in G. induction G as [x t pt G|x t y t1 pt _ _ IH]; [exact (H x _ _ G)|exact IH]. Qed.
Lemma asks_for_each {A} (f : A -> prog unit) l : (forall x, asks (f x)) -> asks (for_each f l).
Proof. intros H. induction l; cbn; [intros t pt []|apply asks_bind; [apply H|intros _; assumption]]. Qed.
Ltac not_input := intros t pt H; cbn [during] in H; first [subst pt; discriminate|destruct H; fail].
Lemma asks_line b : asks (print_line b). Proof. unfold print_line. not_input. Qed.
Lemma asks_text b : (prompt b \/ b = bs "Please enter new notes to be stored:") -> asks (prompt_secret_text_p b).
Proof.
  intros Hb t pt [H|([] & t1 & [H1 _] & H)]; cbn [during] in H; subst pt; [discriminate|]. intros _. injection H1 as <-.
  exists (t_shown t), b. split; [reflexivity|exact Hb].
Qed.
Ltac asking := repeat match goal with
  | |- asks (prompt_secret_text_p _) => apply asks_text; unfold prompt; tauto
  | |- asks (Bind _ _) => apply asks_bind; [|intros ?]
  | |- asks (Loop _ _) => apply asks_loop; intros ?
  | |- asks (Try ?p) => change (asks p)
  | |- asks (lib _) => unfold lib
  | |- asks (lib_or _ _) => unfold lib_or
  | |- asks (print_line _) => apply asks_line
  | |- asks (for_each _ _) => apply asks_for_each; intros ?
  | |- asks (let '(_, _) := ?x in _) => destruct x
  | |- asks (if ?b then _ else _) => destruct b
  | |- asks (match ?x with _ => _ end) => destruct x
  | |- asks _ => not_input
  end.
Lemma asks_list_loop P n sh rc vb all l : asks (list_loop_p P n sh rc vb all l).
Proof. induction l as [|s l IH]; cbn [list_loop_p]; asking; try exact IH; unfold heading_p, list_password_p; asking. Qed.
Lemma asks_simple P E path sp c : asks (simple_p P E path sp c).
Proof.
  destruct c; cbn [simple_p]; unfold set_primary_p, add_p, add_stored_p, remove_p, show_p, notes_p, list_p, alias_p,
    overwrite_p, qr_row_p, ensure_unlocked_p, unlock_loop_p, prompt_password_p, prompt_recovery_code_p, first_lines_p;
    asking; try apply asks_list_loop.
Qed.
Lemma asks_command P E path sp c : asks (command_p P E path sp c).
Proof.
  destruct c; try apply (asks_simple P E path sp). cbn [command_p]. unfold shell_p, shell_loop_p, shell_step_p. asking; apply asks_simple.
Qed.
Lemma moment_prompted P E path a t pt : during (main_p P E path a) t pt -> pt_next pt = Waits Input -> asked (pt_term pt).
Proof.
  revert t pt. change (asks (main_p P E path a)). unfold main_p, main_inner_p. asking; apply asks_command.
Qed.
