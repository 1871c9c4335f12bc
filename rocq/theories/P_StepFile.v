(** What is in the file and on the screen at every moment of a process. *)
From Coq Require Import ZArith ZifyBool ZifyNat ZifyN.
From stdpp Require Import gmap.
From Verif Require Import M_Base M_Base64 M_Utf8 M_Prims M_Types M_Crypto M_Recovery M_Json M_Serde M_Storage M_Passwords S_Serde
  S_Vault M_History S_Api P_Base P_Utf8 P_Json P_Serde P_Storage P_Api P_Calls P_Props M_Cli S_Cli P_CliBase P_CliCalls P_CliCommands M_Steps S_Steps
  P_Steps P_Points P_StepCalls.

(** * Nothing is held back *)

Definition tidy {A} (p : prog A) : Prop := forall t, t_buf t = [] ->
  (forall r t', completes p t r t' -> t_buf t' = []) /\
  forall pt, during p t pt -> t_buf (pt_term pt) = [] \/ pt_next pt = Flushes.
Lemma tidy_ret {A} (a : A) : tidy (Ret a). Proof. intros t Ht. split; [intros r t' [_ ->]; exact Ht|intros pt []]. Qed.
Lemma tidy_fail {A} m : tidy (Fail m : prog A). Proof. intros t Ht. split; [intros r t' [_ ->]; exact Ht|intros pt []]. Qed.
Lemma tidy_abort {A} : tidy (Abort : prog A). Proof. intros t Ht. split; [intros r t' [_ ->]; exact Ht|intros pt []]. Qed.
Lemma tidy_bind {A B} (p : prog A) (k : A -> prog B) : tidy p -> (forall a, tidy (k a)) -> tidy (Bind p k).
Proof.
  intros H1 H2 t Ht. destruct (H1 t Ht) as [He Hd]. split.
  - intros r t' [(a & u & G1 & G2)|[(m & G1 & _)|(G1 & _)]]; eauto. destruct (H2 a u (He _ _ G1)) as [He' _]. eauto.
  - intros pt [G|(a & u & G1 & G2)]; [auto|]. destruct (H2 a u (He _ _ G1)) as [_ Hd']. auto.
Qed.
Lemma tidy_loop {A B} (body : A -> prog (A + B)) a : (forall x, tidy (body x)) -> tidy (Loop body a).
Proof.
  intros H t Ht. split.
  - intros r t' G. cbn [completes] in G. revert Ht. induction G as [x t y t1 r t' G _ IH|x t b t' G|x t m t' G|x t t' G];
      intros Ht; destruct (H x t Ht) as [He _]; eauto.
  - intros pt G. cbn [during] in G. revert Ht. induction G as [x t pt G|x t y t1 pt G _ IH]; intros Ht; destruct (H x t Ht) as [He Hd]; eauto.
Qed.
Lemma tidy_try {A} (p : prog A) : tidy p -> tidy (Try p).
Proof. intros H t Ht. destruct (H t Ht) as [He Hd]. split; [|exact Hd]. intros r t' [(a & G & _)|[(m & G & _)|(G & _)]]; eauto. Qed.
Lemma tidy_act {A} (p : prog A) : (forall t r t', completes p t r t' -> t_buf t = [] -> t_buf t' = []) ->
  (forall t pt, during p t pt -> pt_term pt = t) -> tidy p.
Proof. intros H1 H2 t Ht. split; [eauto|]. intros pt G. left. rewrite (H2 _ _ G). exact Ht. Qed.
Ltac action := apply tidy_act; [intros t r t' [H _] Ht|intros t pt H; cbn [during] in H; subst pt; reflexivity].
Lemma tidy_call {A} (m : M A) : tidy (Call m).
Proof. action. unfold api_res in H. destruct (m (t_st t)). injection H as _ <-. exact Ht. Qed.
Lemma tidy_line b : tidy (print_line b).
Proof. unfold print_line. action. unfold print in H. rewrite app_assoc, last_line_newline in H. injection H as _ <-. reflexivity. Qed.
Lemma tidy_print_flush {A} b (k : prog A) : tidy k -> tidy (do _ <- Print b; do _ <- Flush; k).
Proof.
  intros Hk t Ht.
  assert (forall u r, completes (Print b) t r u -> r = COk tt) as H1.
  { intros u r [H _]. unfold print in H. destruct (last_line _). injection H as <- _. reflexivity. }
  assert (forall u r u', completes Flush u r u' -> r = COk tt /\ t_buf u' = []) as H2.
  { intros u r u' [H _]. injection H as <- <-. auto. }
  split.
  - intros r t' [(a & u & G1 & [(a' & u' & G2 & G3)|[(m & G2 & _)|(G2 & _)]])|[(m & G1 & _)|(G1 & _)]];
      try (discriminate (H1 _ _ G1)); try (discriminate (proj1 (H2 _ _ _ G2))).
    destruct (Hk u' (proj2 (H2 _ _ _ G2))) as [He _]. eauto.
  - intros pt [G|(a & u & G1 & [G2|(a' & u' & G2 & G3)])].
    + cbn [during] in G. subst pt. left. exact Ht.
    + cbn [during] in G2. subst pt. right. reflexivity.
    + destruct (Hk u' (proj2 (H2 _ _ _ G2))) as [_ Hd]. eauto.
Qed.
Lemma tidy_flush : tidy Flush. Proof. action. injection H as _ <-. reflexivity. Qed.
Lemma tidy_direct b : tidy (Direct b). Proof. action. injection H as _ <-. exact Ht. Qed.
Lemma tidy_complain m : tidy (Complain m). Proof. action. injection H as _ <-. exact Ht. Qed.
Lemma tidy_confirm : tidy Confirm. Proof. action. unfold confirm in H. destruct (t_confirms t); injection H as _ <-; exact Ht. Qed.
Lemma tidy_question : tidy Question. Proof. action. unfold ask in H. destruct (t_asks t); injection H as _ <-; exact Ht. Qed.
Lemma tidy_typed : tidy Typed. Proof. action. unfold tty_password in H. destruct (t_tty t); injection H as _ <-; exact Ht. Qed.
Lemma tidy_stdin : tidy Stdin. Proof. action. unfold stdin_line in H. destruct (read_line _). injection H as _ <-. exact Ht. Qed.
Lemma tidy_readline : tidy Readline. Proof. action. unfold next_line in H. destruct (t_lines t); injection H as _ <-; exact Ht. Qed.
Lemma tidy_for_each {A} (f : A -> prog unit) l : (forall x, tidy (f x)) -> tidy (for_each f l).
Proof. intros H. induction l; cbn; [apply tidy_ret|apply tidy_bind; [apply H|intros _; assumption]]. Qed.

Ltac tidies := repeat match goal with
  | |- tidy (Bind (Print _) (fun _ => Bind Flush _)) => apply tidy_print_flush
  | |- tidy (Bind _ _) => apply tidy_bind; [|intros ?]
  | |- tidy (Ret _) => apply tidy_ret
  | |- tidy (Fail _) => apply tidy_fail
  | |- tidy Abort => apply tidy_abort
  | |- tidy (Loop _ _) => apply tidy_loop; intros ?
  | |- tidy (Try _) => apply tidy_try
  | |- tidy (lib _) => unfold lib
  | |- tidy (lib_or _ _) => unfold lib_or
  | |- tidy (print_line _) => apply tidy_line
  | |- tidy Flush => apply tidy_flush
  | |- tidy (Direct _) => apply tidy_direct
  | |- tidy (Complain _) => apply tidy_complain
  | |- tidy Confirm => apply tidy_confirm
  | |- tidy Question => apply tidy_question
  | |- tidy Typed => apply tidy_typed
  | |- tidy Stdin => apply tidy_stdin
  | |- tidy Readline => apply tidy_readline
  | |- tidy (Call _) => apply tidy_call
  | |- tidy (for_each _ _) => apply tidy_for_each; intros ?
  | |- tidy (let '(_, _) := ?x in _) => destruct x
  | |- tidy (if ?b then _ else _) => destruct b
  | |- tidy (match ?x with _ => _ end) => destruct x
  end.
Section tidy.
Context (P : prims) (E : externals) (path : bytes) (sp : bool).
Lemma tidy_list_loop n sh rc vb all l : tidy (list_loop_p P n sh rc vb all l).
Proof.
  induction l as [|s l IH]; cbn [list_loop_p]; tidies; try exact IH; unfold heading_p, list_password_p; tidies.
Qed.
Lemma tidy_simple c : tidy (simple_p P E path sp c).
Proof.
  destruct c; cbn [simple_p]; unfold set_primary_p, add_p, add_stored_p, remove_p, show_p, notes_p, list_p, alias_p,
    overwrite_p, qr_row_p, ensure_unlocked_p, unlock_loop_p, prompt_password_p, prompt_secret_text_p, prompt_recovery_code_p, first_lines_p;
    tidies; try apply tidy_list_loop.
Qed.
Lemma tidy_command c : tidy (command_p P E path sp c).
Proof.
  destruct c; try apply tidy_simple. cbn [command_p]. unfold shell_p, shell_loop_p, shell_step_p. tidies; apply tidy_simple.
Qed.
End tidy.
Lemma tidy_main P E path a : tidy (main_p P E path a).
Proof. unfold main_p, main_inner_p. tidies; apply tidy_command. Qed.

(** * The file: before or after *)

Definition D (t : term) : option bytes := s_disk (t_st t).
(** The file after the next action. *)
Definition soon (pt : point) : option bytes := match pt_next pt with Calls s => s_disk s | _ => D (pt_term pt) end.

(** Programs that leave the file alone. *)
Definition calm {A} (p : prog A) : Prop := forall t,
  (forall r t', completes p t r t' -> D t' = D t) /\ forall pt, during p t pt -> D (pt_term pt) = D t /\ soon pt = D t.
(** ... and end. *)
Definition over {A} (p : prog A) : Prop := calm p /\ forall t, exists r t', completes p t r t'.
(** Programs that change the file once at the end. *)
Definition settled {A} (p : prog A) (t : term) (d : option bytes) : Prop :=
  d = D t \/ exists r t', completes p t r t' /\ D t' = d.
Definition once {A} (p : prog A) : Prop := forall t pt, during p t pt -> settled p t (D (pt_term pt)) /\ settled p t (soon pt).

Lemma calm_ret {A} (a : A) : calm (Ret a). Proof. intros t. split; [intros r t' [_ ->]; reflexivity|intros pt []]. Qed.
Lemma calm_fail {A} m : calm (Fail m : prog A). Proof. intros t. split; [intros r t' [_ ->]; reflexivity|intros pt []]. Qed.
Lemma calm_abort {A} : calm (Abort : prog A). Proof. intros t. split; [intros r t' [_ ->]; reflexivity|intros pt []]. Qed.
Lemma calm_bind {A B} (p : prog A) (k : A -> prog B) : calm p -> (forall a, calm (k a)) -> calm (Bind p k).
Proof.
  intros H1 H2 t. destruct (H1 t) as [He Hd]. split.
  - intros r t' [(a & u & G1 & G2)|[(m & G1 & _)|(G1 & _)]]; eauto. rewrite <- (He _ _ G1). exact (proj1 (H2 a u) _ _ G2).
  - intros pt [G|(a & u & G1 & G2)]; [auto|]. rewrite <- (He _ _ G1). exact (proj2 (H2 a u) _ G2).
Qed.
Lemma calm_loop {A B} (body : A -> prog (A + B)) a : (forall x, calm (body x)) -> calm (Loop body a).
Proof.
  intros H t. split.
  - intros r t' G. cbn [completes] in G. induction G as [x t y t1 r t' G _ IH|x t b t' G|x t m t' G|x t t' G];
      rewrite <- (proj1 (H x t) _ _ G); auto.
  - intros pt G. cbn [during] in G. induction G as [x t pt G|x t y t1 pt G _ IH]; [exact (proj2 (H x t) _ G)|].
    rewrite <- (proj1 (H x t) _ _ G). exact IH.
Qed.
Lemma calm_try {A} (p : prog A) : calm p -> calm (Try p).
Proof. intros H t. destruct (H t) as [He Hd]. split; [|exact Hd]. intros r t' [(a & G & _)|[(m & G & _)|(G & _)]]; eauto. Qed.
Lemma calm_act {A} (p : prog A) : (forall t r t', completes p t r t' -> t_st t' = t_st t) ->
  (forall t pt, during p t pt -> pt_term pt = t /\ soon pt = D t) -> calm p.
Proof.
  intros H1 H2 t. split; [intros r t' G; unfold D; rewrite (H1 _ _ _ G); reflexivity|].
  intros pt G. destruct (H2 _ _ G) as [-> H]. auto.
Qed.
Ltac calm_action := apply calm_act; [intros t r t' [H _]|intros t pt H; cbn [during] in H; subst pt; split; reflexivity].
Lemma calm_print b : calm (Print b).
Proof. calm_action. unfold print in H. destruct (last_line _). injection H as _ <-. reflexivity. Qed.
Lemma calm_line b : calm (print_line b). Proof. apply calm_print. Qed.
Lemma calm_flush : calm Flush. Proof. calm_action. injection H as _ <-. reflexivity. Qed.
Lemma calm_direct b : calm (Direct b). Proof. calm_action. injection H as _ <-. reflexivity. Qed.
Lemma calm_complain m : calm (Complain m). Proof. calm_action. injection H as _ <-. reflexivity. Qed.
Lemma calm_confirm : calm Confirm. Proof. calm_action. unfold confirm in H. destruct (t_confirms t); injection H as _ <-; reflexivity. Qed.
Lemma calm_question : calm Question. Proof. calm_action. unfold ask in H. destruct (t_asks t); injection H as _ <-; reflexivity. Qed.
Lemma calm_typed : calm Typed. Proof. calm_action. unfold tty_password in H. destruct (t_tty t); injection H as _ <-; reflexivity. Qed.
Lemma calm_stdin : calm Stdin. Proof. calm_action. unfold stdin_line in H. destruct (read_line _). injection H as _ <-. reflexivity. Qed.
Lemma calm_readline : calm Readline. Proof. calm_action. unfold next_line in H. destruct (t_lines t); injection H as _ <-; reflexivity. Qed.
Lemma calm_for_each {A} (f : A -> prog unit) l : (forall x, calm (f x)) -> calm (for_each f l).
Proof. intros H. induction l; cbn; [apply calm_ret|apply calm_bind; [apply H|intros _; assumption]]. Qed.
Lemma calm_call {A} (m : M A) : (forall s, s_disk (snd (m s)) = s_disk s) -> calm (Call m).
Proof.
  intros Hm t. split.
  - intros r t' [H _]. unfold api_res in H. specialize (Hm (t_st t)). destruct (m (t_st t)). injection H as _ <-. exact Hm.
  - intros pt H. cbn [during] in H. subst pt. split; [reflexivity|apply Hm].
Qed.
Lemma calm_lib {A} (m : M A) : (forall s, s_disk (snd (m s)) = s_disk s) -> calm (lib m).
Proof. intros Hm. unfold lib. apply calm_bind; [apply calm_call, Hm|]. intros [a|e|]; [apply calm_ret|apply calm_fail|apply calm_abort]. Qed.

Lemma over_ret {A} (a : A) : over (Ret a). Proof. split; [apply calm_ret|]. intros t. exists (COk a), t. split; reflexivity. Qed.
Lemma over_fail {A} m : over (Fail m : prog A). Proof. split; [apply calm_fail|]. intros t. exists (CErr m), t. split; reflexivity. Qed.
Lemma over_abort {A} : over (Abort : prog A). Proof. split; [apply calm_abort|]. intros t. exists CPanic, t. split; reflexivity. Qed.
Lemma over_bind {A B} (p : prog A) (k : A -> prog B) : over p -> (forall a, over (k a)) -> over (Bind p k).
Proof.
  intros [H1 H2] H. split; [apply calm_bind; [exact H1|apply H]|]. intros t. destruct (H2 t) as (r & t1 & G).
  destruct r as [a|m| |].
  - destruct (proj2 (H a) t1) as (r & t' & G'). exists r, t'. left. eauto.
  - exists (CErr m), t1. right. left. eauto.
  - exists CPanic, t1. right. right. auto.
  - exfalso. exact (never_stuck _ _ _ _ G eq_refl).
Qed.
Lemma over_line b : over (print_line b).
Proof.
  split; [apply calm_line|]. intros t. unfold print_line. cbn [completes]. unfold acts, print. destruct (last_line _) as [d r].
  do 2 eexists. split; [reflexivity|discriminate].
Qed.
Lemma over_flush : over Flush.
Proof. split; [apply calm_flush|]. intros t. do 2 eexists. split; [reflexivity|discriminate]. Qed.
Lemma over_complain m : over (Complain m).
Proof. split; [apply calm_complain|]. intros t. do 2 eexists. split; [reflexivity|discriminate]. Qed.
Lemma over_lib {A} (m : M A) : (forall s, s_disk (snd (m s)) = s_disk s) -> over (lib m).
Proof.
  intros Hm. unfold lib. apply over_bind; [|intros [a|e|]; [apply over_ret|apply over_fail|apply over_abort]].
  split; [apply calm_call, Hm|]. intros t. cbn [completes]. unfold acts, api_res. destruct (m (t_st t)) as [r s]. do 2 eexists. split; [reflexivity|destruct r; discriminate].
Qed.

Lemma once_calm {A} (p : prog A) : calm p -> once p.
Proof. intros H t pt G. destruct (proj2 (H t) pt G) as [H1 H2]. split; left; assumption. Qed.
Lemma once_call {A} (m : M A) : once (Call m).
Proof.
  intros t pt G. cbn [during] in G. subst pt. split; [left; reflexivity|]. right.
  cbn [completes]. unfold acts, api_res, soon. cbn [pt_next]. destruct (m (t_st t)) as [r s]. exists (match r with Panic => CPanic | r => COk r end), (with_st s t).
  split; [split; [reflexivity|destruct r; discriminate]|reflexivity].
Qed.
(** The change comes later. *)
Lemma once_later {A B} (p : prog A) (k : A -> prog B) : calm p -> (forall a, once (k a)) -> once (Bind p k).
Proof.
  intros H1 H2 t pt [G|(a & u & G1 & G2)].
  - destruct (proj2 (H1 t) pt G) as [E1 E2]. split; left; assumption.
  - destruct (H2 a u pt G2) as [H3 H4]. pose proof (proj1 (H1 t) _ _ G1) as ED.
    split; [destruct H3 as [E|(r & t' & Hc & E)]|destruct H4 as [E|(r & t' & Hc & E)]];
      try (left; rewrite E; exact ED); right; exists r, t'; (split; [left; exists a, u; auto|exact E]).
Qed.
(** After the change the rest is quickly done. *)
Lemma once_before {A B} (p : prog A) (k : A -> prog B) : once p -> (forall a, over (k a)) -> once (Bind p k).
Proof.
  intros H1 H2 t pt.
  assert (forall r u, completes p t r u -> exists r' t', completes (Bind p k) t r' t' /\ D t' = D u) as Hend.
  { intros r u G. destruct r as [a|m| |].
    - destruct (H2 a) as [Hc Ho]. destruct (Ho u) as (r' & t' & G'). exists r', t'. split; [left; eauto|exact (proj1 (Hc u) _ _ G')].
    - exists (CErr m), u. split; [right; left; eauto|reflexivity].
    - exists CPanic, u. split; [right; right; auto|reflexivity].
    - exfalso. exact (never_stuck _ _ _ _ G eq_refl). }
  intros [G|(a & u & G1 & G2)].
  - destruct (H1 t pt G) as [H3 H4].
    split; [destruct H3 as [E|(r & t' & Hc & E)]|destruct H4 as [E|(r & t' & Hc & E)]]; try (left; exact E);
      right; destruct (Hend _ _ Hc) as (r' & t'' & Hc' & E'); exists r', t''; (split; [exact Hc'|congruence]).
  - destruct (proj2 (proj1 (H2 a) u) pt G2) as [E1 E2]. destruct (Hend _ _ G1) as (r' & t' & Hc & E).
    split; right; exists r', t'; (split; [exact Hc|congruence]).
Qed.
Lemma once_lib {A} (m : M A) : once (lib m).
Proof. unfold lib. apply once_before; [apply once_call|]. intros [a|e|]; [apply over_ret|apply over_fail|apply over_abort]. Qed.
Lemma once_try {A} (p : prog A) : once p -> once (Try p).
Proof.
  intros H t pt G. destruct (H t pt G) as [H3 H4].
  assert (forall r u, completes p t r u -> exists r', completes (Try p) t r' u) as Hend.
  { intros r u G1. destruct r as [a|m| |].
    - exists (COk (inr a)). left. eauto.
    - exists (COk (inl m)). right. left. eauto.
    - exists CPanic. right. right. auto.
    - exfalso. exact (never_stuck _ _ _ _ G1 eq_refl). }
  split; [destruct H3 as [E|(r & t' & Hc & E)]|destruct H4 as [E|(r & t' & Hc & E)]]; try (left; exact E);
    right; destruct (Hend _ _ Hc) as (r' & Hc'); exists r', t'; auto.
Qed.

Ltac calms := repeat match goal with
  | |- calm (Bind _ _) => apply calm_bind; [|intros ?]
  | |- calm (Ret _) => apply calm_ret
  | |- calm (Fail _) => apply calm_fail
  | |- calm Abort => apply calm_abort
  | |- calm (Loop _ _) => apply calm_loop; intros ?
  | |- calm (Try _) => apply calm_try
  | |- calm (lib_or _ _) => unfold lib_or
  | |- calm (print_line _) => apply calm_line
  | |- calm (Print _) => apply calm_print
  | |- calm Flush => apply calm_flush
  | |- calm (Direct _) => apply calm_direct
  | |- calm (Complain _) => apply calm_complain
  | |- calm Confirm => apply calm_confirm
  | |- calm Question => apply calm_question
  | |- calm Typed => apply calm_typed
  | |- calm Stdin => apply calm_stdin
  | |- calm Readline => apply calm_readline
  | |- calm (for_each _ _) => apply calm_for_each; intros ?
  | |- calm (let '(_, _) := ?x in _) => destruct x
  | |- calm (if ?b then _ else _) => destruct b
  | |- calm (match ?x with _ => _ end) => destruct x
  end.

Section once.
Context (P : prims) (HP : prims_ok P) (E : externals) (path : bytes) (sp : bool).

Lemma reads_disk {A} (m : M A) o : same_call P m o -> modifies o = false -> forall s, s_disk (snd (m s)) = s_disk s.
Proof.
  intros Hm Ho s. rewrite Hm. destruct (exec_disk P o s HP) as ([H|(H & _)] & _); [exact H|]. rewrite Ho in H. discriminate H.
Qed.
Ltac call := intros ?; cbn [exec]; rewrite as_out_snd; reflexivity.
Lemma calm_password pr : calm (prompt_password_p pr sp).
Proof. unfold prompt_password_p, prompt_secret_text_p. calms. Qed.
Lemma calm_ensure : calm (ensure_unlocked_p P sp).
Proof.
  unfold ensure_unlocked_p, unlock_loop_p. calms; try apply calm_password; try (apply calm_lib; reflexivity).
  apply calm_call. match goal with |- context [unlock P ?pp] => apply (reads_disk _ (Unlock pp)) end; [call|reflexivity].
Qed.
Lemma calm_overwrite y d n r : calm (overwrite_p P y d n r).
Proof. unfold overwrite_p. calms. apply calm_call. apply (reads_disk _ (Has d n r)); [call|reflexivity]. Qed.
Lemma calm_decode c : forall s, s_disk (snd (decode_recovery_code P c s)) = s_disk s.
Proof. apply (reads_disk _ (DecodeCode c)); [call|reflexivity]. Qed.
Lemma calm_recovery : calm (prompt_recovery_code_p P).
Proof. unfold prompt_recovery_code_p, first_lines_p. calms; try (apply calm_call, calm_decode); apply calm_lib, calm_decode. Qed.
Lemma calm_list_loop n sh rc vb all l : calm (list_loop_p P n sh rc vb all l).
Proof.
  induction l as [|s l IH]; cbn [list_loop_p]; calms; try exact IH; unfold heading_p, list_password_p; calms; apply calm_lib.
  - apply (reads_disk _ (ListPasswords (site_name s) n)); [call|reflexivity].
  - match goal with |- context [get P ?x ?y ?z] => apply (reads_disk _ (Get x y z)); [call|reflexivity] end.
  - eapply reads_disk; [apply call_code|reflexivity].
Qed.
Lemma once_simple c : once (simple_p P E path sp c).
Proof.
  destruct c as [y|x n r len a b d e y|x n r rc y|x n r|x n r q|x n r set|d pat sh rc v|x al rm|]; cbn [simple_p].
  - unfold set_primary_p. apply once_later; [apply calm_password|]. intros p1. destruct (_ <? _); [apply once_calm, calm_fail|].
    apply once_later; [apply calm_password|]. intros p2. destruct (negb _); [apply once_calm, calm_fail|].
    apply once_before; [apply once_lib|]. intros _. apply over_line.
  - unfold add_p. apply once_later; [apply calm_ensure|]. intros _. destruct (cs_is_empty _); [apply once_calm, calm_fail|].
    apply once_later; [apply calm_overwrite|]. intros [|]; [|apply once_calm, calm_ret].
    apply once_before; [apply once_lib|]. intros _. apply over_line.
  - unfold add_stored_p. apply once_later; [apply calm_ensure|]. intros _.
    apply once_later; [apply calm_overwrite|]. intros [|]; [|apply once_calm, calm_ret].
    apply once_later; [destruct rc; [apply calm_recovery|apply calm_password]|]. intros p.
    apply once_before; [apply once_lib|]. intros _. apply over_line.
  - unfold remove_p. apply once_later; [apply calm_ensure|]. intros _. apply once_before; [apply once_lib|]. intros _. apply over_line.
  - apply once_calm. unfold show_p, qr_row_p. calms; [apply calm_ensure|]. apply calm_lib, (reads_disk _ (Get x n r)); [call|reflexivity].
  - unfold notes_p. apply once_later; [apply calm_ensure|]. intros _.
    apply once_later; [apply calm_lib, (reads_disk _ (GetNotes x n r)); [call|reflexivity]|]. intros notes.
    apply once_later; [calms|]. intros _. destruct set; [|apply once_calm, calm_ret].
    apply once_later; [unfold prompt_secret_text_p; calms|]. intros new. apply once_before; [apply once_lib|]. intros _. apply over_line.
  - unfold list_p. apply once_later; [apply calm_ensure|]. intros _.
    apply once_later; [apply calm_lib, (reads_disk _ (ListSites d)); [call|reflexivity]|]. intros sites. cbv zeta.
    apply once_later; [apply calm_list_loop|]. intros [f e]. apply once_before; [apply once_lib|]. intros _.
    destruct f; [apply over_ret|apply over_line].
  - unfold alias_p. apply once_later; [apply calm_ensure|]. intros _. destruct al as [al|]; [|destruct rm].
    + apply once_before; [apply once_lib|]. intros _. apply over_line.
    + apply once_before; [apply once_lib|]. intros _. apply over_line.
    + apply once_before; [apply once_lib|]. intros a. apply over_line.
  - apply once_calm, calm_ret.
Qed.
End once.
Lemma once_main P (HP : prims_ok P) E path a : a_command a <> Shell -> once (main_p P E path a).
Proof.
  intros Hc. unfold main_p. apply once_before.
  - apply once_try. unfold main_inner_p. apply once_later; [apply calm_lib; reflexivity|]. intros r.
    assert (forall c, c <> Shell -> once (command_p P E path (a_stdin_passwords a) c)) as H.
    { intros c Hs. destruct c; try contradiction; apply once_simple, HP. }
    destruct (a_command a) as [y| | | | | | | |] eqn:Ea; try contradiction.
    1: { apply once_later; [calms|]. intros [|]; [|apply once_calm, calm_ret]. apply H. discriminate. }
    all: destruct r; [apply H; discriminate|apply once_calm, calm_fail|apply once_calm, calm_abort].
  - intros r. apply over_bind; [apply over_lib; reflexivity|]. intros _.
    destruct r; [apply over_bind; [apply over_complain|intros _]|]; (apply over_bind; [apply over_flush|intros _; apply over_ret]).
Qed.
