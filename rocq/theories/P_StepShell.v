(** Stopping a shell: what is saved is what a shorter session would have saved. *)
From Coq Require Import ZArith ZifyBool ZifyNat ZifyN.
From stdpp Require Import gmap.
From Verif Require Import M_Base M_Base64 M_Utf8 M_Prims M_Types M_Crypto M_Recovery M_Json M_Serde M_Storage M_Passwords S_Serde
  S_Vault M_History S_Api P_Base P_Utf8 P_Json P_Serde P_Storage P_Api P_File P_Calls P_Props M_Cli S_Cli P_CliBase P_CliCalls P_CliCommands M_Steps S_Steps
  P_Steps P_Points P_StepCalls P_StepFile P_StepProps.

(** * Commands do not look at the lines of the shell *)

Definition blind {A} (p : prog A) : Prop := forall l t r t', completes p t r t' -> completes p (with_lines l t) r (with_lines l t').
Lemma blind_ret {A} (a : A) : blind (Ret a). Proof. intros l t r t' [-> ->]. split; reflexivity. Qed.
Lemma blind_fail {A} m : blind (Fail m : prog A). Proof. intros l t r t' [-> ->]. split; reflexivity. Qed.
Lemma blind_abort {A} : blind (Abort : prog A). Proof. intros l t r t' [-> ->]. split; reflexivity. Qed.
Lemma blind_bind {A B} (p : prog A) (k : A -> prog B) : blind p -> (forall a, blind (k a)) -> blind (Bind p k).
Proof.
  intros H1 H2 l t r t' [(a & u & G1 & G2)|[(m & G1 & ->)|(G1 & ->)]].
  - left. exists a, (with_lines l u). split; [apply H1, G1|apply H2, G2].
  - right. left. exists m. split; [apply H1, G1|reflexivity].
  - right. right. split; [apply H1, G1|reflexivity].
Qed.
Lemma blind_loop {A B} (body : A -> prog (A + B)) a : (forall x, blind (body x)) -> blind (Loop body a).
Proof.
  intros H l t r t' G. cbn [completes] in *. induction G as [x t y t1 r t' G _ IH|x t b t' G|x t m t' G|x t t' G].
  - eapply loop_again; [apply H, G|exact IH].
  - apply loop_done, H, G.
  - apply loop_fails, H, G.
  - apply loop_aborts, H, G.
Qed.
Lemma blind_try {A} (p : prog A) : blind p -> blind (Try p).
Proof.
  intros H l t r t' [(a & G & ->)|[(m & G & ->)|(G & ->)]].
  - left. exists a. split; [apply H, G|reflexivity].
  - right. left. exists m. split; [apply H, G|reflexivity].
  - right. right. split; [apply H, G|reflexivity].
Qed.
Ltac looks := intros l t r t' [H Hr]; split; [|exact Hr].
Lemma blind_call {A} (m : M A) : blind (Call m).
Proof. looks. unfold api_res in *. change (t_st (with_lines l t)) with (t_st t). destruct (m (t_st t)). injection H as <- <-. reflexivity. Qed.
Lemma blind_print b : blind (Print b).
Proof. looks. unfold print in *. change (t_buf (with_lines l t)) with (t_buf t). destruct (last_line _). injection H as <- <-. reflexivity. Qed.
Lemma blind_line b : blind (print_line b). Proof. apply blind_print. Qed.
Lemma blind_flush : blind Flush. Proof. looks. injection H as <- <-. reflexivity. Qed.
Lemma blind_direct b : blind (Direct b). Proof. looks. injection H as <- <-. reflexivity. Qed.
Lemma blind_complain m : blind (Complain m). Proof. looks. injection H as <- <-. reflexivity. Qed.
Lemma blind_confirm : blind Confirm.
Proof. looks. unfold confirm in *. change (t_confirms (with_lines l t)) with (t_confirms t). destruct (t_confirms t); injection H as <- <-; reflexivity. Qed.
Lemma blind_question : blind Question.
Proof. looks. unfold ask in *. change (t_asks (with_lines l t)) with (t_asks t). destruct (t_asks t); injection H as <- <-; reflexivity. Qed.
Lemma blind_typed : blind Typed.
Proof. looks. unfold tty_password in *. change (t_tty (with_lines l t)) with (t_tty t). destruct (t_tty t); injection H as <- <-; reflexivity. Qed.
Lemma blind_stdin : blind Stdin.
Proof. looks. unfold stdin_line in *. change (t_stdin (with_lines l t)) with (t_stdin t). destruct (read_line _). injection H as <- <-. reflexivity. Qed.
Lemma blind_for_each {A} (f : A -> prog unit) l : (forall x, blind (f x)) -> blind (for_each f l).
Proof. intros H. induction l; cbn; [apply blind_ret|apply blind_bind; [apply H|intros _; assumption]]. Qed.
Ltac blinds := repeat match goal with
  | |- blind (Bind _ _) => apply blind_bind; [|intros ?]
  | |- blind (Ret _) => apply blind_ret
  | |- blind (Fail _) => apply blind_fail
  | |- blind Abort => apply blind_abort
  | |- blind (Loop _ _) => apply blind_loop; intros ?
  | |- blind (Try _) => apply blind_try
  | |- blind (lib _) => unfold lib
  | |- blind (lib_or _ _) => unfold lib_or
  | |- blind (print_line _) => apply blind_line
  | |- blind (Print _) => apply blind_print
  | |- blind Flush => apply blind_flush
  | |- blind (Direct _) => apply blind_direct
  | |- blind (Complain _) => apply blind_complain
  | |- blind Confirm => apply blind_confirm
  | |- blind Question => apply blind_question
  | |- blind Typed => apply blind_typed
  | |- blind Stdin => apply blind_stdin
  | |- blind (Call _) => apply blind_call
  | |- blind (for_each _ _) => apply blind_for_each; intros ?
  | |- blind (let '(_, _) := ?x in _) => destruct x
  | |- blind (if ?b then _ else _) => destruct b
  | |- blind (match ?x with _ => _ end) => destruct x
  end.

Section shell.
Context (P : prims) (HP : prims_ok P) (E : externals) (path : bytes) (sp : bool).
Lemma blind_list_loop n sh rc vb all l : blind (list_loop_p P n sh rc vb all l).
Proof. induction l as [|s l IH]; cbn [list_loop_p]; blinds; try exact IH; unfold heading_p, list_password_p; blinds. Qed.
Lemma blind_simple c : blind (simple_p P E path sp c).
Proof.
  destruct c; cbn [simple_p]; unfold set_primary_p, add_p, add_stored_p, remove_p, show_p, notes_p, list_p, alias_p,
    overwrite_p, qr_row_p, ensure_unlocked_p, unlock_loop_p, prompt_password_p, prompt_secret_text_p, prompt_recovery_code_p, first_lines_p;
    blinds; try apply blind_list_loop.
Qed.
Lemma blind_shell_step line : blind (shell_step_p P E path sp line).
Proof. unfold shell_step_p. blinds; apply blind_simple. Qed.
Lemma once_shell_step line : once (shell_step_p P E path sp line).
Proof.
  unfold shell_step_p. destruct (e_parse E line) as [m| | |c]; try (apply once_calm; calms; apply calm_lib; reflexivity).
  assert (forall c, once (do r <- Try (simple_p P E path sp c);
      do _ <- (match r with inl m => Complain m | inr _ => Flush end); Ret true)) as H.
  { intros c'. apply once_before; [apply once_try, once_simple, HP|]. intros r. apply over_bind; [|intros _; apply over_ret].
    destruct r; [apply over_complain|apply over_flush]. }
  destruct c; try apply H; apply once_calm; calms.
Qed.

(** The lines of a session that is ended early. *)
Definition cut (k : nat) (t : term) : term := with_lines (firstn k (t_lines t) ++ [Eof]) t.
Definition ends_with {A} (p : prog A) (t : term) (d : option bytes) : Prop := exists r t', completes p t r t' /\ D t' = d.
Definition looping := Loop (shell_round_p P E path sp) tt.

Lemma read_now l t : completes Readline (with_lines (l :: t_lines t) t) (COk l) t.
Proof. split; [|discriminate]. unfold next_line. destruct t. reflexivity. Qed.
Lemma at_eof t : completes (shell_round_p P E path sp tt) (with_lines [Eof] t) (COk (inr tt)) (with_lines [] t).
Proof. left. exists Eof, (with_lines [] t). split; [split; [reflexivity|discriminate]|]. split; reflexivity. Qed.
Lemma cut_now t : ends_with looping (cut 0 t) (D t).
Proof. exists (COk tt), (with_lines [] t). split; [|reflexivity]. apply loop_done, at_eof. Qed.
Lemma read_cases t r t1 : completes Readline t r t1 -> exists l rest, t_lines t = l :: rest /\ r = COk l /\ t1 = with_lines rest t.
Proof.
  intros [H Hr]. unfold next_line in H. destruct (t_lines t) as [|l rest]; injection H as <- <-; [contradiction|]. eauto 6.
Qed.
Definition after_read (l : readline) : prog (unit + unit) := match l with
  | Line line => do go <- shell_step_p P E path sp line; Ret (if go : bool then inl tt else inr tt)
  | Interrupted => Ret (inl tt)
  | Eof => Ret (inr tt)
  | OtherError => do _ <- Complain (Text (bs "Error: ")); Ret (inl tt)
  end.
Lemma blind_after l : blind (after_read l).
Proof. destruct l; cbn [after_read]; blinds. apply blind_shell_step. Qed.
Lemma once_after l : once (after_read l).
Proof.
  destruct l; cbn [after_read]; try (apply once_calm; calms; fail). apply once_before; [apply once_shell_step|]. intros go. apply over_ret.
Qed.
Lemma keeps_after l : keeps_lines (after_read l).
Proof.
  destruct l; cbn [after_read]; [|apply keeps_ret|apply keeps_ret|].
  - apply keeps_bind; [apply keeps_shell_step|]. intros go. apply keeps_ret.
  - apply keeps_bind; [apply keeps_complain|]. intros _. apply keeps_ret.
Qed.

Lemma round_ends t r t' : completes (shell_round_p P E path sp tt) t r t' ->
  exists l rest, t_lines t = l :: rest /\ completes (after_read l) (with_lines rest t) r t'.
Proof.
  intros [(l & t1 & G1 & G2)|[(m & G1 & _)|(G1 & _)]]; destruct (read_cases _ _ _ G1) as (l' & rest & El & Er & ->);
    [|discriminate Er..]. injection Er as <-. exists l, rest. split; [exact El|exact G2].
Qed.
(** The same line with other lines to follow. *)
Lemma round_again l t r t' more : completes (after_read l) t r t' ->
  completes (shell_round_p P E path sp tt) (with_lines (l :: more) t) r (with_lines more t').
Proof.
  intros H. left. exists l, (with_lines more t). split; [split; [reflexivity|discriminate]|].
  change (completes (after_read l) (with_lines more t) r (with_lines more t')). apply blind_after, H.
Qed.
Lemma one_line l rest t r t' : t_lines t = l :: rest -> completes (after_read l) (with_lines rest t) r t' -> ends_with looping (cut 1 t) (D t').
Proof.
  intros El H. unfold ends_with, looping, cut. rewrite El. cbn [firstn app].
  pose proof (round_again l _ _ _ [Eof] H) as G. change (with_lines (l :: [Eof]) (with_lines rest t)) with (with_lines (l :: [Eof]) t) in G.
  destruct r as [[[]|[]]|m| |].
  - exists (COk tt), (with_lines [] t'). split; [|reflexivity]. eapply loop_again; [exact G|]. apply loop_done, at_eof.
  - exists (COk tt), (with_lines [Eof] t'). split; [|reflexivity]. apply loop_done, G.
  - exists (CErr m), (with_lines [Eof] t'). split; [|reflexivity]. apply loop_fails, G.
  - exists CPanic, (with_lines [Eof] t'). split; [|reflexivity]. apply loop_aborts, G.
  - exfalso. exact (never_stuck _ _ _ _ G eq_refl).
Qed.
Lemma loop_cut t pt : during looping t pt ->
  (exists k, ends_with looping (cut k t) (D (pt_term pt))) /\ exists k, ends_with looping (cut k t) (soon pt).
Proof.
  unfold looping at 1. cbn [during]. generalize tt as u. intros u H. induction H as [x t pt H|x t y t1 pt H _ IH]; destruct x.
  - destruct H as [H|(l & t1 & H1 & H2)].
    + cbn [during] in H. subst pt. split; exists 0; apply cut_now.
    + destruct (read_cases _ _ _ H1) as (l' & rest & El & Er & ->). injection Er as <-.
      destruct (once_after l _ _ H2) as [G1 G2].
      assert (forall d, settled (after_read l) (with_lines rest t) d -> exists k, ends_with looping (cut k t) d) as G.
      { intros d [-> |(r & t' & Hc & <-)]; [exists 0; exact (cut_now t)|]. exists 1. exact (one_line l rest t r t' El Hc). }
      split; apply G; assumption.
  - destruct y. destruct (round_ends _ _ _ H) as (l & rest & El & Hr).
    assert (t_lines t1 = rest) as Hl by (rewrite (keeps_after l _ _ _ Hr); reflexivity).
    assert (forall d, (exists k, ends_with looping (cut k t1) d) -> exists k, ends_with looping (cut k t) d) as G.
    { intros d (k & r & t' & Hc & Hd). exists (S k), r, t'. split; [|exact Hd]. unfold cut in *. rewrite El. rewrite Hl in Hc. cbn [firstn app].
      pose proof (round_again l _ _ _ (firstn k rest ++ [Eof]) Hr) as G. eapply loop_again; [exact G|exact Hc]. }
    destruct IH as [IH1 IH2]. split; apply G; assumption.
Qed.
Lemma loop_over t r t' : completes looping t r t' -> exists k, ends_with looping (cut k t) (D t').
Proof.
  unfold looping at 1. cbn [completes]. generalize tt as u. intros u H. induction H as [x t y t1 r t' H _ IH|x t b t' H|x t m t' H|x t t' H]; destruct x.
  2-4: destruct (round_ends _ _ _ H) as (l & rest & El & Hr); exists 1; exact (one_line l rest t _ t' El Hr).
  destruct y. destruct (round_ends _ _ _ H) as (l & rest & El & Hr).
  assert (t_lines t1 = rest) as Hl by (rewrite (keeps_after l _ _ _ Hr); reflexivity).
  destruct IH as (k & r' & t2 & Hc & Hd). exists (S k), r', t2. split; [|exact Hd]. unfold cut in *. rewrite El. rewrite Hl in Hc. cbn [firstn app].
  pose proof (round_again l _ _ _ (firstn k rest ++ [Eof]) Hr) as G. eapply loop_again; [exact G|exact Hc].
Qed.
End shell.

(** * The whole process *)
Lemma shell_moment P E path a t pt : prims_ok P -> a_command a = Shell -> during (main_p P E path a) t pt ->
  let saved d := exists k x t', main P E path a (with_lines (firstn k (t_lines t) ++ [Eof]) t) = (x, t') /\ x <> Waiting /\ s_disk (t_st t') = d in
  saved (s_disk (t_st (pt_term pt))) /\ forall s, pt_next pt = Calls s -> saved (s_disk s).
Proof.
  intros HP Ha H. cbv zeta.
  set (tail := fun r : message + unit => do _ <- lib lock;
    match r with inl m => do _ <- Complain m; do _ <- Flush; Ret Failure | inr _ => do _ <- Flush; Ret Success end).
  assert (forall r, over (tail r)) as HT.
  { intros r. unfold tail. apply over_bind; [apply over_lib; reflexivity|]. intros _.
    destruct r; [apply over_bind; [apply over_complain|intros _]|]; (apply over_bind; [apply over_flush|intros _; apply over_ret]). }
  assert (forall t0 d, ends_with (main_inner_p P E path a) t0 d -> ends_with (main_p P E path a) t0 d) as HM.
  { intros t0 d (r & u & G & <-). unfold main_p. fold tail.
    assert (forall y, completes (Try (main_inner_p P E path a)) t0 (COk y) u -> ends_with (Bind (Try (main_inner_p P E path a)) tail) t0 (D u)) as K.
    { intros y Gy. destruct (HT y) as [Hc Ho]. destruct (Ho u) as (r' & t' & G'). exists r', t'. split; [left; eauto|exact (proj1 (Hc u) _ _ G')]. }
    destruct r as [x|m| |].
    - apply (K (inr x)). left. eauto.
    - apply (K (inl m)). right. left. eauto.
    - exists CPanic, u. split; [right; right; split; [right; right; auto|reflexivity]|reflexivity].
    - exfalso. exact (never_stuck _ _ _ _ G eq_refl). }
  set (head := fun r : res kvmap => match r with Ok _ => command_p P E path (a_stdin_passwords a) Shell | Err e => Fail (Lib e) | Panic => Abort end).
  assert (main_inner_p P E path a = Bind (lib (open_file P)) head) as EI by (unfold main_inner_p, head; rewrite Ha; reflexivity).
  (* nothing read so far, or the loop *)
  set (start := passwords_new (match load P (s_disk (t_st t)) with Ok d => d | _ => ∅ end) (t_st t)).
  assert (forall l, completes (lib (open_file P)) (with_lines l t) (COk (load P (s_disk (t_st t)))) (with_lines l (with_st start t))) as HO.
  { intros l. left. exists (Ok (load P (s_disk (t_st t)))), (with_lines l (with_st start t)). split; [split; [reflexivity|discriminate]|].
    split; reflexivity. }
  set (t2 := with_out (t_shown t ++ t_buf t ++ SHELL_HELP ++ [newline]) [] (with_st start t)).
  assert (forall l r t', load P (s_disk (t_st t)) = Ok r -> forall x, completes (looping P E path (a_stdin_passwords a)) (with_lines l t2) x t' ->
    completes (main_inner_p P E path a) (with_lines l t) x t') as HI.
  { intros l r t' El x G. rewrite EI. left. do 2 eexists. split; [apply HO|]. rewrite El. cbn [head command_p]. unfold shell_p.
    left. exists tt, (with_lines l t2). split.
    - split; [|discriminate]. unfold print. cbn [t_buf with_lines with_st]. rewrite app_assoc, last_line_newline. unfold t2. rewrite <- !app_assoc. reflexivity.
    - left. exists tt, (with_lines l t2). split; [|exact G]. split; [|discriminate]. unfold flush_stdout. cbn. rewrite app_nil_r. reflexivity. }
  assert (forall d, (exists k, ends_with (main_p P E path a) (with_lines (firstn k (t_lines t) ++ [Eof]) t) d) ->
    exists k x t', main P E path a (with_lines (firstn k (t_lines t) ++ [Eof]) t) = (x, t') /\ x <> Waiting /\ s_disk (t_st t') = d) as HX.
  { intros d (k & r & t' & Hr & Hd). apply main_completes in Hr. destruct Hr as (x & Hx & Ho).
    exists k, x, t'. split; [exact Hx|]. split; [intros ->; discriminate Ho|exact Hd]. }
  assert (exists k, ends_with (main_p P E path a) (with_lines (firstn k (t_lines t) ++ [Eof]) t) (D t)) as H0.
  { exists 0. apply HM. destruct (load P (s_disk (t_st t))) as [d|e|] eqn:El.
    - destruct (cut_now P E path (a_stdin_passwords a) t2) as (r & t' & G & Hd). exists r, t'. split; [|exact Hd]. exact (HI [Eof] d t' eq_refl r G).
    - exists (CErr (Lib e)), (with_lines [Eof] (with_st start t)). split; [|reflexivity]. rewrite EI. left. do 2 eexists. split; [apply HO|].
      split; reflexivity.
    - exists CPanic, (with_lines [Eof] (with_st start t)). split; [|reflexivity]. rewrite EI. left. do 2 eexists. split; [apply HO|].
      split; reflexivity. }
  assert ((exists k, ends_with (main_p P E path a) (with_lines (firstn k (t_lines t) ++ [Eof]) t) (D (pt_term pt))) /\
          exists k, ends_with (main_p P E path a) (with_lines (firstn k (t_lines t) ++ [Eof]) t) (soon pt)) as [K1 K2].
  2: { split; [exact (HX _ K1)|]. intros s Hs. apply HX. unfold soon in K2. rewrite Hs in K2. exact K2. }
  assert (forall u r, completes (lib (open_file P)) t r u -> r = COk (load P (s_disk (t_st t))) /\ u = with_st start t) as HO'.
  { intros u r G. pose proof (HO (t_lines t)) as G'.
    assert (forall x, with_lines (t_lines x) x = x) as Eta by (intros []; reflexivity).
    rewrite Eta in G'. change (with_lines (t_lines t) (with_st start t)) with (with_lines (t_lines (with_st start t)) (with_st start t)) in G'.
    rewrite Eta in G'. exact (completes_once _ _ _ _ _ _ G G'). }
  unfold main_p in H. fold tail in H. destruct H as [H|(r & u & H1 & H2)].
  - change (during (main_inner_p P E path a) t pt) in H. rewrite EI in H. destruct H as [H|(r & u & H1 & H2)].
    + assert (calm (lib (open_file P))) as HC by (apply calm_lib; reflexivity). destruct (proj2 (HC t) pt H) as [-> ->]. split; exact H0.
    + destruct (HO' _ _ H1) as [Er ->]. injection Er as ->. destruct (load P (s_disk (t_st t))) as [d|e|] eqn:El; [|destruct H2..].
      cbn [head command_p] in H2. unfold shell_p in H2. destruct H2 as [H2|([] & u1 & H2 & H3)].
      { cbn [during print_line] in H2. subst pt. split; exact H0. }
      destruct H2 as [H2 _]. unfold print in H2. rewrite app_assoc, last_line_newline in H2. injection H2 as <-.
      match type of H3 with during _ ?x _ => replace x with t2 in H3 by (unfold t2; cbn; rewrite <- !app_assoc; reflexivity) end.
      destruct H3 as [H3|([] & u2 & H3 & H4)].
      { cbn [during] in H3. subst pt. split; exact H0. }
      destruct H3 as [H3 _]. injection H3 as <-.
      match type of H4 with during _ ?x _ => replace x with t2 in H4 by (unfold t2; cbn; rewrite app_nil_r; reflexivity) end.
      destruct (loop_cut P HP E path (a_stdin_passwords a) t2 pt H4) as [[k1 (r1 & t1' & G1 & E1)] [k2 (r2 & t2' & G2 & E2)]].
      split; [exists k1|exists k2]; apply HM; do 2 eexists; (split; [eapply HI; [reflexivity|eassumption]|assumption]).
  - destruct (proj2 (proj1 (HT r) u) pt H2) as [-> ->].
    assert (exists x, completes (main_inner_p P E path a) t x u) as [x Hx].
    { destruct H1 as [(y & G & _)|[(m & G & _)|(G & _)]]; eauto. }
    rewrite EI in Hx. cbn [completes] in Hx. destruct Hx as [(r0 & u0 & G1 & G2)|[(m & G1 & _)|(G1 & _)]];
      [|destruct (HO' _ _ G1) as [E0 _]; discriminate E0..].
    destruct (HO' _ _ G1) as [Er ->]. injection Er as ->. destruct (load P (s_disk (t_st t))) as [d|e|] eqn:El; cbn [head] in G2;
      [|destruct G2 as [_ ->]; split; exact H0..].
    (* the session was over: its last line is the last one read *)
    cbn [command_p] in G2. unfold shell_p in G2. cbn [completes print_line] in G2.
    destruct G2 as [([] & u1 & G2 & G3)|[(m & [G2 _] & _)|([G2 _] & _)]];
      [|unfold print in G2; destruct (last_line _); discriminate G2..].
    destruct G2 as [G2 _]. unfold print in G2. rewrite app_assoc, last_line_newline in G2. injection G2 as <-.
    destruct G3 as [([] & u2 & G3 & G4)|[(m & [G3 _] & _)|([G3 _] & _)]]; [|discriminate G3..].
    destruct G3 as [G3 _]. injection G3 as <-.
    match type of G4 with _ ?x _ _ => replace x with t2 in G4 by (unfold t2; cbn; rewrite app_nil_r, <- !app_assoc; reflexivity) end.
    destruct (loop_over P E path (a_stdin_passwords a) t2 x u G4) as [k (r1 & t1' & K1 & K2)].
    split; exists k; apply HM; do 2 eexists; (split; [eapply HI; [reflexivity|exact K1]|exact K2]).
Qed.
Lemma stopped_shell P E path a t pt d : prims_ok P -> externals_valid E -> command_valid (a_command a) -> typed_valid t ->
  a_command a = Shell -> during (main_p P E path a) t pt -> stopped P pt d ->
  (exists k x t', main P E path a (with_lines (firstn k (t_lines t) ++ [Eof]) t) = (x, t') /\ x <> Waiting /\ s_disk (t_st t') = d) \/
  (torn P pt d /\ (load P d = Err FileReadFailure \/ load P d = Err InvalidJson)).
Proof.
  intros HP HE Hc Ht Hs H Hst. destruct (shell_moment P E path a t pt HP Hs H) as [G1 G2].
  destruct (moment_stopped P E path a t pt d HP HE Hc Ht H Hst) as [-> |[(s & Hn & -> & _)|Hto]]; [left; exact G1|left; exact (G2 s Hn)|right; exact Hto].
Qed.
