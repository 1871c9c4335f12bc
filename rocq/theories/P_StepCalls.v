(** Up to every moment a process has made a sequence of calls of the library, of certain kinds. *)
From Coq Require Import ZArith ZifyBool ZifyNat ZifyN.
From stdpp Require Import gmap.
From Verif Require Import M_Base M_Base64 M_Utf8 M_Prims M_Types M_Crypto M_Recovery M_Json M_Serde M_Storage M_Passwords S_Serde
  S_Vault M_History S_Api P_Base P_Utf8 P_Json P_Serde P_Storage P_Api P_Calls M_Cli S_Cli P_CliBase P_CliCalls M_Steps S_Steps.

Section goes.
Context (P : prims) (path : bytes).
Implicit Types K : op -> Prop.

(** The moment is reached by calls satisfying [K], the next one satisfies it as well. *)
Definition reached K (s : st) (pt : point) : Prop :=
  exists l, Forall K l /\ t_st (pt_term pt) = snd (run P l s) /\ typed_valid (pt_term pt) /\
    (forall s', pt_next pt = Calls s' -> s' = t_st (pt_term pt) \/ exists o, K o /\ s' = snd (exec P o (t_st (pt_term pt)))) /\
    (forall b, pt_next pt = Prints b -> confirmation path b -> exists l' o, l = l' ++ [o] /\ confirms path o b /\ modifies o = true /\
       fst (exec P o (snd (run P l' s))) = ODone).
Definition goes {A} K (Q : A -> Prop) (p : prog A) : Prop := forall t, typed_valid t ->
  (forall r t', completes p t r t' -> exists l, Forall K l /\ t_st t' = snd (run P l (t_st t)) /\ typed_valid t' /\
     forall a, r = COk a -> Q a) /\
  forall pt, during p t pt -> reached K (t_st t) pt.

Lemma reached_after K l s pt : Forall K l -> reached K (snd (run P l s)) pt -> reached K s pt.
Proof.
  intros Hl (l' & Hl' & E & H1 & H2 & H3). exists (l ++ l'). split; [apply Forall_app; auto|]. rewrite run_app. cbn [snd].
  split; [exact E|]. split; [exact H1|]. split; [exact H2|]. intros b Hb Hc. destruct (H3 b Hb Hc) as (l1 & o & -> & Ho & Hm & Hd).
  exists (l ++ l1), o. rewrite app_assoc, run_app. auto.
Qed.
Lemma goes_ret {A} K (Q : A -> Prop) (a : A) : Q a -> goes K Q (Ret a).
Proof. intros H t Ht. split; [|intros pt []]. intros r t' [-> ->]. exists []. repeat split; auto. intros b [= <-]. exact H. Qed.
Lemma goes_fail {A} K (Q : A -> Prop) m : goes K Q (Fail m : prog A).
Proof. intros t Ht. split; [|intros pt []]. intros r t' [-> ->]. exists []. repeat split; auto. discriminate. Qed.
Lemma goes_abort {A} K (Q : A -> Prop) : goes K Q (Abort : prog A).
Proof. intros t Ht. split; [|intros pt []]. intros r t' [-> ->]. exists []. repeat split; auto. discriminate. Qed.
Lemma goes_bind {A B} K (R : A -> Prop) (Q : B -> Prop) (p : prog A) (k : A -> prog B) :
  goes K R p -> (forall a, R a -> goes K Q (k a)) -> goes K Q (Bind p k).
Proof.
  intros H1 H2 t Ht. destruct (H1 t Ht) as [He Hd]. split.
  - intros r t' [(a & u & G1 & G2)|[(m & G1 & ->)|(G1 & ->)]]; destruct (He _ _ G1) as (l & Hl & E & Ht' & HR);
      try (exists l; repeat split; auto; discriminate).
    destruct (H2 a (HR a eq_refl) u Ht') as [He' _]. destruct (He' _ _ G2) as (l' & Hl' & E' & Ht'' & HQ).
    exists (l ++ l'). split; [apply Forall_app; auto|]. rewrite run_app. cbn [snd]. rewrite <- E. auto.
  - intros pt [G|(a & u & G1 & G2)]; [auto|]. destruct (He _ _ G1) as (l & Hl & E & Ht' & HR).
    destruct (H2 a (HR a eq_refl) u Ht') as [_ Hd']. specialize (Hd' _ G2). rewrite E in Hd'. exact (reached_after _ _ _ _ Hl Hd').
Qed.
Lemma goes_seq {A B} K (Q : B -> Prop) (p : prog A) (k : A -> prog B) :
  goes K (fun _ => True) p -> (forall a, goes K Q (k a)) -> goes K Q (Bind p k).
Proof. intros H1 H2. eapply goes_bind; [exact H1|]. intros a _. apply H2. Qed.
Lemma goes_weaken {A} (K K' : op -> Prop) (Q Q' : A -> Prop) p :
  (forall o, K o -> K' o) -> (forall a, Q a -> Q' a) -> goes K Q p -> goes K' Q' p.
Proof.
  intros HK HQ H t Ht. destruct (H t Ht) as [He Hd]. split.
  - intros r t' G. destruct (He _ _ G) as (l & Hl & E & Ht' & HR). exists l. split; [revert Hl; apply Forall_impl, HK|]. auto.
  - intros pt G. destruct (Hd _ G) as (l & Hl & E & Ht' & Hn & Hb). exists l. split; [revert Hl; apply Forall_impl, HK|].
    split; [exact E|]. split; [exact Ht'|]. split; [|exact Hb]. intros s' Hs. destruct (Hn s' Hs) as [H0|(o & Ho & H0)]; eauto.
Qed.
Lemma goes_any {A} K (Q : A -> Prop) p : goes K Q p -> goes K (fun _ => True) p.
Proof. apply goes_weaken; auto. Qed.
(** [J] holds for what is kept from one round to the next. *)
Lemma goes_loop {A B} K (J : A -> Prop) (Q : B -> Prop) (body : A -> prog (A + B)) a :
  (forall x, J x -> goes K (fun r => match r with inl y => J y | inr b => Q b end) (body x)) -> J a -> goes K Q (Loop body a).
Proof.
  intros H Ha t Ht. split.
  - intros r t' G. cbn [completes] in G. revert Ha Ht. induction G as [x t y t1 r t' G _ IH|x t b t' G|x t m t' G|x t t' G];
      intros Ha Ht; destruct (H x Ha t Ht) as [He _]; destruct (He _ _ G) as (l & Hl & E & Ht' & HR);
      try (exists l; repeat split; auto; discriminate).
    + destruct (IH (HR _ eq_refl) Ht') as (l' & Hl' & E' & H'). exists (l ++ l'). split; [apply Forall_app; auto|].
      rewrite run_app. cbn [snd]. rewrite <- E. auto.
    + exists l. repeat split; auto. intros z [= <-]. exact (HR _ eq_refl).
  - intros pt G. cbn [during] in G. revert Ha Ht. induction G as [x t pt G|x t y t1 pt G _ IH]; intros Ha Ht; destruct (H x Ha t Ht) as [He Hd].
    + exact (Hd _ G).
    + destruct (He _ _ G) as (l & Hl & E & Ht' & HR). specialize (IH (HR _ eq_refl) Ht'). rewrite E in IH. exact (reached_after _ _ _ _ Hl IH).
Qed.
Lemma goes_try {A} K (Q : A -> Prop) (p : prog A) : goes K Q p -> goes K (fun _ => True) (Try p).
Proof.
  intros H t Ht. destruct (H t Ht) as [He Hd]. split; [|exact Hd].
  intros r t' [(a & G & ->)|[(m & G & ->)|(G & ->)]]; destruct (He _ _ G) as (l & Hl & E & Ht' & _); exists l; repeat split; auto.
Qed.

(** Actions that do not touch the passwords. *)
Lemma goes_still {A} K (Q : A -> Prop) (p : prog A) :
  (forall t r t', completes p t r t' -> t_st t' = t_st t /\ t_tty t' = t_tty t /\ forall a, r = COk a -> Q a) ->
  (forall t pt, during p t pt -> pt_term pt = t /\ (forall s, pt_next pt <> Calls s) /\ forall b, pt_next pt = Prints b -> ~ confirmation path b) ->
  goes K Q p.
Proof.
  intros H1 H2 t Ht. split.
  - intros r t' G. destruct (H1 _ _ _ G) as (E1 & E2 & HQ). exists []. split; [constructor|]. split; [exact E1|].
    split; [unfold typed_valid; rewrite E2; exact Ht|exact HQ].
  - intros pt G. destruct (H2 _ _ G) as (E & Hn & Hb). exists []. rewrite E. repeat split; auto.
    + intros s' Hs. destruct (Hn _ Hs).
    + intros b Hp Hc. destruct (Hb _ Hp Hc).
Qed.
Ltac still := apply goes_still; [intros t r t' [H _]|intros t pt H; cbn [during] in H; subst pt; split; [reflexivity|split; [intros s; discriminate|intros b' Hb; try discriminate Hb]]].
Lemma goes_print K b : ~ confirmation path b -> goes K (fun _ => True) (Print b).
Proof. intros Hc. still; [|injection Hb as <-; exact Hc]. unfold print in H. destruct (last_line _). injection H as _ <-. auto. Qed.
Lemma goes_line K b : ~ confirmation path (b ++ [newline]) -> goes K (fun _ => True) (print_line b).
Proof. apply goes_print. Qed.
Lemma goes_flush K : goes K (fun _ => True) Flush.
Proof. still. injection H as _ <-. auto. Qed.
Lemma goes_direct K b : goes K (fun _ => True) (Direct b).
Proof. still. injection H as _ <-. auto. Qed.
Lemma goes_complain K m : goes K (fun _ => True) (Complain m).
Proof. still. injection H as _ <-. auto. Qed.
Lemma goes_confirm K : goes K (fun _ => True) Confirm.
Proof. still. unfold confirm in H. destruct (t_confirms t); injection H as _ <-; auto. Qed.
Lemma goes_question K : goes K (fun _ => True) Question.
Proof. still. unfold ask in H. destruct (t_asks t); injection H as _ <-; auto. Qed.
Lemma goes_readline K : goes K (fun _ => True) Readline.
Proof. still. unfold next_line in H. destruct (t_lines t); injection H as _ <-; auto. Qed.
Lemma goes_stdin K : goes K (fun b => utf8 b = true) Stdin.
Proof.
  still. unfold stdin_line in H. destruct (read_line _) as [l x]. injection H as <- <-. repeat split.
  intros a. destruct (utf8 l) eqn:E; [|discriminate]. intros [= <-]. exact E.
Qed.
Lemma goes_typed K : goes K (fun b => utf8 b = true) Typed.
Proof.
  intros t Ht. split.
  - intros r t' [H Hr]. exists []. split; [constructor|]. unfold tty_password in H. unfold typed_valid in *.
    destruct (t_tty t) as [|o l] eqn:E; [injection H as <- <-; contradiction|].
    inversion Ht as [|? ? H1 H2]; subst. injection H as <- <-. split; [reflexivity|]. split; [exact H2|].
    destruct o as [p|]; [|discriminate]. intros a [= <-]. exact H1.
  - intros pt H; cbn [during] in H; subst pt. exists []. repeat split; auto; discriminate.
Qed.
Lemma goes_for_each {A} K (f : A -> prog unit) l : (forall x, In x l -> goes K (fun _ => True) (f x)) -> goes K (fun _ => True) (for_each f l).
Proof.
  induction l as [|x l IH]; intros H; cbn; [apply goes_ret, I|].
  apply goes_seq; [apply H; left; reflexivity|]. intros _. apply IH. intros y Hy. apply H. right. exact Hy.
Qed.

(** ** Calls *)

Lemma goes_call {A} K (Q : res A -> Prop) (m : M A) o : same_call P m o -> K o -> (forall s, Q (fst (m s))) -> goes K Q (Call m).
Proof.
  intros Hm HK HQ t Ht. split.
  - intros r t' [H Hr]. exists [o]. split; [constructor; [exact HK|constructor]|]. rewrite run_one. cbn [snd].
    rewrite <- Hm. specialize (HQ (t_st t)). unfold api_res in H. destruct (m (t_st t)) as [x s]. injection H as <- <-.
    split; [reflexivity|]. split; [exact Ht|]. cbn [fst] in HQ. destruct x; [intros ? [= <-]; exact HQ..|discriminate].
  - intros pt H; cbn [during] in H; subst pt. exists []. repeat split; auto; [|discriminate]. cbn. intros s' [= <-]. right. exists o. split; [exact HK|apply Hm].
Qed.
(** A call that only looks. *)
Lemma goes_look {A} K (Q : res A -> Prop) (m : M A) : (forall s, snd (m s) = s) -> (forall s, Q (fst (m s))) -> goes K Q (Call m).
Proof.
  intros Hm HQ t Ht. split.
  - intros r t' [H Hr]. exists []. split; [constructor|]. specialize (HQ (t_st t)). specialize (Hm (t_st t)).
    unfold api_res in H. destruct (m (t_st t)) as [x s]. injection H as <- <-. cbn [fst snd] in *. subst s.
    split; [reflexivity|]. split; [exact Ht|]. destruct x; [intros ? [= <-]; exact HQ..|discriminate].
  - intros pt H; cbn [during] in H; subst pt. exists []. repeat split; auto; [|discriminate]. cbn. intros s' [= <-]. left. apply Hm.
Qed.
Lemma goes_lib {A} K (Q : A -> Prop) (m : M A) o : same_call P m o -> K o -> (forall s a, fst (m s) = Ok a -> Q a) -> goes K Q (lib m).
Proof.
  intros Hm HK HQ. unfold lib. apply (goes_bind K (fun r => forall a, r = Ok a -> Q a)).
  - apply (goes_call K _ m o Hm HK). intros s a. apply HQ.
  - intros [a|e|] H; [apply goes_ret, H; reflexivity|apply goes_fail|apply goes_abort].
Qed.
Lemma goes_lib_look {A} K (m : M A) : (forall s, snd (m s) = s) -> goes K (fun _ => True) (lib m).
Proof.
  intros Hm. unfold lib. apply goes_seq; [apply goes_look; auto|]. intros [a|e|]; [apply goes_ret, I|apply goes_fail|apply goes_abort].
Qed.
Lemma goes_lib_or {A} K (m : M A) (d : A) o : same_call P m o -> K o -> goes K (fun _ => True) (lib_or m d).
Proof.
  intros Hm HK. unfold lib_or. apply goes_seq; [apply (goes_call K _ m o Hm HK); auto|].
  intros [a|e|]; [apply goes_ret, I|apply goes_ret, I|apply goes_abort].
Qed.
(** A call whose success is confirmed. *)
Lemma goes_confirmed K (m : M unit) o (b : bytes) : (forall s, exec P o s = done_out (m s)) -> K o -> modifies o = true ->
  confirms path o (b ++ [newline]) -> goes K (fun _ => True) (do _ <- lib m; print_line b).
Proof.
  intros Hm HK Hmod Hc t Ht. assert (goes K (fun _ => True) (lib m)) as H1.
  { apply (goes_lib K _ m o); [intros s; rewrite Hm, done_out_snd; reflexivity|exact HK|auto]. }
  destruct (H1 t Ht) as [He Hd]. split.
  - intros r t' [([] & u & G1 & [G2 _])|[(x & G1 & ->)|(G1 & ->)]]; destruct (He _ _ G1) as (l & Hl & E & Ht' & _); exists l;
      repeat split; auto; unfold print in G2; destruct (last_line _); injection G2 as _ <-; assumption.
  - intros pt [G|([] & u & G1 & G2)]; [exact (Hd pt G)|]. cbn [during print_line] in G2. subst pt.
    assert (u = with_st (snd (exec P o (t_st t))) t /\ fst (exec P o (t_st t)) = ODone) as [-> Ho].
    { unfold lib in G1. destruct G1 as [(x & u' & [G _] & G2)|[(x & [_ _] & G)|([_ _] & G)]]; [|discriminate G..].
      rewrite Hm, done_out_ok, done_out_snd. unfold api_res in G. destruct (m (t_st t)) as [y s]. cbn [fst snd].
      destruct y as [[]|e|]; [| |discriminate G]; injection G as <- <-; [|destruct G2 as [G2 _]; discriminate G2].
      destruct G2 as [_ ->]. split; reflexivity. }
    exists [o]. split; [repeat constructor; exact HK|]. rewrite run_one. cbn [snd]. split; [reflexivity|]. split; [exact Ht|].
    split; [discriminate|]. intros b' [= <-] _. exists [], o. repeat split; auto.
Qed.
Ltac call := intros ?; cbn [exec]; rewrite as_out_snd; reflexivity.

(** Other lines. *)
Lemma confirmation_forms b : confirmation path b ->
  b = bs "Password added." ++ [newline] \/ b = bs "Password removed." ++ [newline] \/ b = bs "Notes removed." ++ [newline] \/
  b = bs "Notes stored." ++ [newline] \/ b = bs "Alias added." ++ [newline] \/ b = bs "Alias removed." ++ [newline] \/
  b = bs "New primary password set for " ++ path ++ bs "." ++ [newline].
Proof. intros [o H]. destruct o; cbn [confirms] in H; repeat match type of H with context [match ?x with _ => _ end] => destruct x end; tauto. Qed.
Ltac other := let H := fresh in intros H; apply confirmation_forms in H; repeat destruct H as [H|H]; discriminate H.
Ltac line := apply goes_line; other.

(** ** Commands *)

Notation any := (fun _ => True).
Notation K := K (only parsing).

Lemma goes_secret K pr : goes K (fun b => utf8 b = true) (prompt_secret_text_p pr).
Proof. apply goes_seq; [apply goes_direct|]. intros _. apply goes_stdin. Qed.
Lemma goes_password K pr sp : goes K (fun b => utf8 b = true) (prompt_password_p pr sp).
Proof.
  unfold prompt_password_p. apply (goes_bind K (fun b => utf8 b = true)); [destruct sp; [apply goes_secret|apply goes_typed]|].
  intros a Ha. apply goes_ret, trim_utf8, Ha.
Qed.
Lemma goes_ensure c sp : (forall y, c <> SetPrimary y) -> goes (P_CliCalls.K c) any (ensure_unlocked_p P sp).
Proof.
  intros Hc. unfold ensure_unlocked_p. apply goes_seq; [apply goes_lib_look; reflexivity|]. intros [|]; [|apply goes_fail].
  cbn [negb]. unfold unlock_loop_p. apply (goes_loop _ any); [|exact I]. intros _ _.
  apply goes_seq; [apply goes_lib_look; reflexivity|]. intros [|]; [apply goes_ret; exact I|].
  apply goes_seq; [eapply goes_any, goes_password|]. intros pp. apply goes_seq; [|intros _; apply goes_ret; exact I].
  destruct (length pp <? 6) eqn:E; [apply goes_complain|]. apply goes_seq.
  - apply (goes_call _ _ _ (Unlock pp)); [call| |auto]. split; [|exact I]. split; [exact Hc|]. lia.
  - intros [a|e|]; [apply goes_ret, I|apply goes_complain|apply goes_ret, I].
Qed.
Lemma goes_recovery x n r y : goes (P_CliCalls.K (AddStored x n r true y)) (fun b => utf8 b = true) (prompt_recovery_code_p P).
Proof.
  set (c := AddStored x n r true y).
  assert (forall code, P_CliCalls.K c (DecodeCode code)) as HK by (intros code; split; [do 4 eexists; reflexivity|exact I]).
  unfold prompt_recovery_code_p. apply (goes_loop _ any); [|exact I]. intros accepted _.
  apply goes_seq; [apply goes_question|]. intros a.
  destruct a as [[| |line]|]; try (apply goes_ret; exact I). destruct line as [|b line]; [apply goes_fail|].
  set (code := accepted ++ b :: line).
  eapply (goes_bind _ (fun r => forall v, r = Ok v -> utf8 v = true)).
  { apply (goes_call _ _ _ (DecodeCode code)); [call|apply HK|]. intros s v Hv. exact (decoded_utf8 _ _ _ _ Hv). }
  assert (forall f n, goes (P_CliCalls.K c) any (first_lines_p f n)) as HF.
  { intros f n'. unfold first_lines_p. destruct (first_lines f n'); [apply goes_ret; exact I|apply goes_abort..]. }
  intros [v|e|] Hr; [apply goes_ret, Hr; reflexivity| |apply goes_abort].
  destruct e; try apply goes_fail.
  - apply goes_seq; [apply HF|]. intros acc. apply goes_seq; [apply goes_confirm|].
    intros [| |l]; try apply goes_fail. apply (goes_bind _ (fun v => utf8 v = true)); [|intros v Hv; apply goes_ret, Hv].
    apply (goes_lib _ _ _ (DecodeCode acc)); [call|apply HK|]. intros s a. apply decoded_utf8.
  - apply goes_seq; [apply HF|]. intros acc. apply goes_seq; [apply goes_complain|]. intros _. apply goes_ret; exact I.
  - apply goes_seq; [apply goes_complain|]. intros _. apply goes_ret; exact I.
Qed.
Lemma goes_overwrite c x n r y : (y = false -> P_CliCalls.K c (Has x n r)) -> goes (P_CliCalls.K c) any (overwrite_p P y x n r).
Proof.
  intros H. unfold overwrite_p. destruct y; [apply goes_ret, I|]. apply goes_seq.
  - apply (goes_lib_or _ _ _ (Has x n r)); [call|auto].
  - intros [|]; [|apply goes_ret, I]. apply goes_seq; [apply goes_confirm|]. intros a. apply goes_ret, I.
Qed.
Lemma goes_list_password d pat sh rc v site p : utf8 site = true -> password_valid p ->
  goes (P_CliCalls.K (List d pat sh rc v)) any (list_password_p P sh rc v site p).
Proof.
  intros Hs Hp. set (c := List d pat sh rc v).
  assert (id_valid (pass_id p)) as (Hi1 & Hi2 & Hi3) by (destruct p as [g|g]; apply Hp).
  unfold list_password_p. apply goes_seq; [unfold password_line; destruct (id_revision (pass_id p)); line|]. intros _. apply goes_seq; [|intros _; apply goes_seq].
  - destruct sh; [|apply goes_ret, I]. apply goes_seq; [apply goes_print; other|]. intros _. apply goes_seq; [apply goes_flush|]. intros _.
    apply goes_seq; [|intros value; apply goes_seq; [apply goes_direct|intros _; line]].
    apply (goes_lib _ _ _ (Get site (id_name (pass_id p)) (id_revision (pass_id p)))); [call| |auto].
    split; [|cbn; auto]. right. do 4 eexists. reflexivity.
  - destruct rc; [|apply goes_ret, I]. destruct p as [g|sp]; [apply goes_ret, I|]. apply goes_seq; [line|]. intros _.
    apply goes_seq; [|intros code; apply goes_for_each; intros; line].
    apply (goes_lib _ _ _ _ (call_code P sp)); [|auto]. split; [|apply Hp]. do 4 eexists. reflexivity.
  - intros _. destruct v; [|apply goes_ret, I]. apply goes_seq.
    + destruct (pass_notes p); [apply goes_ret, I|]. apply goes_seq; [apply goes_print; other|]. intros _.
      apply goes_seq; [apply goes_flush|]. intros _. apply goes_seq; [apply goes_direct|]. intros _. line.
    + intros _. destruct p; [|apply goes_ret, I]. apply goes_seq; [line|]. intros _. line.
Qed.
Lemma goes_list_loop d pat sh rc v all sites : Forall site_valid sites ->
  goes (P_CliCalls.K (List d pat sh rc v)) (fun r => Forall (fun x => utf8 x = true) (snd r) /\ (snd r <> [] -> pat = bs "*"))
       (list_loop_p P pat sh rc v all sites).
Proof.
  set (c := List d pat sh rc v).
  induction sites as [|s sites IH]; intros Hv; cbn [list_loop_p]; [apply goes_ret; split; [constructor|contradiction]|].
  inversion Hv as [|? ? [Hs _] Hv']; subst. eapply (goes_bind _ (Forall password_valid)).
  { apply (goes_lib _ _ _ (ListPasswords (site_name s) pat)); [call| |]. - split; [do 4 eexists; reflexivity|exact Hs].
    - intros s0 a. apply list_valid. }
  intros [|p l] Hl.
  - eapply goes_bind; [exact (IH Hv')|]. intros [f e] [He Hp]. cbn [snd] in *. apply goes_ret. cbn [snd].
    destruct (bytes_eqb pat (bs "*")) eqn:E; [|auto]. split; [constructor; assumption|]. intros _. apply bytes_eqb_eq, E.
  - apply goes_seq; [|intros _; apply goes_seq; [|intros _; eapply goes_bind; [exact (IH Hv')|]]].
    + unfold heading_p. apply goes_seq; [line|]. intros _. destruct v; [|apply goes_ret, I].
      destruct (aliased _ _); [apply goes_ret, I|line].
    + apply goes_for_each. intros q Hq. apply in_sort in Hq. apply goes_list_password; [exact Hs|].
      rewrite List.Forall_forall in Hl. apply Hl, Hq.
    + intros [f e] He. apply goes_ret, He.
Qed.

Lemma goes_simple E sp c : c <> Shell -> command_valid c -> goes (P_CliCalls.K c) any (simple_p P E path sp c).
Proof.
  intros Hns Hc. destruct c as [y|x n r len a b d e y|x n r rc y|x n r|x n r q|x n r set|d pat sh rc v|x al rm|]; cbn [simple_p command_valid] in *.
  - unfold set_primary_p. set (c := SetPrimary y).
    apply goes_seq; [eapply goes_any, goes_password|]. intros p1.
    destruct (length p1 <? 6) eqn:E1; [apply goes_fail|].
    apply goes_seq; [eapply goes_any, goes_password|]. intros p2.
    destruct (negb _); [apply goes_fail|].
    apply (goes_confirmed _ _ (Reset p1)); [reflexivity| |reflexivity|cbn [confirms]; rewrite <- !app_assoc; reflexivity]. split; [|exact I]. split; [exists y; reflexivity|]. lia.
  - set (c := Add x n r len a b d e y). destruct Hc as (Hx & Hn & Hr & arg & Hlen). apply length_arg_bounds in Hlen.
    unfold add_p. apply goes_seq; [apply goes_ensure; discriminate|]. intros _.
    destruct (cs_is_empty _) eqn:Ee; [apply goes_fail|]. apply goes_seq.
    { apply goes_overwrite. intros ->. split; [left; do 5 eexists; reflexivity|cbn; auto]. }
    intros [|]; [|apply goes_ret, I].
    apply (goes_confirmed _ _ (SetGenerated x n r len (add_charset a b d e))); [reflexivity| |reflexivity..]. split; [|cbn; repeat split; auto; lia].
    split; [intros Ecs; rewrite Ecs in Ee; discriminate Ee|]. split; [exact Hlen|]. exists a, b, d, e, y.
    split; [reflexivity|apply add_charset_eq].
  - set (c := AddStored x n r rc y). destruct Hc as (Hx & Hn & Hr).
    unfold add_stored_p. apply goes_seq; [apply goes_ensure; discriminate|]. intros _. apply goes_seq.
    { apply goes_overwrite. intros ->. split; [right; eexists; reflexivity|cbn; auto]. }
    intros [|]; [|apply goes_ret, I]. eapply (goes_bind _ (fun b => utf8 b = true)).
    { destruct rc; [|apply goes_password]. apply goes_recovery. }
    intros p Hp.
    apply (goes_confirmed _ _ (SetStored x n r p)); [reflexivity| |reflexivity..]. split; [do 2 eexists; reflexivity|cbn; auto].
  - set (c := RemoveCmd x n r). unfold remove_p. apply goes_seq; [apply goes_ensure; discriminate|]. intros _.
    apply (goes_confirmed _ _ (Remove x n r)); [reflexivity| |reflexivity..]. split; [reflexivity|cbn; tauto].
  - set (c := Show x n r q). unfold show_p. apply goes_seq; [apply goes_ensure; discriminate|]. intros _.
    apply goes_seq; [apply (goes_lib _ _ _ (Get x n r)); [call| |auto]; split; [left; eexists; reflexivity|cbn; tauto]|].
    intros pw. apply goes_seq; [apply goes_direct|]. intros _. destruct q.
    + destruct (e_qr E pw); [|apply goes_fail]. apply goes_for_each. intros i _. apply goes_seq; [|intros _; apply goes_direct].
      apply goes_for_each. intros j _. apply goes_direct.
    + apply goes_seq; [apply goes_direct|]. intros _. apply goes_direct.
  - set (c := Notes x n r set). unfold notes_p. apply goes_seq; [apply goes_ensure; discriminate|]. intros _.
    apply goes_seq; [apply (goes_lib _ _ _ (GetNotes x n r)); [call| |auto]; split; [eexists; reflexivity|cbn; tauto]|].
    intros notes. apply goes_seq.
    { destruct notes; [line|]. apply goes_seq; [apply goes_direct|]. intros _. apply goes_seq; [apply goes_direct|]. intros _. apply goes_direct. }
    intros _. destruct set; [|apply goes_ret, I]. eapply goes_bind; [apply goes_secret|]. intros new Hnew.
    apply (goes_confirmed _ _ (SetNotes x n r new)); [reflexivity| |reflexivity|destruct new; reflexivity]. split; [reflexivity|cbn; tauto].
  - set (c := List d pat sh rc v). unfold list_p. apply goes_seq; [apply goes_ensure; discriminate|]. intros _.
    eapply (goes_bind _ (Forall site_valid)).
    { apply (goes_lib _ _ _ (ListSites d)); [call| |]. - split; [do 4 eexists; reflexivity|exact I]. - intros s a. apply list_sites_valid. }
    intros sites Hs. cbv zeta. eapply goes_bind; [apply goes_list_loop, regular_valid, arrange_valid, Hs|].
    intros [f e] [He Hp]. cbn [snd] in *. apply goes_seq.
    + destruct e as [|e1 e].
      { apply goes_lib_look. reflexivity. }
      apply (goes_lib _ _ _ (RemoveSites (e1 :: e))); [call| |auto]. split; [|exact He]. unfold c. rewrite Hp by discriminate. do 4 eexists. reflexivity.
    + intros _. destruct f; [apply goes_ret, I|line].
  - set (c := Alias x al rm). unfold alias_p. apply goes_seq; [apply goes_ensure; discriminate|]. intros _.
    destruct al as [a|]; [|destruct rm].
    + apply (goes_confirmed _ _ (SetAlias x a)); [reflexivity| |reflexivity..]. split; [eexists; reflexivity|cbn; tauto].
    + apply (goes_confirmed _ _ (RemoveAlias x)); [reflexivity| |reflexivity..]. split; [reflexivity|cbn; tauto].
    + apply goes_seq; [|intros a; line]. apply (goes_lib _ _ _ (GetAlias x)); [call| |auto]. split; [reflexivity|cbn; tauto].
  - contradiction.
Qed.

(** ** Sessions *)

Lemma goes_shell_step E sp line : externals_valid E -> goes (KS E Shell) any (shell_step_p P E path sp line).
Proof.
  intros HE. unfold shell_step_p. destruct (e_parse E line) as [m| | |c] eqn:Ep.
  - apply goes_seq; [apply goes_complain|]. intros _. apply goes_ret, I.
  - apply goes_ret, I.
  - apply goes_seq; [|intros _; apply goes_seq; [line|intros _; apply goes_ret, I]].
    apply (goes_lib _ _ _ Lock); [call| |auto]. split; [left; reflexivity|exact I].
  - assert (~ refused c -> goes (KS E Shell) any (do r <- Try (simple_p P E path sp c);
        do _ <- (match r with inl m => Complain m | inr _ => Flush end); Ret true)) as H.
    { intros Hr. assert (c <> Shell) as Hns by (intros ->; apply Hr; exact I).
      apply goes_seq.
      - apply (goes_try _ any), (goes_weaken (P_CliCalls.K c) _ any); [|auto|apply goes_simple; [exact Hns|exact (HE _ _ Ep)]].
        intros o [H1 H2]. split; [|exact H2]. right. exists line, c. auto.
      - intros r. apply goes_seq; [destruct r; [apply goes_complain|apply goes_flush]|]. intros _. apply goes_ret, I. }
    destruct c; try (apply H; intros []; fail); (apply goes_seq; [apply goes_complain|intros _; apply goes_ret, I]).
Qed.
Lemma goes_shell_loop E sp : externals_valid E -> goes (KS E Shell) any (shell_loop_p P E path sp).
Proof.
  intros HE. unfold shell_loop_p. apply (goes_loop _ any); [|exact I]. intros _ _. apply goes_seq; [apply goes_readline|].
  assert (forall x : unit + unit, match x with inl _ => True | inr _ => True end) as HT by (intros []; exact I).
  intros [line| | |].
  - apply goes_seq; [apply goes_shell_step, HE|]. intros go. apply goes_ret, HT.
  - apply goes_ret; exact I.
  - apply goes_ret; exact I.
  - apply goes_seq; [apply goes_complain|]. intros _. apply goes_ret; exact I.
Qed.
Lemma goes_command E sp c : externals_valid E -> command_valid c -> goes (KS E c) any (command_p P E path sp c).
Proof.
  intros HE Hc. assert (c <> Shell -> goes (KS E c) any (simple_p P E path sp c)) as H.
  { intros Hn. apply (goes_weaken (P_CliCalls.K c) _ any); [|auto|apply goes_simple; assumption].
    intros o Ho. destruct c; [exact Ho..|contradiction]. }
  destruct c; try (apply H; discriminate). cbn [command_p]. unfold shell_p.
  apply goes_seq; [line|]. intros _. apply goes_seq; [apply goes_flush|]. intros _. apply goes_shell_loop, HE.
Qed.

(** The whole program. *)
Definition KM E c (o : op) : Prop := o = Lock \/ KS E c o.
Lemma goes_after_open (E : externals) (a : args) (r : res kvmap) : externals_valid E -> command_valid (a_command a) ->
  goes (KS E (a_command a)) any (match a_command a with
    | SetPrimary assume_yes =>
        do go <- (match r with
           | Ok _ => if assume_yes then Ret true else do allow <- Confirm; Ret (match allow with NO => false | _ => true end)
           | _ => Ret true end);
        if go : bool then command_p P E path (a_stdin_passwords a) (a_command a) else Ret tt
    | c => match r with
           | Ok _ => command_p P E path (a_stdin_passwords a) c
           | Err e => Fail (Lib e)
           | Panic => Abort
           end
    end).
Proof.
  intros HE Hc. pose proof (goes_command E (a_stdin_passwords a) (a_command a) HE Hc) as D.
  destruct (a_command a) as [y| | | | | | | |].
  1: { apply goes_seq.
    - destruct r; [|apply goes_ret, I..]. destruct y; [apply goes_ret, I|]. apply goes_seq; [apply goes_confirm|]. intros. apply goes_ret, I.
    - intros [|]; [exact D|apply goes_ret, I]. }
  all: destruct r; [exact D|apply goes_fail|apply goes_abort].
Qed.

Lemma moment_calls (E : externals) (a : args) t pt : externals_valid E -> command_valid (a_command a) -> typed_valid t ->
  during (main_p P E path a) t pt ->
  (pt_term pt = t /\ pt_next pt = Calls (snd (exec P Restart (t_st t)))) \/
  reached (KM E (a_command a)) (snd (exec P Restart (t_st t))) pt.
Proof.
  intros HE Hc Ht. unfold main_p. cbn [during].
  assert (forall A (Q : A -> Prop) p, goes (KS E (a_command a)) Q p -> goes (KM E (a_command a)) Q p) as HW
    by (intros A Q p; apply goes_weaken; [right; assumption|auto]).
  assert (forall t1, typed_valid t1 -> forall r, goes (KM E (a_command a)) any (do _ <- lib lock;
    match r : message + unit with
    | inl m => do _ <- Complain m; do _ <- Flush; Ret Failure
    | inr _ => do _ <- Flush; Ret Success
    end)) as HL.
  { intros t1 Ht1 r. apply goes_seq; [apply (goes_lib _ _ _ Lock); [call|left; reflexivity|auto]|]. intros _.
    destruct r; [apply goes_seq; [apply goes_complain|intros _]|]; apply goes_seq; try apply goes_flush; intros _; apply goes_ret, I. }
  set (s1 := snd (exec P Restart (t_st t))).
  assert (forall (r : res kvmap) t1, completes (lib (open_file P)) t (COk r) t1 -> t_st t1 = s1 /\ typed_valid t1) as HO.
  { intros r t1 [(x & u & [H1 _] & H2)|[(m & [H1 _] & H2)|([H1 _] & H2)]]; try discriminate H2.
    cbn in H1. injection H1 as <- <-. destruct H2 as [_ ->]. split; [reflexivity|exact Ht]. }
  intros [H|(r & t1 & H1 & H2)].
  - unfold main_inner_p in H. cbn [during] in H. destruct H as [H|(r & t1 & H1 & H2)].
    + unfold lib in H. cbn [during] in H. destruct H as [->|(r & t1 & _ & H)]; [left; split; reflexivity|]. destruct r; destruct H.
    + right. destruct (HO _ _ H1) as [E1 Ht1]. destruct (HW _ _ _ (goes_after_open E a r HE Hc) t1 Ht1) as [_ Hd].
      rewrite <- E1. exact (Hd pt H2).
  - right.
    assert (exists l, Forall (KM E (a_command a)) l /\ t_st t1 = snd (run P l s1) /\ typed_valid t1) as (l & Hl & El & Ht1).
    { assert (exists x, completes (main_inner_p P E path a) t x t1) as [x Hx].
      { destruct H1 as [(u & G & _)|[(m & G & _)|(G & _)]]; eauto. }
      unfold main_inner_p in Hx. cbn [completes] in Hx. destruct Hx as [(r0 & t0 & G1 & G2)|[(m & G1 & _)|(G1 & _)]].
      - destruct (HO _ _ G1) as [E1 Ht0]. destruct (HW _ _ _ (goes_after_open E a r0 HE Hc) t0 Ht0) as [He _].
        destruct (He _ _ G2) as (l & Hl & El & Ht1 & _). exists l. rewrite <- E1. auto.
      - exfalso. destruct G1 as [(y & u & [G _] & G2)|[(m' & [G _] & _)|([G _] & G2)]]; cbn in G; try discriminate G.
        injection G as <- <-. destruct G2 as [G2 _]. discriminate G2.
      - exfalso. destruct G1 as [(y & u & [G _] & G2)|[(m' & [G _] & _)|([G _] & G2)]]; cbn in G; try discriminate G.
        injection G as <- <-. destruct G2 as [G2 _]. discriminate G2. }
    destruct (HL t1 Ht1 r t1 Ht1) as [_ Hd]. specialize (Hd pt H2). rewrite El in Hd. exact (reached_after _ _ _ _ Hl Hd).
Qed.
End goes.
