(** The command line program does not abort when nothing is wrong with the file, with what is typed and with the build. *)
From Coq Require Import ZArith ZifyBool ZifyNat ZifyN.
From stdpp Require Import gmap.
From Verif Require Import M_Base M_Base64 M_Utf8 M_Prims M_Types M_Crypto M_Recovery M_Json M_Serde M_Storage M_Passwords S_Base64 S_Recovery S_Serde S_Vault
  M_History S_Api P_Base P_Base64 P_Utf8 P_Crypto P_Storage P_File P_Codec P_Lines P_Format P_Recovery P_Api P_Calls M_Cli S_Cli P_CliBase P_CliCalls P_CliRecovery S_Tamper P_Tamper S_Abort P_Abort.

(** ** What is typed *)

Lemma read_line_split s : s = fst (read_line s) /\ snd (read_line s) = [] \/ s = fst (read_line s) ++ newline :: snd (read_line s).
Proof.
  induction s as [|x s IH]; [left; split; reflexivity|]. cbn [read_line]. destruct (Byte.eqb x newline) eqn:E.
  - right. apply P_Base.eqb_eq in E. subst. reflexivity.
  - destruct (read_line s) as [l r]. cbn [fst snd] in *. destruct IH as [[E1 E2]|E1]; [left|right]; rewrite E1; auto.
Qed.

Section safe.
Context (P : prims) (HP : prims_ok P) (key : bytes) (Hov : p_overflow_checks P = false).

(** [c] does not panic; [u] and [v]: the passwords are known to be unlocked before and afterwards. *)
Definition safe {A : Type} (u v : bool) (Q : A -> Prop) (c : C A) : Prop := forall t,
  unharmed P key (t_st t) -> (u = true -> unlocked (t_st t) = true) -> readable t ->
  fst (c t) <> CPanic /\ unharmed P key (t_st (snd (c t))) /\ readable (snd (c t)) /\
  forall a, fst (c t) = COk a -> (v = true -> unlocked (t_st (snd (c t))) = true) /\ Q a.

Lemma safe_weaken {A : Type} (u v u' v' : bool) (Q Q' : A -> Prop) c :
  (u = true -> u' = true) -> (v' = true -> v = true) -> (forall a, Q a -> Q' a) -> safe u v Q c -> safe u' v' Q' c.
Proof.
  intros Hu Hv HQ H t H1 H2 H3. destruct (H t H1 (fun E => H2 (Hu E)) H3) as (H4 & H5 & H6 & H7).
  split; [exact H4|]. split; [exact H5|]. split; [exact H6|]. intros a Ea. destruct (H7 a Ea). auto.
Qed.
Lemma safe_still {A : Type} u (Q : A -> Prop) (c : C A) :
  (forall t, t_st (snd (c t)) = t_st t /\ t_tty (snd (c t)) = t_tty t /\ t_stdin (snd (c t)) = t_stdin t) ->
  (forall t, fst (c t) <> CPanic) -> (forall t a, fst (c t) = COk a -> Q a) -> safe u u Q c.
Proof.
  intros H Hp HQ t H1 H2 H3. destruct (H t) as (E1 & E2 & E3). split; [apply Hp|]. unfold readable. rewrite E1, E2, E3.
  split; [exact H1|]. split; [exact H3|]. intros a Ea. split; [exact H2|exact (HQ t a Ea)].
Qed.
Lemma safe_ret {A : Type} u (Q : A -> Prop) (a : A) : Q a -> safe u u Q (cret a).
Proof. intros H. apply safe_still; [repeat split|discriminate|]. intros t b [= <-]. exact H. Qed.
Lemma safe_fail {A : Type} u v (Q : A -> Prop) m : safe u v Q (cfail m : C A).
Proof. intros t H1 H2 H3. cbn. split; [discriminate|]. split; [exact H1|]. split; [exact H3|discriminate]. Qed.
Lemma safe_stuck {A : Type} u v (Q : A -> Prop) : safe u v Q (fun t => (CStuck, t)).
Proof. intros t H1 H2 H3. cbn. split; [discriminate|]. split; [exact H1|]. split; [exact H3|discriminate]. Qed.
Lemma safe_bind {A B : Type} u v w (R : A -> Prop) (Q : B -> Prop) (c : C A) (f : A -> C B) :
  safe u v R c -> (forall a, R a -> safe v w Q (f a)) -> safe u w Q (cbind c f).
Proof.
  intros H1 H2 t Ht Hu Hr. destruct (H1 t Ht Hu Hr) as (Hp & Ht' & Hr' & HR). unfold cbind.
  destruct (c t) as [[a|m| |] t']; cbn [fst snd] in *;
    try (split; [discriminate|]; split; [exact Ht'|]; split; [exact Hr'|discriminate]).
  - destruct (HR a eq_refl) as [Hv HRa]. exact (H2 a HRa t' Ht' Hv Hr').
  - destruct (Hp eq_refl).
Qed.
Lemma safe_seq {A B : Type} u v w (Q : B -> Prop) (c : C A) (f : A -> C B) :
  safe u v (fun _ => True) c -> (forall a, safe v w Q (f a)) -> safe u w Q (cbind c f).
Proof. intros H1 H2. eapply safe_bind; [exact H1|]. intros a _. apply H2. Qed.

Notation any := (fun _ => True).

(** ** The terminal *)

Lemma safe_print u b : safe u u any (print b).
Proof. apply safe_still; [| |auto]; intros t; unfold print; destruct (last_line _); [repeat split|discriminate]. Qed.
Lemma safe_println u b : safe u u any (println b).
Proof. apply safe_print. Qed.
Lemma safe_flush u : safe u u any flush_stdout.
Proof. apply safe_still; [repeat split|discriminate|auto]. Qed.
Lemma safe_direct u b : safe u u any (write_direct b).
Proof. apply safe_still; [repeat split|discriminate|auto]. Qed.
Lemma safe_eprintln u m : safe u u any (eprintln m).
Proof. apply safe_still; [repeat split|discriminate|auto]. Qed.
Lemma safe_confirm u : safe u u any confirm.
Proof. apply safe_still; [| |auto]; intros t; unfold confirm; destruct (t_confirms t); try discriminate; repeat split. Qed.
Lemma safe_ask u : safe u u any ask.
Proof. apply safe_still; [| |auto]; intros t; unfold ask; destruct (t_asks t); try discriminate; repeat split. Qed.
Lemma safe_each {A : Type} u (f : A -> C unit) l : (forall x, In x l -> safe u u any (f x)) -> safe u u any (each f l).
Proof.
  induction l as [|x l IH]; intros H; cbn; [apply safe_ret, I|].
  apply (safe_seq u u); [apply H; left; reflexivity|]. intros _. apply IH. intros y Hy. apply H. right. exact Hy.
Qed.

Lemma safe_secret u pr : safe u u (fun b => utf8 b = true) (prompt_secret_text pr).
Proof.
  unfold prompt_secret_text. apply (safe_seq u u); [apply safe_direct|]. intros _ t H1 H2 [H3 H4].
  destruct (read_line_split (t_stdin t)) as [[E E']|E]; destruct (read_line (t_stdin t)) as [l r]; cbn [fst snd] in *.
  - rewrite <- E, E', H3. cbn. split; [discriminate|]. split; [exact H1|]. split; [split; [reflexivity|exact H4]|]. intros a [= <-]. auto.
  - rewrite E in H3. pose proof H3 as Hl. apply utf8_cut in Hl; [|vm_compute; reflexivity]. rewrite utf8_app in H3 by exact Hl. rewrite Hl. cbn.
    split; [discriminate|]. split; [exact H1|]. split; [split; [exact H3|exact H4]|]. intros a [= <-]. auto.
Qed.
Lemma safe_tty u : safe u u (fun b => utf8 b = true) tty_password.
Proof.
  intros t H1 H2 [H3 H4]. unfold tty_password. destruct (t_tty t) as [|o l] eqn:E; cbn.
  - split; [discriminate|]. split; [exact H1|]. split; [split; [exact H3|rewrite E; constructor]|discriminate].
  - inversion H4 as [|? ? (p & -> & Hp) H5]; subst. split; [discriminate|]. split; [exact H1|]. split; [split; assumption|].
    intros a [= <-]. auto.
Qed.
Lemma safe_password u pr sp : safe u u (fun b => utf8 b = true) (prompt_password pr sp).
Proof.
  unfold prompt_password. apply (safe_bind u u u (fun b => utf8 b = true)); [destruct sp; [apply safe_secret|apply safe_tty]|].
  intros a Ha. apply safe_ret, trim_utf8, Ha.
Qed.

(** ** Calls of the library *)

Definition same {A : Type} (m : M A) (o : op) : Prop :=
  forall s, snd (m s) = snd (exec P o s) /\ (fst (m s) = Panic -> fst (exec P o s) = OPanic).
(** Calls without special conditions. *)
Definition tame (u : bool) (o : op) : Prop :=
  op_valid o /\ is_reset o = false /\ (lists o = true -> u = true) /\
  match o with SetGenerated _ _ _ len cs => usable len cs | _ => True end.
Definition keeping (o : op) : bool := match o with Lock | Restart => false | _ => true end.

Lemma keeps_unlocked o s : unharmed P key s -> is_reset o = false -> keeping o = true -> unlocked s = true ->
  unlocked (snd (exec P o s)) = true.
Proof.
  intros Hs Hr Hk Hu. pose proof (unharmed_good P key s Hs) as G.
  destruct (modifies o) eqn:Em.
  - destruct (exec_secrets P o s HP (good_whole s G)) as [_ E]. specialize (E Em Hr). unfold secrets, unlocked in *.
    injection E as E1 E2 E3. rewrite ?E1, ?E2. exact Hu.
  - destruct (reading o) eqn:Er.
    + destruct (exec_reading P o s Er) as ((_ & E & _) & _). unfold secrets, unlocked in *. injection E as E1 E2 E3. rewrite ?E1, ?E2. exact Hu.
    + destruct o; try discriminate; [|destruct l; discriminate].
      destruct (unlock_cases P pp s) as [(_ & k & h & E & _)|[_ ->]]; [|exact Hu]. unfold secrets, unlocked in *.
      injection E as E1 _ _. cbn [exec]. rewrite as_out_snd, E1. reflexivity.
Qed.

Lemma safe_api_gen {A B : Type} (u v : bool) (Q : B -> Prop) (m : M A) (o : op) (f : res A -> cres B) :
  same m o -> tame u o -> (v = true -> u = true /\ keeping o = true) -> (forall r, f r = CPanic -> r = Panic) ->
  (forall s a, f (fst (m s)) = COk a -> Q a) ->
  safe u v Q (fun t => let '(r, s) := m (t_st t) in (f r, with_st s t)).
Proof.
  intros Hm (T1 & T2 & T3 & T4) Hv Hf HQ t H1 H2 H3. destruct (Hm (t_st t)) as [E1 E2]. specialize (HQ (t_st t)).
  assert (careful o (t_st t)) as Hc by (split; [exact T1|split; [exact T2|split; [auto|exact T4]]]).
  pose proof (unharmed_calm P HP key o (t_st t) Hov H1 Hc) as Hp.
  pose proof (careful_unharmed P HP key o (t_st t) H1 Hc) as Hu. rewrite <- E1 in Hu.
  pose proof (fun a b => keeps_unlocked o (t_st t) H1 T2 a b) as Hk. rewrite <- E1 in Hk.
  destruct (m (t_st t)) as [r s]. cbn [fst snd] in *. split; [intros Er; apply Hp, E2, Hf, Er|]. split; [exact Hu|].
  split; [exact H3|]. intros a Ea. split; [|auto]. intros Hv'. destruct (Hv Hv'). apply Hk; auto.
Qed.
Lemma safe_api {A : Type} u v (Q : A -> Prop) (m : M A) (o : op) :
  same m o -> tame u o -> (v = true -> u = true /\ keeping o = true) -> (forall s a, fst (m s) = Ok a -> Q a) -> safe u v Q (api m).
Proof.
  intros Hm HK Hv HQ. apply (safe_api_gen u v Q m o (fun r => match r with Ok a => COk a | Err e => CErr (Lib e) | Panic => CPanic end) Hm HK Hv).
  - intros [a|e|]; auto; discriminate.
  - intros s a. specialize (HQ s). destruct (fst (m s)) as [b|e|]; try discriminate. intros [= <-]. auto.
Qed.
Lemma safe_api_or {A : Type} u v (m : M A) (d : A) (o : op) :
  same m o -> tame u o -> (v = true -> u = true /\ keeping o = true) -> safe u v any (api_or m d).
Proof.
  intros Hm HK Hv. apply (safe_api_gen u v _ m o (fun r => match r with Ok a => COk a | Err _ => COk d | Panic => CPanic end) Hm HK Hv); auto.
  intros [a|e|]; auto; discriminate.
Qed.
Lemma safe_api_res {A : Type} u v (Q : res A -> Prop) (m : M A) (o : op) :
  same m o -> tame u o -> (v = true -> u = true /\ keeping o = true) -> (forall s, Q (fst (m s))) -> safe u v Q (api_res m).
Proof.
  intros Hm HK Hv HQ. apply (safe_api_gen u v Q m o (fun r => match r with Panic => CPanic | r => COk r end) Hm HK Hv).
  - intros [a|e|]; auto; discriminate.
  - intros s a. specialize (HQ s). destruct (fst (m s)) as [b|e|]; try discriminate; intros [= <-]; auto.
Qed.

Ltac call := intros ?; cbn [exec]; rewrite as_out_snd; split; [reflexivity|unfold as_out; intros ->; reflexivity].
Ltac tame := split; [cbn; try tauto|split; [reflexivity|split; [try discriminate; try reflexivity|exact I]]].

Lemma same_code sp : same (get_recovery_code P sp) (RecoveryCode (id_site (sp_id sp)) (id_name (sp_id sp)) (id_revision (sp_id sp)) (sp_password sp)).
Proof.
  intros s. split; [apply call_code|]. cbn [exec]. unfold as_out. unfold get_recovery_code, bindM, reads.
  destruct (get_salt (s_data s)); [|discriminate|reflexivity]. unfold the_key, reads. destruct (s_key s) as [k|]; [|discriminate].
  cbn [ok_or fst]. cbn [stored_password_new sp_password]. intros ->. reflexivity.
Qed.

(** ** Commands *)

Lemma safe_unlock_loop sp fuel : safe false true any (unlock_loop fuel P sp).
Proof.
  induction fuel as [|f IH]; intros t H1 H2 H3; cbn [unlock_loop]; destruct (unlocked (t_st t)) eqn:Eu.
  - cbn. split; [discriminate|]. auto.
  - apply (safe_stuck false true any t); [exact H1|discriminate|exact H3].
  - cbn. split; [discriminate|]. auto.
  - clear Eu H2. revert t H1 H3. enough (safe false true any (let& pp := prompt_password (bs "Your primary password: ") sp in
      let& _ := (if length pp <? 6 then eprintln (Text TOO_SHORT)
                    else let& r := api_res (unlock P pp) in
                         match r with Err e => eprintln (Lib e) | _ => cret tt end) in
         unlock_loop f P sp)) as H by (intros t H1 H3; apply H; [exact H1|discriminate|exact H3]).
    apply (safe_bind false false true (fun b => utf8 b = true)); [apply safe_password|].
    intros pp _. apply (safe_seq false false true); [|intros _; exact IH]. destruct (length pp <? 6) eqn:E; [apply safe_eprintln|].
    apply (safe_seq false false false).
    + apply (safe_api_res false false any _ (Unlock pp)); [call|tame|discriminate|auto].
    + intros [a|e|]; [apply safe_ret, I|apply safe_eprintln|apply safe_ret, I].
Qed.
Lemma safe_ensure sp : safe false true any (ensure_unlocked P sp).
Proof.
  intros t. unfold ensure_unlocked. destruct (negb _).
  - apply (safe_fail false true any (Lib StorageNotInitialized) t).
  - apply safe_unlock_loop.
Qed.

Lemma keep_unlocked o : keeping o = true -> true = true -> true = true /\ keeping o = true.
Proof. auto. Qed.

Lemma decode_lines code s n : fst (decode_recovery_code P code s) = Err (RecoveryCodeExtraData n) \/
  fst (decode_recovery_code P code s) = Err (RecoveryCodeChecksumMismatch n) -> exists x, first_lines (format_code code true) n = Ok x.
Proof.
  intros H. assert (24 * n <= length (significant code)) as Hn.
  { unfold decode_recovery_code, bindM, the_primary, reads, lift in H. destruct (s_primary s) as [pp|]; cbn [ok_or fst] in H.
    2:{ destruct H; discriminate. }
    pose proof (decode_cases P code pp HP) as Hc. pose proof (validate_row P code) as Hr.
    destruct (validate P code) as [d|e|].
    - destruct (decode P code pp) as [v|e|]; try (destruct H; discriminate). unfold final_error in Hc. destruct H as [[= -> ]|[= -> ]]; decompose [or] Hc; discriminate.
    - rewrite Hc in H. destruct H as [[= -> ]|[= -> ]]; apply Hr.
    - rewrite Hc in H. destruct H; discriminate. }
  rewrite format_code_true. eexists. apply first_lines_layout; [apply significant_inA|exact Hn].
Qed.

Lemma safe_recovery asks : forall accepted, safe true true (fun b => utf8 b = true) (recovery_loop P asks accepted).
Proof.
  assert (forall code, tame true (DecodeCode code)) as HK by (intros code; tame).
  induction asks as [|a0 asks IH]; intros accepted; cbn [recovery_loop];
    (apply (safe_seq true true); [apply safe_ask|]; intros a).
  { apply safe_stuck. }
  destruct a as [[| |line]|]; try apply IH. destruct line as [|b line]; [apply safe_fail|].
  set (code := accepted ++ b :: line).
  eapply (safe_bind true true true (fun r => (forall v, r = Ok v -> utf8 v = true) /\ r <> Panic /\
    forall n, r = Err (RecoveryCodeExtraData n) \/ r = Err (RecoveryCodeChecksumMismatch n) -> exists x, first_lines (format_code code true) n = Ok x)).
  { apply (safe_api_gen true true _ _ (DecodeCode code) (fun r => match r with Panic => CPanic | r => COk r end)); [call|apply HK|apply keep_unlocked; reflexivity| |].
    - intros [?|?|]; auto; discriminate.
    - intros s r Hr. assert (fst (decode_recovery_code P code s) = r /\ r <> Panic) as [Er Hp]
        by (destruct (fst (decode_recovery_code P code s)); inversion Hr; subst; split; try reflexivity; discriminate).
      split; [|split; [exact Hp|]].
      + intros v Hv. apply (decoded_utf8 P code s). congruence.
      + intros n Hn. apply (decode_lines code s). rewrite Er. exact Hn. }
  intros [v|e|] (Hr & Hp & Hl).
  - apply safe_ret, Hr. reflexivity.
  - destruct e; try apply safe_fail.
    + destruct (Hl line0 (or_introl eq_refl)) as [x Ex]. rewrite Ex.
      apply (safe_seq true true); [apply safe_still; [repeat split|discriminate|auto]|]. intros acc. apply (safe_seq true true); [apply safe_confirm|].
      intros [| |l]; try apply safe_fail. apply (safe_api true true _ _ (DecodeCode acc)); [call|apply HK|apply keep_unlocked; reflexivity|]. intros s a. apply decoded_utf8.
    + destruct (Hl line0 (or_intror eq_refl)) as [x Ex]. rewrite Ex.
      apply (safe_seq true true); [apply safe_still; [repeat split|discriminate|auto]|]. intros acc. apply (safe_seq true true); [apply safe_eprintln|].
      intros _. apply IH.
    + apply (safe_seq true true); [apply safe_eprintln|]. intros _. apply IH.
  - destruct (Hp eq_refl).
Qed.

Lemma safe_overwrite x n r y : utf8 x = true /\ utf8 n = true /\ utf8 r = true -> safe true true any (OVERWRITE P y x n r).
Proof.
  intros H. unfold OVERWRITE. destruct y; [apply safe_ret, I|]. apply (safe_seq true true).
  - apply (safe_api_or true true _ _ (Has x n r)); [call|tame|apply keep_unlocked; reflexivity].
  - intros [|]; [|apply safe_ret, I]. apply (safe_seq true true); [apply safe_confirm|]. intros a. apply safe_ret, I.
Qed.

Lemma safe_list_password sh rc v site p : utf8 site = true -> password_valid p -> safe true true any (list_password P sh rc v site p).
Proof.
  intros Hs Hp. assert (id_valid (pass_id p)) as (Hi1 & Hi2 & Hi3) by (destruct p as [g|g]; apply Hp).
  unfold list_password. apply (safe_seq true true); [apply safe_println|]. intros _. apply (safe_seq true true); [|intros _; apply (safe_seq true true)].
  - destruct sh; [|apply safe_ret, I]. apply (safe_seq true true); [apply safe_print|]. intros _. apply (safe_seq true true); [apply safe_flush|]. intros _.
    apply (safe_seq true true); [|intros value; apply (safe_seq true true); [apply safe_direct|intros _; apply safe_println]].
    apply (safe_api true true _ _ (Get site (id_name (pass_id p)) (id_revision (pass_id p)))); [call|tame|apply keep_unlocked; reflexivity|auto].
  - destruct rc; [|apply safe_ret, I]. destruct p as [g|sp]; [apply safe_ret, I|]. apply (safe_seq true true); [apply safe_println|]. intros _.
    apply (safe_seq true true); [|intros code; apply safe_each; intros; apply safe_println].
    apply (safe_api true true _ _ _ (same_code sp)); [|apply keep_unlocked; reflexivity|auto]. tame. apply Hp.
  - intros _. destruct v; [|apply safe_ret, I]. apply (safe_seq true true).
    + destruct (pass_notes p); [apply safe_ret, I|]. apply (safe_seq true true); [apply safe_print|]. intros _.
      apply (safe_seq true true); [apply safe_flush|]. intros _. apply (safe_seq true true); [apply safe_direct|]. intros _. apply safe_println.
    + intros _. destruct p; [|apply safe_ret, I]. apply (safe_seq true true); [apply safe_println|]. intros _. apply safe_println.
Qed.

Lemma safe_list_loop pat sh rc v all sites : Forall site_valid sites ->
  safe true true (fun r => Forall (fun x => utf8 x = true) (snd r)) (list_loop P pat sh rc v all sites).
Proof.
  induction sites as [|s sites IH]; intros Hv; cbn [list_loop]; [apply safe_ret; constructor|].
  inversion Hv as [|? ? [Hs _] Hv']; subst. eapply (safe_bind true true true (Forall password_valid)).
  { apply (safe_api true true _ _ (ListPasswords (site_name s) pat)); [call|tame|apply keep_unlocked; reflexivity|].
    intros s0 a. apply list_valid. }
  intros [|p l] Hl.
  - eapply safe_bind; [exact (IH Hv')|]. intros [f e] He. cbn [snd] in *. apply safe_ret. cbn [snd].
    destruct (bytes_eqb pat (bs "*")); [constructor; assumption|exact He].
  - apply (safe_seq true true); [|intros _; apply (safe_seq true true); [|intros _; eapply safe_bind; [exact (IH Hv')|]]].
    + unfold heading. apply (safe_seq true true); [apply safe_println|]. intros _. destruct v; [|apply safe_ret, I].
      destruct (aliased _ _); [apply safe_ret, I|apply safe_println].
    + apply safe_each. intros q Hq. apply in_sort in Hq. apply safe_list_password; [exact Hs|].
      rewrite List.Forall_forall in Hl. apply Hl, Hq.
    + intros [f e] He. apply safe_ret, He.
Qed.

Lemma safe_simple E path sp c : (forall y, c <> SetPrimary y) -> command_valid c -> safe false false any (process_simple P E path sp c).
Proof.
  intros Hns Hc. destruct c as [y|x n r len a b d e y|x n r rc y|x n r|x n r q|x n r set|d pat sh rc v|x al rm|]; cbn [process_simple command_valid] in *.
  - destruct (Hns y eq_refl).
  - destruct Hc as (Hx & Hn & Hr & arg & Hlen). apply length_arg_bounds in Hlen.
    unfold add_cmd. apply (safe_seq false true); [apply safe_ensure|]. intros _.
    destruct (cs_is_empty _) eqn:Ee; [apply safe_fail|]. apply (safe_seq true true); [apply safe_overwrite; auto|].
    intros [|]; [|apply (safe_weaken true true true false any any); auto; apply safe_ret, I]. apply (safe_seq true false); [|intros _; apply safe_println].
    apply (safe_api true false _ _ (SetGenerated x n r len (add_charset a b d e))); [call| |discriminate|auto].
    assert (add_charset a b d e <> cs_empty) as Hcs by (intros Ecs; rewrite Ecs in Ee; discriminate Ee).
    split; [cbn; repeat split; auto; lia|]. split; [reflexivity|]. split; [discriminate|]. split; [lia|exact Hcs].
  - unfold add_stored_cmd. apply (safe_seq false true); [apply safe_ensure|]. intros _. apply (safe_seq true true); [apply safe_overwrite; tauto|].
    intros [|]; [|apply (safe_weaken true true true false any any); auto; apply safe_ret, I]. eapply (safe_bind true true false (fun b => utf8 b = true)).
    { destruct rc; [|apply safe_password]. intros t. apply safe_recovery. }
    intros p Hp. apply (safe_seq true false); [|intros _; apply safe_println].
    apply (safe_api true false _ _ (SetStored x n r p)); [call|tame|discriminate|auto].
  - unfold remove_cmd. apply (safe_seq false true); [apply safe_ensure|]. intros _.
    apply (safe_seq true false); [|intros _; apply safe_println]. apply (safe_api true false _ _ (Remove x n r)); [call|tame|discriminate|auto].
  - unfold show_cmd. apply (safe_seq false true); [apply safe_ensure|]. intros _.
    apply (safe_seq true false); [apply (safe_api true false _ _ (Get x n r)); [call|tame|discriminate|auto]|].
    intros pw. apply (safe_seq false false); [apply safe_direct|]. intros _. destruct q.
    + destruct (e_qr E pw); [apply safe_direct|apply safe_fail].
    + apply (safe_seq false false); [apply safe_direct|]. intros _. apply safe_direct.
  - unfold notes_cmd. apply (safe_seq false true); [apply safe_ensure|]. intros _.
    apply (safe_seq true false); [apply (safe_api true false _ _ (GetNotes x n r)); [call|tame|discriminate|auto]|].
    intros notes. apply (safe_seq false false).
    { destruct notes; [apply safe_println|]. apply (safe_seq false false); [apply safe_direct|]. intros _. apply (safe_seq false false); [apply safe_direct|]. intros _. apply safe_direct. }
    intros _. destruct set; [|apply safe_ret, I]. eapply safe_bind; [apply safe_secret|]. intros new Hnew.
    apply (safe_seq false false); [|intros _; apply safe_println]. apply (safe_api false false _ _ (SetNotes x n r new)); [call|tame|discriminate|auto].
  - unfold list_cmd. apply (safe_seq false true); [apply safe_ensure|]. intros _.
    eapply (safe_bind true true false (Forall site_valid)).
    { apply (safe_api true true _ _ (ListSites d)); [call|tame|apply keep_unlocked; reflexivity|]. intros s a. apply list_sites_valid. }
    intros sites Hs. eapply safe_bind; [apply safe_list_loop, regular_valid, arrange_valid, Hs|].
    intros [f e] He. cbn [snd] in *. apply (safe_seq true false).
    + apply (safe_api true false _ _ (RemoveSites e)); [call|tame; exact He|discriminate|auto].
    + intros _. destruct f; [apply safe_ret, I|apply safe_println].
  - unfold alias_cmd. apply (safe_seq false true); [apply safe_ensure|]. intros _.
    destruct al as [a|]; [|destruct rm].
    + apply (safe_seq true false); [|intros _; apply safe_println]. apply (safe_api true false _ _ (SetAlias x a)); [call|tame|discriminate|auto].
    + apply (safe_seq true false); [|intros _; apply safe_println]. apply (safe_api true false _ _ (RemoveAlias x)); [call|tame|discriminate|auto].
    + apply (safe_seq true false); [|intros a; apply safe_println]. apply (safe_api true false _ _ (GetAlias x)); [call|tame|discriminate|auto].
  - apply safe_ret, I.
Qed.

Lemma safe_lines {A : Type} u v (Q : A -> Prop) (c : C A) rest : safe u v Q c -> safe u v Q (fun t => c (with_lines rest t)).
Proof. intros H t H1 H2 H3. exact (H (with_lines rest t) H1 H2 H3). Qed.

Lemma safe_shell_step E path sp line : externals_valid E -> safe false false any (shell_step P E path sp line).
Proof.
  intros HE. unfold shell_step. destruct (e_parse E line) as [m| | |c] eqn:Ep.
  - apply (safe_seq false false); [apply safe_eprintln|]. intros _. apply safe_ret, I.
  - apply safe_ret, I.
  - apply (safe_seq false false); [|intros _; apply (safe_seq false false); [apply safe_println|intros _; apply safe_ret, I]].
    apply (safe_api false false _ _ Lock); [call|tame|discriminate|auto].
  - assert ((forall y, c <> SetPrimary y) -> safe false false any (fun t =>
        match process_simple P E path sp c t with
        | (COk _, t') => (let& _ := flush_stdout in cret true) t'
        | (CErr m, t') => (let& _ := eprintln m in cret true) t'
        | (CPanic, t') => (CPanic, t')
        | (CStuck, t') => (CStuck, t')
        end)) as H.
    { intros Hr t H1 H2 H3. destruct (safe_simple E path sp c Hr (HE _ _ Ep) t H1 H2 H3) as (H4 & H5 & H6 & H7).
      destruct (process_simple P E path sp c t) as [[a|m| |] t']; cbn [fst snd cbind] in *.
      - split; [discriminate|]. split; [exact H5|]. split; [exact H6|]. split; [discriminate|exact I].
      - split; [discriminate|]. split; [exact H5|]. split; [exact H6|]. split; [discriminate|exact I].
      - destruct (H4 eq_refl).
      - split; [discriminate|]. split; [exact H5|]. split; [exact H6|discriminate]. }
    destruct c; try (apply H; discriminate); (apply (safe_seq false false); [apply safe_eprintln|intros _; apply safe_ret, I]).
Qed.

Lemma safe_shell_loop E path sp lines : externals_valid E -> safe false false any (shell_loop P E path sp lines).
Proof.
  intros HE. induction lines as [|[line| | |] lines IH]; cbn [shell_loop].
  - apply safe_stuck.
  - apply (safe_seq false false); [apply safe_lines, safe_shell_step, HE|]. intros [|]; [exact IH|apply safe_ret, I].
  - apply (safe_lines false false), IH.
  - apply safe_still; [repeat split|discriminate|auto].
  - apply (safe_lines false false any (let& _ := eprintln (Text (bs "Error: ")) in shell_loop P E path sp lines)).
    apply (safe_seq false false); [apply safe_eprintln|]. intros _. exact IH.
Qed.

Lemma safe_command E path sp c : externals_valid E -> (forall y, c <> SetPrimary y) -> command_valid c -> safe false false any (process_command P E path sp c).
Proof.
  intros HE Hy Hc. assert (c <> Shell -> safe false false any (process_command P E path sp c)) as H.
  { intros Hn. replace (process_command P E path sp c) with (process_simple P E path sp c) by (destruct c; [reflexivity..|contradiction]).
    apply safe_simple; assumption. }
  destruct c; try (apply H; discriminate). clear H.
  cbn [process_command]. unfold shell_cmd. apply (safe_seq false false); [apply safe_println|]. intros _. apply (safe_seq false false); [apply safe_flush|]. intros _ t.
  apply safe_shell_loop, HE.
Qed.

(** ** The whole program *)

Lemma start_unharmed t : length key = 32 -> (forall d, load P (s_disk (t_st t)) = Ok d -> harmless P key d) ->
  unharmed P key (passwords_new (match load P (s_disk (t_st t)) with Ok d => d | _ => ∅ end) (t_st t)).
Proof.
  intros Hl Hd. split; [exact Hl|]. split; [left; repeat split|]. cbn [passwords_new s_data s_disk].
  destruct (load P (s_disk (t_st t))) as [d|e|] eqn:E.
  - split; [exact (load_texts _ _ _ E)|]. split; [apply Hd; reflexivity|exact Hd].
  - split; [apply texts_empty|]. split; [apply harmless_empty|exact Hd].
  - split; [apply texts_empty|]. split; [apply harmless_empty|exact Hd].
Qed.

Lemma main_safe' E path a t : externals_valid E -> command_valid (a_command a) -> (forall y, a_command a <> SetPrimary y) ->
  length key = 32 -> (forall d, load P (s_disk (t_st t)) = Ok d -> harmless P key d) -> readable t ->
  (fst (main P E path a t) <> Aborted /\ (forall d, load P (s_disk (t_st (snd (main P E path a t)))) = Ok d -> harmless P key d)) /\
  utf8 (t_stdin (snd (main P E path a t))) = true.
Proof.
  intros HE Hc Hy Hl Hd Hr. pose proof (start_unharmed t Hl Hd) as Hs.
  assert (safe false false any (process_command P E path (a_stdin_passwords a) (a_command a))) as D by (apply safe_command; assumption).
  assert (fst (main_inner P E path a t) <> CPanic /\ unharmed P key (t_st (snd (main_inner P E path a t))) /\
    readable (snd (main_inner P E path a t))) as (H1 & H2 & H3).
  { enough (forall r, r = main_inner P E path a t -> fst r <> CPanic /\ unharmed P key (t_st (snd r)) /\ readable (snd r)) as H by (apply H; reflexivity).
    intros r Er. unfold main_inner, cbind at 1, start_process in Er. set (s1 := passwords_new _ (t_st t)) in *.
    specialize (D (with_st s1 t) Hs ltac:(discriminate) Hr). destruct D as (D1 & D2 & D3 & _).
    pose proof (load_no_panic P (s_disk (t_st t))) as Hn.
    destruct (load P (s_disk (t_st t))) as [d|e|]; [| |contradiction].
    - assert (r = process_command P E path (a_stdin_passwords a) (a_command a) (with_st s1 t)) as ->; [|auto].
      destruct (a_command a); [destruct (Hy assume_yes eq_refl)|exact Er..].
    - assert (r = (CErr (Lib e), with_st s1 t)) as ->; [|split; [discriminate|split; [exact Hs|exact Hr]]].
      destruct (a_command a); [destruct (Hy assume_yes eq_refl)|exact Er..]. }
  unfold main. destruct (main_inner P E path a t) as [[u|m| |] t']; cbn [fst snd] in *;
    (split; [split; [discriminate || contradiction|apply H2]|apply H3]).
Qed.
Lemma main_safe E path a t : externals_valid E -> command_valid (a_command a) -> (forall y, a_command a <> SetPrimary y) ->
  length key = 32 -> (forall d, load P (s_disk (t_st t)) = Ok d -> harmless P key d) -> readable t ->
  fst (main P E path a t) <> Aborted /\ (forall d, load P (s_disk (t_st (snd (main P E path a t)))) = Ok d -> harmless P key d).
Proof. intros. apply main_safe'; assumption. Qed.
Lemma first_line_utf8 s : utf8 s = true -> utf8 (fst (read_line s)) = true.
Proof.
  intros H. destruct (read_line_split s) as [[E _]|E]; [rewrite <- E; exact H|].
  rewrite E in H. apply utf8_cut in H; [exact H|vm_compute; reflexivity].
Qed.
End safe.

(** [set-primary] works whatever the file contains. *)
Lemma reset_no_panic P pp s : prims_ok P -> fst (reset P pp s) <> Panic.
Proof.
  intros HP H. rewrite (reset_eq P pp s HP) in H. apply bind_panic in H.
  destruct H as [H|(a & _ & H)]; [exact (flush_no_panic _ _ H)|discriminate H].
Qed.

Lemma prompt_read pr sp t : readable t -> fst (prompt_password pr sp t) <> CPanic /\ readable (snd (prompt_password pr sp t)).
Proof.
  intros [H3 H4]. unfold prompt_password, cbind. destruct sp.
  - unfold prompt_secret_text, cbind, write_direct, with_out. cbn [t_stdin].
    destruct (read_line_split (t_stdin t)) as [[E E']|E]; destruct (read_line (t_stdin t)) as [l r]; cbn [fst snd] in *.
    + rewrite <- E, E', H3. cbn. split; [discriminate|]. split; [reflexivity|exact H4].
    + rewrite E in H3. pose proof H3 as Hl. apply utf8_cut in Hl; [|vm_compute; reflexivity]. rewrite utf8_app in H3 by exact Hl. rewrite Hl. cbn.
      split; [discriminate|]. split; [exact H3|exact H4].
  - unfold tty_password. destruct (t_tty t) as [|o l] eqn:E; cbn.
    + split; [discriminate|]. split; [exact H3|rewrite E; constructor].
    + inversion H4 as [|? ? (p & -> & Hp) H5]; subst. cbn. split; [discriminate|]. split; assumption.
Qed.

Lemma set_primary_safe P E path sp y t : prims_ok P -> readable t -> fst (main P E path (mk_args sp (SetPrimary y)) t) <> Aborted.
Proof.
  intros HP Hr.
  assert (forall t, readable t -> fst (set_primary_cmd P path sp t) <> CPanic) as Hs.
  { clear t Hr. intros t Hr. unfold set_primary_cmd, cbind at 1.
    destruct (prompt_read (bs "New primary password: ") sp t Hr) as [H1 H2].
    destruct (prompt_password _ sp t) as [[p1|m| |] t1]; cbn [fst snd] in *; try discriminate; [|contradiction].
    destruct (_ <? _); [discriminate|]. unfold cbind at 1.
    destruct (prompt_read (bs "Repeat primary password: ") sp t1 H2) as [H3 H4].
    destruct (prompt_password _ sp t1) as [[p2|m| |] t2]; cbn [fst snd] in *; try discriminate; [|contradiction].
    destruct (negb _); [discriminate|]. unfold cbind, api. pose proof (reset_no_panic P p1 (t_st t2) HP) as Hn.
    destruct (reset P p1 (t_st t2)) as [[a|e|] s]; cbn [fst] in *; [|discriminate|contradiction].
    unfold println, print. destruct (last_line _). discriminate. }
  assert (fst (main_inner P E path (mk_args sp (SetPrimary y)) t) <> CPanic) as H.
  { unfold main_inner, cbind at 1, start_process. cbn [a_command a_stdin_passwords process_command process_simple]. set (t1 := with_st _ t).
    assert (readable t1) as H1 by exact Hr. assert (fst ((let& go := cret true in if go then set_primary_cmd P path sp else cret tt) t1) <> CPanic) as H2 by (apply Hs, H1).
    destruct (load P (s_disk (t_st t))) as [d|e|]; [|exact H2..]. destruct y; [exact H2|]. unfold cbind, confirm.
    destruct (t_confirms t1) as [|a l] eqn:Ea; [discriminate|]. cbn. destruct a; [apply Hs; exact H1|discriminate|apply Hs; exact H1]. }
  unfold main. destruct (main_inner P E path (mk_args sp (SetPrimary y)) t) as [[u|m| |] t']; try discriminate. destruct (H eq_refl).
Qed.

Lemma careful_calm P key l : prims_ok P -> p_overflow_checks P = false -> forall s, unharmed P key s -> careful_run P l s ->
  ~ In OPanic (fst (run P l s)) /\ unharmed P key (snd (run P l s)).
Proof.
  intros HP Ho. induction l as [|o l IH]; intros s Hs Hc; [split; [intros []|exact Hs]|]. destruct Hc as [Hc Hr].
  pose proof (unharmed_calm P HP key o s Ho Hs Hc) as Hp. pose proof (careful_unharmed P HP key o s Hs Hc) as Hu.
  cbn [run]. destruct (exec P o s) as [r s1]. destruct (IH s1 Hu Hr) as [H1 H2]. destruct (run P l s1) as [rs s2]. cbn [fst snd] in *.
  split; [|exact H2]. intros [H|H]; [exact (Hp H)|exact (H1 H)].
Qed.

Lemma processes_safe P E path key l : prims_ok P -> p_overflow_checks P = false -> externals_valid E -> length key = 32 ->
  forall s, Forall plain_process l -> (forall d, load P (s_disk s) = Ok d -> harmless P key d) -> ~ In Aborted (exits P E path l s).
Proof.
  intros HP Ho HE Hl. induction l as [|[a t] l IH]; intros s Hp Hd; [intros []|]. inversion Hp as [|? ? (H1 & H2 & H3) Hp']; subst.
  destruct (main_safe P HP key Ho E path a (with_st s t) HE H1 H2 Hl Hd H3) as [H4 H5]. cbn [exits]. intros [H|H]; [exact (H4 H)|].
  exact (IH _ Hp' H5 H).
Qed.

(** ** A new file *)

Lemma reset_harmless P pp s : prims_ok P -> fst (exec P (Reset pp) s) = ODone ->
  let s' := snd (exec P (Reset pp) s) in
  exists key, s_key s' = Some key /\
   ((forall pp' salt k h, get_salt (s_data s') = Ok salt -> get_encryption_key P pp' salt = Ok k -> get_hmac_secret P (s_data s') k = Ok h -> k = key) ->
    unharmed P key s').
Proof.
  intros HP. cbv zeta. cbn [exec]. rewrite as_out_snd, (reset_eq P pp s HP).
  set (key := key_for P pp (s_rand s)). set (secret := p_random P (S (s_rand s)) 32).
  match goal with |- context [bindM (flush P) ?f ?x] => set (g := f); set (s1 := x) end. set (s' := snd (bindM (flush P) g s1)). intros Hok. exists key.
  assert (length key = 32) as Hl by apply (ok_scrypt_len P HP).
  assert (texts (s_data s1)) as Ht.
  { unfold s1. cbn [s_data]. apply texts_insert; [reflexivity|apply utf8_sealed|].
    apply texts_insert; [reflexivity|apply utf8_b64|apply texts_empty]. }
  destruct (flush_facts P s1) as (F1 & _ & _ & _ & _ & F2 & _).
  assert (s_data s' = s_data s1 /\ s_key s' = Some key /\ s_hmac s' = Some secret /\ s_primary s' = Some pp /\ s_disk s' = Some (flush_text P s1)) as (E1 & E2 & E3 & E4 & E5).
  { unfold s', as_out, bindM in *. destruct (flush P s1) as [[[]|e|] s2]; try discriminate Hok. cbn [fst snd] in *.
    unfold g, set_secrets. cbn [snd s_data s_key s_hmac s_primary s_disk]. rewrite (F2 eq_refl), F1. repeat split. }
  split; [exact E2|]. intros Huniq. rewrite E1 in Huniq.
  assert (harmless P key (s_data s1)) as Hh.
  { split; [|split; [exact Huniq|]].
    - intros k v Hk. unfold s1. cbn [s_data]. rewrite lookup_insert_Some. intros [[_ <-]|[_ H]]; [apply sealed_not_wrong; assumption|].
      rewrite lookup_insert_ne, lookup_empty in H by congruence. discriminate H.
    - intros len cs (k & v & m & x & H & Hd & Hx & _). exfalso. revert H. unfold s1. cbn [s_data]. rewrite lookup_insert_Some.
      intros [[_ <-]|[_ H]].
      + rewrite decrypt_sealed in Hd by assumption. injection Hd as <-. exact (string_not_password _ _ _ (utf8_b64 _) Hx).
      + rewrite lookup_insert_Some, lookup_empty in H. destruct H as [[_ <-]|[_ H]]; [|discriminate H].
        apply decrypt_ok in Hd; [|exact Hl]. destruct Hd as (a & b & n & c & Ev & _).
        apply (b64_encode_no (p_random P (s_rand s) 16) "_"%byte (or_introl eq_refl)). rewrite Ev. apply in_app_iff. right. left. reflexivity. }
  split; [exact Hl|]. split; [right; exists secret, pp; unfold unlocked_with, secrets; congruence|]. rewrite E1, E5.
  split; [exact Ht|]. split; [exact Hh|]. intros d Hd. rewrite (load_flush P s1 HP Ht) in Hd. injection Hd as <-. exact Hh.
Qed.
