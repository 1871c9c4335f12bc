(** The command line program: set-primary, shell, the whole process. *)
From Coq Require Import Permutation ZArith ZifyBool ZifyNat ZifyN.
From stdpp Require Import gmap.
From Verif Require Import M_Base M_Base64 M_Utf8 M_Prims M_Types M_Crypto M_Recovery M_Json M_Serde M_Storage M_Passwords S_Serde
  S_Vault M_History S_Api P_Base P_Utf8 P_Json P_Serde P_Storage P_Api P_Calls M_Cli S_Cli P_CliBase P_CliCalls P_CliUnlock P_CliCommands.

Section main.
Context (P : prims) (E : externals) (path : bytes).

Lemma main_ends a t : main P E path a t = ends (main_inner P E path a t).
Proof. unfold main. destruct (main_inner P E path a t) as [[u|m| |] t']; reflexivity. Qed.

Lemma main_command sp c t d : load P (s_disk (t_st t)) = Ok d -> (forall y, c <> SetPrimary y) ->
  main P E path (mk_args sp c) t = ends (process_command P E path sp c (begins P t)).
Proof.
  intros Hl Hc. rewrite main_ends. f_equal. unfold main_inner, begins. unfold cbind, start_process. cbn [a_command a_stdin_passwords].
  cbn [exec snd]. rewrite Hl. destruct c; try reflexivity. destruct (Hc _ eq_refl).
Qed.
Lemma main_unreadable sp c t e : load P (s_disk (t_st t)) = Err e -> (forall y, c <> SetPrimary y) ->
  main P E path (mk_args sp c) t = (Failure, ended (complained (Lib e) (begins P t))).
Proof.
  intros Hl Hc. rewrite main_ends. unfold main_inner, begins. unfold cbind, start_process. cbn [a_command a_stdin_passwords].
  cbn [exec snd]. rewrite Hl. destruct c; try reflexivity. destruct (Hc _ eq_refl).
Qed.

(** * set-primary *)

Lemma set_primary_short sp c es t : entered sp t (Some c :: es) -> length (trim c) < 6 ->
  exists t1, prompted (bs "New primary password: ") sp t t1 /\
    set_primary_cmd P path sp t = (CErr (Text (bs "Primary password length should be at least 6 characters.")), t1).
Proof.
  intros He Hl. destruct (prompt_entered (bs "New primary password: ") sp t _ _ He) as (t1 & E1 & Hp & Hr).
  exists t1. split; [exact Hp|]. unfold set_primary_cmd. rewrite (bind_ok _ _ _ _ _ E1).
  destruct (length (trim c) <? 6) eqn:El; [reflexivity|lia].
Qed.
Lemma set_primary_two sp c c2 es t : entered sp t (Some c :: Some c2 :: es) -> 6 <= length (trim c) -> t_buf t = [] ->
  exists t1 t2, prompted (bs "New primary password: ") sp t t1 /\ prompted (bs "Repeat primary password: ") sp t1 t2 /\ remaining sp t2 es /\
    (trim c <> trim c2 -> set_primary_cmd P path sp t = (CErr (Text (bs "Primary passwords don't match.")), t2)) /\
    (trim c = trim c2 -> finishes P (Reset (trim c)) (bs "New primary password set for " ++ path ++ bs ".") t2 (set_primary_cmd P path sp t)).
Proof.
  intros He Hl Hb. destruct (prompt_entered (bs "New primary password: ") sp t _ _ He) as (t1 & E1 & Hp & Hr).
  destruct Hr as [Hr|(_ & Hr & _)]; [|discriminate Hr].
  destruct (prompt_entered (bs "Repeat primary password: ") sp t1 _ _ Hr) as (t2 & E2 & Hp2 & Hr2).
  exists t1, t2. split; [exact Hp|]. split; [exact Hp2|]. split; [exact Hr2|]. unfold set_primary_cmd.
  rewrite (bind_ok _ _ _ _ _ E1). destruct (length (trim c) <? 6) eqn:El; [lia|]. rewrite (bind_ok _ _ _ _ _ E2). split; intros Heq.
  - apply bytes_eqb_neq in Heq. rewrite Heq. reflexivity.
  - apply bytes_eqb_eq in Heq. rewrite Heq. cbn [negb]. apply finish_line; [reflexivity|].
    rewrite (pr_buf _ _ _ _ Hp2), (pr_buf _ _ _ _ Hp). exact Hb.
Qed.

(** If a reset happens, then the same password was entered twice. *)
Lemma set_primary_cases sp t : let '(r, t') := set_primary_cmd P path sp t in
  t_st t' = t_st t \/
  exists c c2 es, entered sp t (Some c :: Some c2 :: es) /\ 6 <= length (trim c) /\ trim c = trim c2 /\
    t_st t' = snd (exec P (Reset (trim c)) (t_st t)).
Proof.
  destruct (entered_exist sp t) as (es & He & _). unfold set_primary_cmd.
  destruct es as [|x es].
  { destruct sp; [destruct He as ([|? ?] & Hn & _ & _ & He); [contradiction|discriminate He]|].
    rewrite (bind_stuck _ _ _ _ (prompt_waits _ t He)). left. reflexivity. }
  destruct (prompt_entered (bs "New primary password: ") sp t _ _ He) as (t1 & E1 & Hp & Hr).
  destruct x as [c|]; [|unfold cbind; rewrite E1; left; apply (pr_st _ _ _ _ Hp)].
  rewrite (bind_ok _ _ _ _ _ E1). destruct (length (trim c) <? 6) eqn:El; [left; apply (pr_st _ _ _ _ Hp)|].
  assert (forall x es', entered sp t1 (x :: es') -> (forall c2, x = Some c2 -> trim c = trim c2 -> es = Some c2 :: es') ->
    let '(r, t') := (let& primary_password2 := prompt_password (bs "Repeat primary password: ") sp in
      if negb (bytes_eqb (trim c) primary_password2) then cfail (Text (bs "Primary passwords don't match."))
      else let& _ := api (reset P (trim c)) in println (bs "New primary password set for " ++ path ++ bs ".")) t1 in
    t_st t' = t_st t \/ exists c0 c2 es0, entered sp t (Some c0 :: Some c2 :: es0) /\ 6 <= length (trim c0) /\ trim c0 = trim c2 /\
    t_st t' = snd (exec P (Reset (trim c0)) (t_st t))) as G.
  { intros x es' He' Hx. destruct (prompt_entered (bs "Repeat primary password: ") sp t1 _ _ He') as (t2 & E2 & Hp2 & Hr2).
    assert (t_st t2 = t_st t) as Est by (rewrite (pr_st _ _ _ _ Hp2); apply (pr_st _ _ _ _ Hp)).
    destruct x as [c2|]; [|unfold cbind; rewrite E2; left; exact Est].
    rewrite (bind_ok _ _ _ _ _ E2). destruct (bytes_eqb (trim c) (trim c2)) eqn:Eq; cbn [negb]; [|left; exact Est].
    apply bytes_eqb_eq in Eq. specialize (Hx c2 eq_refl Eq). unfold cbind.
    rewrite (api_unit P (reset P (trim c)) (Reset (trim c)) t2) by reflexivity. rewrite Est.
    assert (t_st (snd (match fst (exec P (Reset (trim c)) (t_st t)) with
       | ODone => println (bs "New primary password set for " ++ path ++ bs ".") (with_st (snd (exec P (Reset (trim c)) (t_st t))) t2)
       | _ => (CPanic, with_st (snd (exec P (Reset (trim c)) (t_st t))) t2) end)) = snd (exec P (Reset (trim c)) (t_st t))) as Hs.
    { destruct (fst (exec P (Reset (trim c)) (t_st t))); try reflexivity. unfold println, print. destruct (last_line _). reflexivity. }
    destruct (fst (exec P (Reset (trim c)) (t_st t))); [destruct (println _ _) as [r t'] eqn:Epr; cbn [snd] in Hs|..]; right; exists c, c2, es';
      rewrite <- Hx; (split; [exact He|split; [lia|split; [exact Eq|try reflexivity; exact Hs]]]). }
  apply rest_entered in Hr. destruct Hr as [Hr|(Hr & -> & ->)].
  - destruct es as [|x es].
    { destruct sp; [destruct Hr as ([|? ?] & Hn & _ & _ & Hr); [contradiction|discriminate Hr]|].
      rewrite (bind_stuck _ _ _ _ (prompt_waits _ t1 Hr)). left. apply (pr_st _ _ _ _ Hp). }
    apply (G x es Hr). intros c2 -> _. reflexivity.
  - apply (G _ _ Hr). intros c2 [= <-] Eq. exfalso. rewrite Eq in El. discriminate El.
Qed.

Lemma set_primary_main sp y t :
  main P E path (mk_args sp (SetPrimary y)) t =
  ends (if asks_first P t y
        then match t_confirms t with
             | [] => (CStuck, begins P t)
             | NO :: l => (COk tt, answered l (begins P t))
             | _ :: l => set_primary_cmd P path sp (answered l (begins P t))
             end
        else set_primary_cmd P path sp (begins P t)).
Proof.
  rewrite main_ends. f_equal. unfold main_inner, begins, asks_first. unfold cbind at 1. unfold start_process.
  cbn [a_command a_stdin_passwords exec snd process_command process_simple].
  destruct (load P (s_disk (t_st t))) as [d|e|]; cbn [is_ok andb]; try reflexivity. destruct y; [reflexivity|]. cbn [negb].
  unfold cbind, confirm. cbn [with_st t_confirms]. destruct (t_confirms t) as [|[| |q] l]; reflexivity.
Qed.

Lemma ends_disk r : s_disk (t_st (snd (ends r))) = s_disk (t_st (snd r)).
Proof. destruct r as [[u|m| |] t]; reflexivity. Qed.

(** The file changes only if the user wants it, and to contain what [reset] writes. *)
Lemma set_primary_file sp y t : s_disk (t_st (snd (main P E path (mk_args sp (SetPrimary y)) t))) <> s_disk (t_st t) ->
  (asks_first P t y = true -> exists q l, t_confirms t = q :: l /\ q <> NO) /\
  exists c c2 es, entered sp t (Some c :: Some c2 :: es) /\ 6 <= length (trim c) /\ trim c = trim c2 /\
    s_disk (t_st (snd (main P E path (mk_args sp (SetPrimary y)) t))) = s_disk (snd (run P [Restart; Reset (trim c)] (t_st t))).
Proof.
  rewrite set_primary_main, ends_disk.
  assert (forall l, t_st (answered l (begins P t)) = t_st (begins P t) /\ forall es, entered sp (answered l (begins P t)) es <-> entered sp t es) as Ha
    by (intros l; split; [reflexivity|intros es; destruct sp; reflexivity]).
  assert (forall es, entered sp (begins P t) es <-> entered sp t es) as Hb by (intros es; destruct sp; reflexivity).
  assert (s_disk (t_st (begins P t)) = s_disk (t_st t)) as Hd by reflexivity.
  assert (forall t0, t_st t0 = t_st (begins P t) -> (forall es, entered sp t0 es <-> entered sp t es) ->
    s_disk (t_st (snd (set_primary_cmd P path sp t0))) <> s_disk (t_st t) ->
    exists c c2 es, entered sp t (Some c :: Some c2 :: es) /\ 6 <= length (trim c) /\ trim c = trim c2 /\
      s_disk (t_st (snd (set_primary_cmd P path sp t0))) = s_disk (snd (run P [Restart; Reset (trim c)] (t_st t)))) as G.
  { intros t0 H1 H2 H3. pose proof (set_primary_cases sp t0) as H. destruct (set_primary_cmd P path sp t0) as [r t']. cbn [snd] in *.
    destruct H as [H|(c & c2 & es & He & Hl & Heq & H)]; [rewrite H, H1 in H3; contradiction|].
    exists c, c2, es. split; [apply H2, He|]. split; [exact Hl|]. split; [exact Heq|].
    rewrite H, H1. change (run P [Restart; Reset (trim c)] (t_st t)) with (run P ([Restart] ++ [Reset (trim c)]) (t_st t)).
    rewrite run_app, !run_one. reflexivity. }
  destruct (asks_first P t y).
  - destruct (t_confirms t) as [|[| |q] l]; cbn [snd]; intros H; try (rewrite ?(proj1 (Ha l)), Hd in H; contradiction);
      (split; [intros _; eexists _, _; split; [reflexivity|discriminate]|]; apply (G _ (proj1 (Ha l)) (proj2 (Ha l)) H)).
  - intros H. split; [discriminate|]. apply (G _ eq_refl Hb H).
Qed.

(** * shell *)

Lemma shell_refuses sp line c t : e_parse E line = SCommand c -> refused c ->
  exists m, shell_step P E path sp line t = (COk true, complained (Text m) t).
Proof. intros H Hr. unfold shell_step. rewrite H. destruct c; try destruct Hr; eexists; reflexivity. Qed.

Lemma shell_command sp line c t : e_parse E line = SCommand c -> ~ refused c ->
  shell_step P E path sp line t =
  match process_simple P E path sp c t with
  | (COk _, t') => (COk true, with_out (t_shown t' ++ t_buf t') [] t')
  | (CErr m, t') => (COk true, complained m t')
  | (CPanic, t') => (CPanic, t')
  | (CStuck, t') => (CStuck, t')
  end.
Proof.
  intros H Hr. unfold shell_step. rewrite H. destruct c; cbn [refused] in Hr; try (destruct (Hr I));
    match goal with |- context [process_simple ?a ?b ?c ?d ?e t] => destruct (process_simple a b c d e t) as [[u|m| |] t'] end; reflexivity.
Qed.

Lemma shell_locks sp line t : e_parse E line = SLock -> t_buf t = [] ->
  shell_step P E path sp line t = (COk true, show_text (bs "Passwords locked." ++ [newline]) (with_st (snd (exec P Lock (t_st t))) t)).
Proof.
  intros H Hb. unfold shell_step. rewrite H. unfold cbind, api. cbn [lock set_secrets]. rewrite println_eq by exact Hb. reflexivity.
Qed.

(** How a session goes on. *)
Lemma shell_goes_on sp line lines t t1 : shell_step P E path sp line (with_lines lines t) = (COk true, t1) ->
  shell_loop P E path sp (Line line :: lines) t = shell_loop P E path sp lines t1.
Proof. intros H. cbn [shell_loop]. unfold cbind. rewrite H. reflexivity. Qed.

(** It ends with [exit] or the end of the input, when the program crashes or waits for input; never
    because a command fails. *)
Lemma shell_ends sp lines : forall t, match fst (shell_loop P E path sp lines t) with
  | COk _ => exists before r after, lines = before ++ r :: after /\ ending E r /\ Forall (fun x => ~ ending E x) before
  | CErr _ => False
  | CPanic | CStuck => True
  end.
Proof.
  assert (forall line t, e_parse E line <> SExit -> match fst (shell_step P E path sp line t) with COk b => b = true | CErr _ => False | _ => True end) as G.
  { intros line t Hn. unfold shell_step. destruct (e_parse E line) as [m| | |c]; [reflexivity|contradiction| |].
    - unfold cbind, api. cbn [lock set_secrets]. unfold println, print. destruct (last_line _). reflexivity.
    - destruct c; try reflexivity;
        match goal with |- context [process_simple ?a ?b ?c ?d ?e t] => destruct (process_simple a b c d e t) as [[u|m| |] t'] end; reflexivity || exact I. }
  induction lines as [|[line| | |] lines IH]; intros t; cbn [shell_loop].
  - exact I.
  - destruct (e_parse E line) eqn:Ep.
    2: { unfold cbind, shell_step. rewrite Ep. cbn. exists [], (Line line), lines. split; [reflexivity|]. split; [right; eauto|constructor]. }
    all: (assert (~ ending E (Line line)) as Hne by (intros [?|(l' & [= <-] & ?)]; congruence);
      specialize (G line (with_lines lines t) ltac:(congruence)); unfold cbind;
      destruct (shell_step P E path sp line (with_lines lines t)) as [[b|m'| |] t1]; cbn [fst] in *; try exact I; try contradiction;
      subst b; specialize (IH t1); destruct (fst (shell_loop P E path sp lines t1)); try exact IH;
      destruct IH as (bf & r & af & -> & Hr & HF); exists (Line line :: bf), r, af; split; [reflexivity|]; split; [exact Hr|constructor; assumption]).
  - specialize (IH (with_lines lines t)). destruct (fst (shell_loop P E path sp lines (with_lines lines t))); try exact IH.
    destruct IH as (bf & r & af & -> & Hr & HF). exists (Interrupted :: bf), r, af. split; [reflexivity|]. split; [exact Hr|].
    constructor; [intros [?|(? & ? & _)]; discriminate|exact HF].
  - exists [], Eof, lines. split; [reflexivity|]. split; [left; reflexivity|constructor].
  - unfold cbind, eprintln. match goal with |- context [shell_loop P E path sp lines ?t0] => specialize (IH t0); destruct (fst (shell_loop P E path sp lines t0)) end; try exact IH.
    destruct IH as (bf & r & af & -> & Hr & HF). exists (OtherError :: bf), r, af. split; [reflexivity|]. split; [exact Hr|].
    constructor; [intros [?|(? & ? & _)]; discriminate|exact HF].
Qed.

(** After [lock], a command behaves as on a locked instance: it asks for the primary password. *)
Lemma lock_asks t : unlocked (t_st (with_st (snd (exec P Lock (t_st t))) t)) = false.
Proof. reflexivity. Qed.
End main.
