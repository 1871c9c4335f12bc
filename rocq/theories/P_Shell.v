(** The history of the shell; waiting. *)
From stdpp Require Import gmap.
From Coq Require Import ZArith ZifyBool ZifyNat ZifyN.
From Verif Require Import M_Base M_Base64 M_Utf8 M_Prims M_Types M_Storage M_Passwords S_Vault M_History S_Api M_Recovery M_Cli S_Cli M_Args M_Shell S_Shell
  P_Base P_CliMain.

(** * Which lines are read *)

Lemma step_goes_on P E path sp line t r t' : shell_step P E path sp line t = (COk r, t') ->
  r = match e_parse E line with SExit => false | _ => true end /\ (e_parse E line = SExit -> t' = t).
Proof.
  unfold shell_step. destruct (e_parse E line) as [m| | |c].
  - cbn. intros [= <- _]. split; [reflexivity|discriminate].
  - cbn. intros [= <- <-]. auto.
  - unfold cbind, api, lock, set_secrets. cbn. unfold println, print. destruct (last_line _). cbn. intros [= <- _]. split; [reflexivity|discriminate].
  - assert ((match process_simple P E path sp c t with
        | (COk _, t') => (let& _ := flush_stdout in cret true) t'
        | (CErr m, t') => (let& _ := eprintln m in cret true) t'
        | (CPanic, t') => (CPanic, t')
        | (CStuck, t') => (CStuck, t')
        end) = (COk r, t') -> r = true) as H.
    { destruct (process_simple P E path sp c t) as [[?|?| |] ?]; cbn; try discriminate; intros [= <- _]; reflexivity. }
    intros H1. split; [|discriminate]. destruct c; try exact (H H1); cbn in H1; injection H1 as <- _; reflexivity.
Qed.

Lemma loop_lines P E path sp lines : forall t t', shell_loop P E path sp lines t = (COk tt, t') ->
  exists read rest, lines = read ++ rest /\ t_lines t' = rest /\ until_exit E lines = Some (lines_of read).
Proof.
  induction lines as [|[line| | |] lines IH]; intros t t'; cbn [shell_loop until_exit].
  - discriminate.
  - unfold cbind. destruct (shell_step P E path sp line (with_lines lines t)) as [[go|m| |] t1] eqn:Es; try discriminate.
    destruct (step_goes_on _ _ _ _ _ _ _ _ Es) as [Hgo Hex]. destruct (e_parse E line) as [m| | |c]; subst go.
    + intros H. destruct (IH _ _ H) as (read & rest & -> & Hr & Hu). exists (Line line :: read), rest. rewrite Hu. auto.
    + intros [= <-]. exists [Line line], lines. rewrite (Hex eq_refl). auto.
    + intros H. destruct (IH _ _ H) as (read & rest & -> & Hr & Hu). exists (Line line :: read), rest. rewrite Hu. auto.
    + intros H. destruct (IH _ _ H) as (read & rest & -> & Hr & Hu). exists (Line line :: read), rest. rewrite Hu. auto.
  - intros H. destruct (IH _ _ H) as (read & rest & -> & Hr & Hu). exists (Interrupted :: read), rest. rewrite Hu. auto.
  - intros [= <-]. exists [Eof], lines. auto.
  - unfold cbind. cbn [eprintln]. intros H. destruct (IH _ _ H) as (read & rest & -> & Hr & Hu). exists (OtherError :: read), rest. rewrite Hu. auto.
Qed.

Lemma session_lines P E path sp t t' : shell_cmd P E path sp t = (COk tt, t') -> until_exit E (t_lines t) = Some (lines_read t t').
Proof.
  unfold shell_cmd, cbind, println, print. destruct (last_line _) as [d r]. cbn [flush_stdout]. cbn.
  intros H. destruct (loop_lines _ _ _ _ _ _ _ H) as (read & rest & Hl & Hr & Hu). rewrite Hu. unfold lines_read.
  rewrite Hr. f_equal. f_equal. rewrite Hl, app_length. replace (length read + length rest - length rest) with (length read) by lia.
  rewrite firstn_app, Nat.sub_diag, firstn_all, app_nil_r. reflexivity.
Qed.

Lemma shell_never_fails P E path sp t m : fst (shell_cmd P E path sp t) <> CErr m.
Proof.
  unfold shell_cmd, cbind, println, print. destruct (last_line _) as [d r]. cbn [flush_stdout]. cbn.
  match goal with |- context [shell_loop P E path sp ?l ?u] => pose proof (shell_ends P E path sp l u) as H; destruct (fst (shell_loop P E path sp l u)) end;
    try discriminate. destruct H.
Qed.

Lemma session_history P E path sp old t r t' h : shell_with_history P E path sp old t = (r, t', h) ->
  match h with
  | Some h => r = COk tt /\ exists l, until_exit E (t_lines t) = Some l /\ h = fold_left add_history_entry l old
  | None => r = CPanic \/ r = CStuck
  end.
Proof.
  unfold shell_with_history. destruct (shell_cmd P E path sp t) as [r0 t0] eqn:Es. intros [= <- <- <-].
  pose proof (shell_never_fails P E path sp t) as Hf. rewrite Es in Hf. cbn [fst] in Hf.
  destruct r0 as [[]|m| |]; auto; [|destruct (Hf m eq_refl)]. split; [reflexivity|]. exists (lines_read t t0). split; [|reflexivity].
  apply (session_lines _ _ _ _ _ _ Es).
Qed.

(** * What the history is *)

Lemma add_cases h line : add_history_entry h line = h \/
  line <> [] /\ (forall a x, h = a ++ [x] -> x <> line) /\ add_history_entry h line = (if length h =? MAX_HISTORY then tl h else h) ++ [line].
Proof.
  unfold add_history_entry. destruct line as [|c line]; [auto|]. destruct (rev h) as [|x l] eqn:Er.
  - right. split; [discriminate|]. split; [|reflexivity]. intros a x ->. rewrite rev_app_distr in Er. discriminate Er.
  - destruct (bytes_eqb x (c :: line)) eqn:Ex; [auto|]. right. split; [discriminate|]. split; [|reflexivity].
    intros a y -> Ey. rewrite rev_app_distr in Er. cbn in Er. injection Er as Er _. rewrite <- Er, Ey, bytes_eqb_refl in Ex. discriminate Ex.
Qed.

Lemma sublist_tl (h : list bytes) : sublist (tl h) h.
Proof. destruct h as [|x h]; [constructor|]. apply sublist_cons. reflexivity. Qed.

Lemma history_sublist l : forall old, sublist (fold_left add_history_entry l old) (old ++ l).
Proof.
  induction l as [|x l IH]; intros old; cbn [fold_left]; [rewrite app_nil_r; reflexivity|].
  etransitivity; [apply IH|]. change (x :: l) with ([x] ++ l). rewrite (List.app_assoc old [x] l). apply sublist_app; [|reflexivity].
  destruct (add_cases old x) as [-> | (_ & _ & ->)]; [apply sublist_inserts_r; reflexivity|].
  apply sublist_app; [|reflexivity]. destruct (_ =? _); [apply sublist_tl|reflexivity].
Qed.

Lemma orderly_add h line : orderly h -> orderly (add_history_entry h line).
Proof.
  intros (H1 & H2 & H3). destruct (add_cases h line) as [-> | (Hn & Hl & ->)]; [split; auto|].
  set (h' := if length h =? MAX_HISTORY then tl h else h).
  assert (exists b, h = b ++ h') as [b Hb].
  { unfold h'. destruct (_ =? _); [|exists []; reflexivity]. destruct h as [|x h]; [exists []; reflexivity|exists [x]; reflexivity]. }
  assert (length h' + 1 <= 100) as HL.
  { unfold h', MAX_HISTORY. destruct (length h =? 100) eqn:El; [destruct h; cbn in *; lia|lia]. }
  split; [rewrite app_length; cbn; lia|]. split.
  - rewrite in_app_iff. intros [H|[H|[]]]; [|congruence]. apply H2. rewrite Hb. apply in_or_app. auto.
  - intros a x y c Hc. destruct c as [|z c] using rev_ind.
    + change (a ++ [x; y]) with (a ++ [x] ++ [y]) in Hc. rewrite List.app_assoc in Hc. apply app_inj_tail in Hc. destruct Hc as [Hc ->].
      intros ->. apply (Hl (b ++ a) y); [|reflexivity]. rewrite Hb, Hc, List.app_assoc. reflexivity.
    + replace (a ++ x :: y :: c ++ [z]) with ((a ++ x :: y :: c) ++ [z]) in Hc by (rewrite <- List.app_assoc; reflexivity).
      apply app_inj_tail in Hc. destruct Hc as [Hc _]. apply (H3 (b ++ a) x y c). rewrite Hb, Hc, List.app_assoc. reflexivity.
Qed.
Lemma history_orderly l : forall old, orderly old -> orderly (fold_left add_history_entry l old).
Proof. induction l as [|x l IH]; intros old H; [exact H|]. apply IH, orderly_add, H. Qed.

(** The last lines are there. *)
Lemma add_last h line : line <> [] -> exists a, add_history_entry h line = a ++ [line].
Proof.
  intros Hn. unfold add_history_entry. destruct line as [|c line]; [contradiction|]. destruct (rev h) as [|x l] eqn:Er.
  - eexists. reflexivity.
  - destruct (bytes_eqb x (c :: line)) eqn:Ex; [|eexists; reflexivity]. apply bytes_eqb_eq in Ex. subst x. exists (rev l).
    rewrite <- (rev_involutive h), Er. reflexivity.
Qed.
(** An entry is dropped only when there are a hundred others behind it. *)
Lemma history_keeps l : forall a x b, length b + length l < 100 ->
  exists a' b', fold_left add_history_entry l (a ++ x :: b) = a' ++ x :: b' /\ length b' <= length b + length l.
Proof.
  induction l as [|y l IH]; intros a x b Hl; cbn [fold_left length] in *; [exists a, b; split; [reflexivity|lia]|].
  destruct (add_cases (a ++ x :: b) y) as [-> | (_ & _ & ->)].
  - destruct (IH a x b) as (a' & b' & -> & H); [lia|]. exists a', b'. split; [reflexivity|lia].
  - assert (exists a1, (if length (a ++ x :: b) =? MAX_HISTORY then tl (a ++ x :: b) else a ++ x :: b) = a1 ++ x :: b) as [a1 ->].
    { destruct (length (a ++ x :: b) =? MAX_HISTORY) eqn:El; [|eauto]. unfold MAX_HISTORY in El. apply Nat.eqb_eq in El.
      rewrite app_length in El. cbn [length] in El. destruct a as [|z a]; [cbn in El; lia|]. exists a. reflexivity. }
    rewrite <- List.app_assoc. cbn [app]. destruct (IH a1 x (b ++ [y])) as (a' & b' & -> & H); [rewrite app_length; cbn; lia|].
    exists a', b'. split; [reflexivity|]. rewrite app_length in H. cbn in H. lia.
Qed.
Lemma history_recent l1 line l2 old : line <> [] -> length l2 < 100 -> In line (fold_left add_history_entry (l1 ++ line :: l2) old).
Proof.
  intros Hn Hl. rewrite fold_left_app. cbn [fold_left]. destruct (add_last (fold_left add_history_entry l1 old) line Hn) as [a ->].
  destruct (history_keeps l2 a line [] Hl) as (a' & b' & -> & _). apply in_or_app. right. left. reflexivity.
Qed.

(** * Waiting *)

Lemma main_done P E path a t : match main P E path a t with
  | (Success, t') | (Failure, t') => t_buf t' = [] /\ locked (t_st t')
  | _ => True
  end.
Proof.
  unfold main. destruct (main_inner P E path a t) as [[u|m| |] t']; cbn; auto; repeat split.
Qed.

Lemma waiting P E path storage a t x t' : main P E path a t = (x, t') ->
  program P E path (mk_inv storage false a) t = (x, t') /\
  match x with
  | Success | Failure =>
      let '(line, rest) := read_line (t_stdin t') in
      program P E path (mk_inv storage true a) t =
        (if utf8 line then x else Aborted,
         mk_term (t_st t') rest (t_tty t') (t_confirms t') (t_asks t') (t_lines t')
           (t_shown t' ++ newline :: bs "Waiting..." ++ [newline]) [] (t_err t')) /\
      t_buf t' = [] /\ locked (t_st t')
  | _ => program P E path (mk_inv storage true a) t = (x, t')
  end.
Proof.
  intros H. unfold program. cbn [i_args i_wait]. pose proof (main_done P E path a t) as Hd. rewrite H in *.
  destruct x; split; try reflexivity; destruct (read_line (t_stdin t')) as [line rest] eqn:Er;
    (split; [|exact Hd]); destruct Hd as [Hb _]; unfold wait_for_line, cbind, flush_stdout, write_direct, with_out; cbn; rewrite Er, Hb, app_nil_r; cbn;
    destruct (utf8 line); reflexivity.
Qed.
