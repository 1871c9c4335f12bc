(** C76: What is printed does not depend on random values or on the order of the hash map. *)
From stdpp Require Import gmap.
From Verif Require Import M_Base M_Recovery M_Utf8 M_Prims M_Types M_Crypto M_Json M_Serde M_Storage M_Passwords M_Cli M_History.
From Verif Require Import S_Vault S_Api S_History S_Cli S_Screen S_Luck P_Base P_Luck T_Toy T_History T_Cli.

(** Two environments that differ in the random values drawn, in the order in which the [HashMap] lists its keys and in how
    earlier writes ended; two files for the same vault, written in these environments, with other salts, HMAC secrets and
    nonces. If the same is typed, every command that does not print recovery codes, and a shell with such commands, prints
    the same to the standard output and as error messages, reads the same input and exits in the same way. No two passwords
    may look the same when sorted. *)
Theorem C76_printed : forall P random order writes E path a t t' sc pp v i i' d d' es,
  let P' := with_luck P random order writes in
  prims_ok P -> prims_ok P' -> scope_texts sc -> closed sc -> sortable sc ->
  load P (s_disk (t_st t)) = Ok d -> load P' (s_disk (t_st t')) = Ok d' ->
  saved P sc pp v i d -> saved P' sc pp v i' d' -> same_screen t t' ->
  (forall k, p_write P (s_flushes (t_st t) + k) = writes (s_flushes (t_st t') + k)) ->
  entered (a_stdin_passwords a) t es -> entries_fit sc es ->
  externals_valid E -> command_valid (a_command a) -> fits sc (a_command a) -> lines_fit sc E (t_lines t) ->
  let '(x, u) := main P E path a t in let '(x', u') := main P' E path a t' in
  x = x' /\ same_screen u u'.
Proof. exact printed_alike. Qed.
Print Assumptions C76_printed.

(** Every usable file is of this kind: the vault is the one that the history of calls leads to. *)
Theorem C76_reached : forall P sc l s d, sound P sc l s -> load P (s_disk (snd (run P l s))) = Ok d ->
  exists wrs, writes_ok P l wrs s /\
  match w_file (fst (vrun P wrs nothing l)) with Some (pp, v) => exists i, saved P sc pp v i d | None => False end.
Proof. exact history_saved. Qed.
Print Assumptions C76_reached.

(** Other random values, the order reversed. *)
Definition other : prims := with_luck toy_release (fun i n => p_random toy_release (i + 5) n) (fun t m => rev (p_order toy_release t m)) (fun _ => WriteOk).
Lemma other_ok : prims_ok other.
Proof.
  apply luck_ok; [apply toy_ok| |].
  - intros i n. apply (ok_random_len _ (toy_ok false (fun _ => WriteOk))).
  - intros t m. rewrite <- Permutation_rev. apply (ok_order _ (toy_ok false (fun _ => WriteOk))).
Qed.

Lemma no_failures P l wrs s : (forall n, p_write P n = WriteOk) -> writes_ok P l wrs s -> wrs = repeat Saved (length l).
Proof.
  intros Hw. revert wrs s. induction l as [|o l IH]; intros [|wr wrs] s H; try reflexivity; try destruct H.
  rewrite Hw in H. cbn in H. subst wr. cbn [length repeat]. f_equal. eapply IH. eassumption.
Qed.
Lemma same_vrun wrs l w : vrun other wrs w l = vrun toy_release wrs w l.
Proof.
  revert wrs w. induction l as [|o l IH]; intros [|wr wrs] w; try reflexivity. cbn [vrun]. unfold other at 1. rewrite luck_vstep.
  destruct (vstep toy_release wr w o) as [w1 r]. rewrite IH. reflexivity.
Qed.
Lemma loaded P l : final P l start (fun s => is_ok (load P (s_disk s))) = true -> exists d, load P (s_disk (snd (run P l start))) = Ok d.
Proof. rewrite final_run. destruct (load _ _); [eauto|discriminate..]. Qed.
Lemma both_saved l : check_sound toy_release l = true -> check_sound other l = true ->
  final toy_release l start (fun s => is_ok (load toy_release (s_disk s))) = true -> final other l start (fun s => is_ok (load other (s_disk s))) = true ->
  exists pp v i i' d d', load toy_release (s_disk (snd (run toy_release l start))) = Ok d /\ load other (s_disk (snd (run other l start))) = Ok d' /\
    saved toy_release (mentioned l) pp v i d /\ saved other (mentioned l) pp v i' d'.
Proof.
  intros H1 H2 H3 H4. apply check_sound_ok in H1; [|apply toy_ok]. apply check_sound_ok in H2; [|apply other_ok].
  apply loaded in H3, H4. destruct H3 as [d Hd], H4 as [d' Hd'].
  destruct (history_saved _ _ _ _ _ H1 Hd) as (wrs & Hw & S). destruct (history_saved _ _ _ _ _ H2 Hd') as (wrs' & Hw' & S').
  apply no_failures in Hw; [|reflexivity]. apply no_failures in Hw'; [|reflexivity]. subst wrs wrs'. rewrite same_vrun in S'.
  destruct (w_file _) as [[pp v]|]; [|destruct S]. destruct S as [i S], S' as [i' S']. exists pp, v, i, i', d, d'. auto.
Qed.

Lemma same_typed y s s' : same_screen (typed y s) (typed y s').
Proof. repeat split. Qed.

Definition shown_by (P : prims) (l : list op) (y : typing) (a : args) : exit * bytes * list message :=
  running P l y a (fun x t => (x, t_shown t, t_err t)).

Lemma shown_by_eq P l y a : shown_by P l y a = let '(x, t) := main P toy_ext (bs "path") a (typed y (snd (run P l start))) in (x, t_shown t, t_err t).
Proof. apply running_eq. Qed.

(** Two sites, three passwords; somebody tried a wrong primary password. *)
Definition some_calls : list op :=
  [Reset (bs "secret"); SetStored (bs "b") (bs "n") [] (bs "first"); SetStored (bs "a") (bs "y") (bs "2") (bs "second");
   SetStored (bs "a") (bs "x") [] (bs "third"); Unlock (bs "wrong!"); Lock].
Example C76_example :
  let y := secrets_only [bs "wrong!"; bs "secret"] in let a := mk_args false (List (bs "*") (bs "*") true false true) in
  let t := typed y (snd (run toy_release some_calls start)) in let t' := typed y (snd (run other some_calls start)) in
  let sc := mentioned some_calls in
  prims_ok toy_release /\ prims_ok other /\ scope_texts sc /\ closed sc /\ sortable sc /\
  (exists pp v i i' d d', load toy_release (s_disk (t_st t)) = Ok d /\ load other (s_disk (t_st t')) = Ok d' /\
     saved toy_release sc pp v i d /\ saved other sc pp v i' d') /\
  same_screen t t' /\ entered false t [Some (bs "wrong!"); Some (bs "secret")] /\ entries_fit sc [Some (bs "wrong!"); Some (bs "secret")] /\
  externals_valid toy_ext /\ command_valid (a_command a) /\ fits sc (a_command a) /\ lines_fit sc toy_ext (t_lines t) /\
  (* the files differ, and so does the order *)
  final toy_release some_calls start (fun s => s_disk s) <> final other some_calls start (fun s => s_disk s) /\
  shown_by toy_release some_calls y a = shown_by other some_calls y a /\
  shown_by toy_release some_calls y a = (Success,
    bs "Passwords for a:" ++ [newline] ++ bs "    x (stored)" ++ [newline] ++ bs "        third" ++ [newline] ++
    bs "    y (stored, revision: 2)" ++ [newline] ++ bs "        second" ++ [newline] ++
    bs "Passwords for b:" ++ [newline] ++ bs "    n (stored)" ++ [newline] ++ bs "        first" ++ [newline],
    [Lib DecryptionFailure]).
Proof.
  cbv zeta. split; [apply toy_ok|]. split; [apply other_ok|].
  split; [split; [intros x Hx; apply (so_sites _ _ _ _ (check_sound_ok toy_release some_calls (toy_ok _ _) ltac:(vm_compute; reflexivity))), Hx
                 |intros n r Hx; apply (so_ids _ _ _ _ (check_sound_ok toy_release some_calls (toy_ok _ _) ltac:(vm_compute; reflexivity))), Hx]|].
  split; [split; [intros x Hx; repeat destruct Hx as [<-|Hx]; try (vm_compute; tauto); destruct Hx
                 |intros n r Hx; cbn in Hx; repeat destruct Hx as [[= <- <-]|Hx]; try (vm_compute; tauto); destruct Hx]|].
  split; [intros n r n' r' H H' E; cbn in H, H'; destruct H as [[= <- <-]|[[= <- <-]|[[= <- <-]|[]]]], H' as [[= <- <-]|[[= <- <-]|[[= <- <-]|[]]]]; try reflexivity; discriminate E|].
  split; [apply both_saved; vm_compute; reflexivity|]. split; [apply same_typed|]. split; [generalize (snd (run toy_release some_calls start)); intros; reflexivity|].
  split; [intros e [[= <-]|[[= <-]|[]]]; (split; [reflexivity|vm_compute; tauto])|].
  split; [apply toy_ext_valid|]. split; [split; reflexivity|]. split; [reflexivity|]. split; [generalize (snd (run toy_release some_calls start)); intros s0 line c []|].
  split; [vm_compute; discriminate|]. split; vm_compute; reflexivity.
Qed.

(** Passwords that look the same when sorted: name, space and revision are the same text. Which one comes first is left to
    chance, so the statement above is wrong without [sortable]. *)
Definition alike_calls : list op :=
  [Reset (bs "secret"); SetStored (bs "a") (bs "x y") [] (bs "first"); SetStored (bs "a") (bs "x") (bs "y ") (bs "second"); Lock].
Definition alike_typing : typing := secrets_only [bs "secret"].
Definition alike_args : args := mk_args false (List (bs "*") (bs "*") false false false).
Lemma alike_differ : fst (shown_by toy_release alike_calls alike_typing alike_args) <> fst (shown_by other alike_calls alike_typing alike_args).
Proof. vm_compute. discriminate. Qed.
Lemma alike_sound : sound toy_release (mentioned alike_calls) alike_calls start.
Proof. apply check_sound_ok; [apply toy_ok|vm_compute; reflexivity]. Qed.
Lemma alike_closed : closed (mentioned alike_calls).
Proof.
  split; [intros z Hz; repeat destruct Hz as [<-|Hz]; try (vm_compute; tauto); destruct Hz
         |intros n r Hz; cbn in Hz; repeat destruct Hz as [[= <- <-]|Hz]; try (vm_compute; tauto); destruct Hz].
Qed.
Lemma alike_saved : exists pp v i i' d d', load toy_release (s_disk (snd (run toy_release alike_calls start))) = Ok d /\ load other (s_disk (snd (run other alike_calls start))) = Ok d' /\
  saved toy_release (mentioned alike_calls) pp v i d /\ saved other (mentioned alike_calls) pp v i' d'.
Proof. apply both_saved; vm_compute; reflexivity. Qed.
Theorem C76_any_names_refuted : ~ (forall P random order writes E path a t t' sc pp v i i' d d' es,
  let P' := with_luck P random order writes in
  prims_ok P -> prims_ok P' -> scope_texts sc -> closed sc ->
  load P (s_disk (t_st t)) = Ok d -> load P' (s_disk (t_st t')) = Ok d' ->
  saved P sc pp v i d -> saved P' sc pp v i' d' -> same_screen t t' ->
  (forall k, p_write P (s_flushes (t_st t) + k) = writes (s_flushes (t_st t') + k)) ->
  entered (a_stdin_passwords a) t es -> entries_fit sc es ->
  externals_valid E -> command_valid (a_command a) -> fits sc (a_command a) -> lines_fit sc E (t_lines t) ->
  let '(x, u) := main P E path a t in let '(x', u') := main P' E path a t' in
  x = x' /\ same_screen u u').
Proof.
  intros H. destruct alike_saved as (pp & v & i & i' & d & d' & Hd & Hd' & S & S').
  pose proof alike_differ as Hne. rewrite !shown_by_eq in Hne.
  pose proof (so_sites _ _ _ _ alike_sound) as Hx. pose proof (so_ids _ _ _ _ alike_sound) as Hi.
  revert Hd Hd' Hne. generalize (snd (run toy_release alike_calls start)), (snd (run other alike_calls start)). intros s s' Hd Hd' Hne.
  pose (t := typed alike_typing s). pose (t' := typed alike_typing s'). fold t t' in Hne.
  specialize (H toy_release (fun i n => p_random toy_release (i + 5) n) (fun t m => rev (p_order toy_release t m)) (fun _ => WriteOk)
    toy_ext (bs "path") alike_args t t' (mentioned alike_calls) pp v i i' d d' [Some (bs "secret")]). cbv zeta in H. fold other in H.
  destruct (main toy_release toy_ext (bs "path") alike_args t) as [x u]. destruct (main other toy_ext (bs "path") alike_args t') as [x' u'].
  apply Hne. cbn [fst]. assert (x = x' /\ same_screen u u') as [-> (-> & _)]; [|reflexivity]. apply H.
  - apply toy_ok.
  - apply other_ok.
  - split; assumption.
  - apply alike_closed.
  - exact Hd.
  - exact Hd'.
  - exact S.
  - exact S'.
  - apply same_typed.
  - reflexivity.
  - reflexivity.
  - intros e [[= <-]|[]]. split; [reflexivity|vm_compute; tauto].
  - apply toy_ext_valid.
  - split; reflexivity.
  - reflexivity.
  - intros line c [].
Qed.
Print Assumptions C76_any_names_refuted.
