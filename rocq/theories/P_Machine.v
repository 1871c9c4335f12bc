(** Proofs about a machine with several storage files. *)
From stdpp Require Import gmap.
From Verif Require Import M_Base M_Utf8 M_Prims M_Types M_Recovery M_Storage M_Passwords S_Vault M_History S_Api S_History P_Base P_Calls M_Cli S_Cli M_Args S_Args
  P_Args P_Line P_CliLives P_Sound P_CliWorld P_CliNext M_Files S_Files P_Files P_Ext M_Machine S_Machine.

(** * A history depends on how its own saves end only *)

Lemma exec_mono P o s : prims_ok P -> s_flushes s <= s_flushes (snd (exec P o s)).
Proof. intros HP. destruct (exec_once P o s HP); lia. Qed.
Lemma run_mono P l : prims_ok P -> forall s, s_flushes s <= s_flushes (snd (run P l s)).
Proof.
  intros HP. induction l as [|o l IH]; intros s; [apply le_n|]. cbn [run]. pose proof (exec_mono P o s HP) as H1.
  destruct (exec P o s) as [r s1]. specialize (IH s1). destruct (run P l s1) as [rs s2]. cbn [snd] in *. lia.
Qed.

Definition agree_between (w w' : nat -> write_outcome) (a b : nat) : Prop := forall k, a <= k < b -> w k = w' k.

Lemma run_same P w w' l : prims_ok P -> forall s,
  agree_between w w' (s_flushes s) (s_flushes (snd (run (with_writes P w) l s))) ->
  run (with_writes P w) l s = run (with_writes P w') l s /\ (calm_run (with_writes P w) l s -> calm_run (with_writes P w') l s).
Proof.
  intros HP. induction l as [|o l IH]; intros s Hw; [split; auto|]. cbn [run calm_run] in *.
  assert (exec (with_writes P w) o s = exec (with_writes P w') o s) as Eo.
  { apply (exec_same (with_writes P w) w'). destruct (exec_once (with_writes P w) o s (with_writes_ok P w HP)) as [H|H]; [right; exact H|left].
    symmetry. apply Hw. pose proof (run_mono (with_writes P w) l (with_writes_ok P w HP) (snd (exec (with_writes P w) o s))) as Hm.
    destruct (exec (with_writes P w) o s) as [r s1]. cbn [snd] in *. destruct (run _ l s1) as [rs s2]. cbn [snd] in *. lia. }
  pose proof (exec_mono (with_writes P w) o s (with_writes_ok P w HP)) as Hm. rewrite <- Eo.
  destruct (exec (with_writes P w) o s) as [r s1]. cbn [fst snd] in *.
  destruct (IH s1) as [E1 C1].
  { intros k Hk. apply Hw. destruct (run (with_writes P w) l s1) as [rs s2]. cbn [snd] in *. lia. }
  rewrite <- E1. split; [reflexivity|]. intros [H1 H2]. split; [exact H1|exact (C1 H2)].
Qed.

(** * The words *)

Lemma program_state P E path i t : t_st (snd (program P E path i t)) = t_st (snd (main P E path (i_args i) t)).
Proof.
  unfold program. destruct (main P E path (i_args i) t) as [x t']. assert (t_st (snd (wait_for_line t')) = t_st t') as Hw.
  { unfold wait_for_line, cbind, flush_stdout, write_direct. cbn. destruct (read_line (t_stdin t')). reflexivity. }
  destruct x; try reflexivity; (destruct (i_wait i); [|reflexivity]); destruct (wait_for_line t') as [r t'']; destruct r; exact Hw.
Qed.

Section machine.
Context (O : os) (Ps : fpath -> prims) (E : externals) (cwd root : fpath).
Hypothesis HPs : forall p, prims_ok (Ps p).
Hypothesis HE : externals_valid E.
Local Notation env := (env O Ps).
Local Notation outcomes := (outcomes O).
Local Notation invoke := (invoke O Ps E cwd root).
Local Notation invoke_all := (invoke_all O Ps E cwd root).
Local Notation uses := (uses cwd root).
Local Notation keeps_history := (keeps_history cwd root).

Lemma uses_parse u p c : uses u p c <-> exists i, parse_args (u_words u) = Some i /\ storage_file cwd root i = p /\ a_command (i_args i) = c.
Proof.
  unfold S_Machine.uses. split.
  - intros (storage & stdin & wait & Hc & ->). apply parse_args_spec in Hc. eexists. split; [exact Hc|]. cbn [i_args a_command]. split; [|reflexivity].
    unfold storage_file, storage_path. cbn [i_storage]. destruct storage; reflexivity.
  - intros ([storage wait [stdin c']] & Hp & <- & <-). apply parse_args_spec in Hp. exists storage, stdin, wait. split; [exact Hp|].
    unfold storage_file, storage_path. cbn [i_storage]. destruct storage; reflexivity.
Qed.

Lemma history_parse words i : parse_args words = Some i -> a_command (i_args i) = Shell -> history_for cwd root words (history_file cwd root words).
Proof.
  intros Hp Hc. unfold parse_args in Hp. unfold history_file, history_arg, history_for.
  change TOP_OPTIONS with (map as_opt general_table) in *.
  destruct (scan_top (map as_opt general_table) None words) as [[l0 [name rest]]|] eqn:Es; [|discriminate Hp].
  destruct (distinct (map fst l0)) eqn:Ed; [|discriminate Hp]. apply scan_top_spec in Es; [|exact good_general].
  destruct Es as (ws & Ew & Ho & _). destruct (parse_sub name rest) as [c|] eqn:Ec; [|discriminate Hp].
  injection Hp as <-. cbn [i_args a_command] in Hc. subst c. unfold parse_sub in Ec.
  destruct (sub_options name) as [opts|] eqn:Eo; [|discriminate Ec].
  destruct (scan opts None rest) as [[l ps]|] eqn:Er; [|discriminate Ec]. destruct (distinct (map fst l)) eqn:Ed'; [|discriminate Ec].
  assert (name = bs "shell" /\ ps = []) as [-> ->].
  { unfold make_command in Ec.
    repeat match type of Ec with (if bytes_eqb name ?x then _ else _) = _ => destruct (bytes_eqb name x) eqn:?En end; try discriminate Ec.
    all: try (repeat match type of Ec with (match ?x with _ => _ end) = _ => destruct x end; discriminate Ec).
    apply bytes_eqb_eq in En7. destruct ps; [auto|discriminate Ec]. }
  assert (opts = map as_opt [value_entry "s" (bs "history")]) as -> by (injection Eo as <-; reflexivity).
  apply distinct_spec in Ed'. apply scan_spec in Er; [|apply (good_tables (bs "shell")); vm_compute; tauto].
  exists ws, l0, rest, l. split; [exact Ew|]. split; [exact Ho|]. split; [exact Er|]. split; [exact Ed'|].
  destruct (value (bs "history") l) as [text|] eqn:Ev.
  - left. exists text. split; [exact (value_in _ _ _ Ev)|reflexivity].
  - right. split; [|reflexivity]. intros Hi. apply in_map_iff in Hi. destruct Hi as ([n v] & En & Hi). cbn [fst] in En. subst n.
    pose proof (value_spec _ _ _ Ed' Hi) as Ev'. rewrite Ev in Ev'. subst v. clear -Er Hi.
    assert (forall ws l ps, arranged [value_entry "s" (bs "history")] ws l ps -> ~ In (bs "history", None) l) as G; [|exact (G _ _ _ Er Hi)].
    clear. assert (forall ws l, option_words [value_entry "s" (bs "history")] ws l -> ~ In (bs "history", None) l) as G.
    { assert (forall w l, letters [value_entry "s" (bs "history")] w l -> l = []) as L.
      { intros w l H. destruct H as [|c n w l [H|[]]]; [reflexivity|discriminate H]. }
      intros ws l H. destruct H as [x n [Hi|[]]|x n v [Hi|[]]|x n v [Hi|[]]|w l Hl Hw|w l c n v Hl [Hi|[]]|w l c n x v Hl [Hi|[]]|w l c n v Hl [Hi|[]]];
        try discriminate Hi; try apply L in Hl; subst; cbn; intuition discriminate. }
    intros ws l ps H. induction H as [|w ws l ps _ _ IH|ws l ws' l' ps H1 H2 IH|ps]; [tauto|exact IH| |tauto].
    rewrite in_app_iff. intros [Hi|Hi]; [exact (G _ _ H1 Hi)|exact (IH Hi)].
Qed.

Lemma history_unique words h : history_for cwd root words h -> h = history_file cwd root words.
Proof.
  intros (ws & l0 & rest & l & -> & Ho & Hr & Hd & Hh). unfold history_file, history_arg.
  change TOP_OPTIONS with (map as_opt general_table).
  assert (scan_top (map as_opt general_table) None (ws ++ bs "shell" :: rest) = Some (l0, (bs "shell", rest))) as ->.
  { apply scan_top_spec; [exact good_general|]. exists ws. split; [reflexivity|]. split; [exact Ho|]. intros c r. discriminate. }
  change (sub_options (bs "shell")) with (Some (map as_opt [value_entry "s" (bs "history")])). cbv iota beta.
  assert (scan (map as_opt [value_entry "s" (bs "history")]) None rest = Some (l, [])) as ->.
  { apply scan_spec; [apply (good_tables (bs "shell")); vm_compute; tauto|exact Hr]. }
  destruct Hh as [(text & Hi & ->)|[Hn ->]].
  - rewrite (value_spec _ _ _ Hd Hi). reflexivity.
  - rewrite (value_none _ _ Hn). reflexivity.
Qed.

(** * One call of the program *)

Lemma found_eq m p : read (m_files m) p = s_disk (m_state m p) -> found m p = m_state m p.
Proof. intros H. unfold found. rewrite H. destruct (m_state m p); reflexivity. Qed.

Lemma rejected u m : (forall p c, ~ uses u p c) -> invoke u m = (None, m).
Proof.
  intros H. unfold M_Machine.invoke. destruct (parse_args (u_words u)) as [i|] eqn:Ep; [|reflexivity].
  exfalso. apply (H (storage_file cwd root i) (a_command (i_args i))). apply uses_parse. eauto.
Qed.

(** The calls of the library made by it, and the files it leaves *)
Lemma one_use u m i : parse_args (u_words u) = Some i -> usage_valid u ->
  let p := storage_file cwd root i in
  let s := found m p in
  let t := with_st s (u_term u) in
  let r := program (env m p) E (shown_path root i) i t in
  exists ops fs' m', invoke u m = (Some r, m') /\
    t_st (snd r) = snd (run (env m p) ops s) /\ calm_run (env m p) ops s /\
    Forall (fun o => op_valid o /\ (o = Restart \/ o = Lock \/ session_calls E (a_command (i_args i)) o)) ops /\
    (forall q, m_state m' q = if decide (q = p) then t_st (snd r) else m_state m q) /\
    (forall q, m_past m' q = if decide (q = p) then outcomes m p else m_past m q) /\
    read fs' p = s_disk (t_st (snd r)) /\ only_changes p (m_files m) fs' /\ (tree (m_files m) -> tree fs') /\
    (looks (a_command (i_args i)) -> fs' = m_files m) /\
    (m_files m' = fs' \/ exists h n text, keeps_history u h /\ a_command (i_args i) = Shell /\ m_files m' = save_history O n h text fs').
Proof.
  intros Hp [Hu Ht]. cbv zeta. set (p := storage_file cwd root i). set (s := found m p). set (t := with_st s (u_term u)).
  assert (command_valid (a_command (i_args i))) as Hc.
  { destruct i as [st w [sp c]]. apply parse_args_spec in Hp. exact (proj1 (command_line_valid _ _ _ _ _ Hu Hp)). }
  destruct (main_calls_calm (env m p) E (shown_path root i) (i_args i) t HE Hc Ht) as (l1 & Hl & Er & Cr).
  change (t_st t) with s in Er, Cr. set (ops := Restart :: l1) in *.
  unfold M_Machine.invoke. rewrite Hp. cbv zeta. fold p s t.
  pose proof (program_state (env m p) E (shown_path root i) i t) as Es. rewrite Er in Es.
  destruct (program (env m p) E (shown_path root i) i t) as [x t'] eqn:Epr. cbn [snd] in Es.
  set (n := s_flushes (m_state m p)). set (fs' := files_left O p n (m_files m) (t_st t')).
  assert (run (env m p) ops s = run (with_writes (Ps p) (answers O p n (m_files m))) ops s) as Ew.
  { apply run_same; [apply HPs|]. intros k [Hk _]. change (s_flushes s) with n in Hk. unfold M_Machine.outcomes. fold n.
    destruct (Nat.ltb_spec k n); [lia|reflexivity]. }
  assert (read (m_files m) p = s_disk s) as Hr by reflexivity.
  pose proof (runs_on O (Ps p) p (HPs p) ops s (m_files m)) as H1. pose proof (left_on O (Ps p) p (HPs p) ops s (m_files m) Hr) as H2.
  change (s_flushes s) with n in H1, H2. rewrite <- Ew in H1. rewrite H1 in H2. rewrite <- Es in H2. fold fs' in H2.
  pose proof (calls_read O (Ps p) p (HPs p) ops s (m_files m) Hr) as H3. pose proof (calls_only O (Ps p) p ops s (m_files m)) as H4.
  pose proof (calls_tree O (Ps p) p ops s (m_files m)) as H5. pose proof (calls_quiet O (Ps p) p (HPs p) ops s (m_files m)) as H6.
  rewrite H2 in H3, H4, H5, H6. rewrite H1, <- Es in H3.
  eexists ops, fs', _. split; [reflexivity|]. cbn [snd m_state m_past m_files].
  split; [exact Es|]. split; [exact Cr|]. split; [exact Hl|]. split; [reflexivity|]. split; [reflexivity|].
  split; [exact H3|]. split; [exact H4|]. split; [exact H5|]. split.
  - intros Hlk. apply H6. apply List.Forall_forall. intros o Ho. apply (proj1 (List.Forall_forall _ _) Hl) in Ho.
    destruct Ho as [_ [-> |[-> |Ho]]]; [reflexivity..|]. apply (looks_calls (a_command (i_args i))); [exact Hlk|].
    destruct (a_command (i_args i)); try exact Ho. destruct Hlk.
  - destruct (a_command (i_args i)) eqn:Ec; try (left; reflexivity).
    destruct (fst (main _ _ _ _ _)); try (left; reflexivity). destruct (u_history u) as [text|] eqn:Eh; [|left; reflexivity].
    right. exists (history_file cwd root (u_words u)), (s_flushes (t_st t')), text. split; [|split; reflexivity].
    split; [congruence|]. exact (history_parse _ _ Hp Ec).
Qed.

(** * Many of them *)

Lemma history_read n h text fs p : p <> h -> read (save_history O n h text fs) p = read fs p.
Proof. intros H. unfold read. rewrite (history_elsewhere O n h text fs p H). reflexivity. Qed.
Lemma other_read p q fs fs' : only_changes q fs fs' -> p <> q -> read fs' p = read fs p.
Proof.
  intros H Hn. unfold read. destruct (H p) as [-> |[(_ & -> & ->)|(Hq & _)]]; [reflexivity..|]. contradiction.
Qed.

Local Notation one_of := (call_for cwd root E).

Lemma isolated p l : forall m0 s0 ops0,
  Forall usage_valid l -> (forall u, In u l -> ~ keeps_history u p) -> read (m_files m0) p = s_disk (m_state m0 p) ->
  m_state m0 p = snd (run (env m0 p) ops0 s0) -> calm_run (env m0 p) ops0 s0 ->
  let m := invoke_all l m0 in
  exists ops, m_state m p = snd (run (env m p) (ops0 ++ ops) s0) /\ read (m_files m) p = s_disk (m_state m p) /\
    calm_run (env m p) (ops0 ++ ops) s0 /\ Forall (one_of p l) ops.
Proof.
  induction l as [|u l IH]; intros m0 s0 ops0 Hv Hh Hr Hs Hc; cbv zeta.
  { exists []. rewrite app_nil_r. repeat split; auto. }
  inversion Hv as [|? ? Hu Hv']; subst. cbn [M_Machine.invoke_all].
  assert (exists ops1, m_state (snd (invoke u m0)) p = snd (run (env (snd (invoke u m0)) p) (ops0 ++ ops1) s0) /\
    read (m_files (snd (invoke u m0))) p = s_disk (m_state (snd (invoke u m0)) p) /\
    calm_run (env (snd (invoke u m0)) p) (ops0 ++ ops1) s0 /\ Forall (one_of p (u :: l)) ops1) as (ops1 & S1 & R1 & C1 & F1).
  { destruct (parse_args (u_words u)) as [i|] eqn:Ep.
    2:{ exists []. assert (snd (invoke u m0) = m0) as -> by (unfold M_Machine.invoke; rewrite Ep; reflexivity). rewrite app_nil_r. auto. }
    pose proof (one_use u m0 i Ep Hu) as (ops1 & fs' & m' & Ei & Er & Cr & Fr & Hst & Hpa & Hrd & Hon & _ & _ & Hhi). cbv zeta in *.
    set (q := storage_file cwd root i) in *. rewrite Ei. cbn [snd].
    assert (read (m_files m') p = read fs' p) as Hrh.
    { destruct Hhi as [-> |(h & n & text & Hk & _ & ->)]; [reflexivity|]. apply history_read. intros ->. exact (Hh u (or_introl eq_refl) Hk). }
    destruct (decide (p = q)) as [Hq|Hq].
    - rewrite <- Hq in *. pose proof (Hst p) as Hst'. pose proof (Hpa p) as Hpa'. rewrite decide_True in Hst' by reflexivity. rewrite decide_True in Hpa' by reflexivity.
      rewrite (found_eq m0 p Hr) in *.
      set (r := program (env m0 p) E (shown_path root i) i (with_st (m_state m0 p) (u_term u))) in *.
      assert (t_st (snd r) = snd (run (env m0 p) (ops0 ++ ops1) s0)) as Er' by (rewrite run_app; cbn [snd]; rewrite <- Hs; exact Er).
      assert (calm_run (env m0 p) (ops0 ++ ops1) s0) as Cr' by (apply calm_run_app; [exact Hc|rewrite <- Hs; exact Cr]).
      destruct (run_same (Ps p) (outcomes m0 p) (outcomes m' p) (ops0 ++ ops1) (HPs p) s0) as [E2 C2].
      { intros k [_ Hk]. change (with_writes (Ps p) (outcomes m0 p)) with (env m0 p) in Hk. rewrite <- Er', <- Hst' in Hk.
        unfold M_Machine.outcomes at 2. rewrite Hpa'. apply Nat.ltb_lt in Hk. rewrite Hk. reflexivity. }
      exists ops1. split; [|split; [|split]].
      + rewrite Hst', Er'. exact (f_equal snd E2).
      + rewrite Hrh, Hst'. exact Hrd.
      + exact (C2 Cr').
      + eapply List.Forall_impl; [|exact Fr]. intros o [Ho [H|[H|H]]]; split; auto. right. right. exists u, (a_command (i_args i)).
        split; [left; reflexivity|]. split; [|exact H]. apply uses_parse. exists i. auto.
    - pose proof (Hst p) as Hst'. pose proof (Hpa p) as Hpa'. rewrite decide_False in Hst' by exact Hq. rewrite decide_False in Hpa' by exact Hq.
      destruct (run_same (Ps p) (outcomes m0 p) (outcomes m' p) ops0 (HPs p) s0) as [E2 C2].
      { intros k [_ Hk]. change (with_writes (Ps p) (outcomes m0 p)) with (env m0 p) in Hk. rewrite <- Hs in Hk.
        unfold M_Machine.outcomes. rewrite Hst', Hpa'. apply Nat.ltb_lt in Hk. rewrite Hk. reflexivity. }
      exists []. rewrite app_nil_r. split; [|split; [|split]].
      + rewrite Hst', Hs. exact (f_equal snd E2).
      + rewrite Hrh, Hst', <- Hr. exact (other_read p q _ _ Hon Hq).
      + exact (C2 Hc).
      + constructor. }
  destruct (IH (snd (invoke u m0)) s0 (ops0 ++ ops1) Hv' (fun u' H => Hh u' (or_intror H)) R1 S1 C1) as (ops2 & S2 & R2 & C2 & F2). cbv zeta in *.
  exists (ops1 ++ ops2). rewrite app_assoc. split; [exact S2|]. split; [exact R2|]. split; [exact C2|].
  apply List.Forall_app. split; [exact F1|]. eapply List.Forall_impl; [|exact F2].
  intros o [Ho [H|[H|(u' & c & Hi & H)]]]; split; auto. right. right. exists u', c. split; [right; exact Hi|exact H].
Qed.

(** Other files *)
Local Notation kept := (kept cwd root).

Lemma looks_dec c : looks c \/ ~ looks c.
Proof.
  destruct c; cbn [looks]; try (left; exact I); try (right; intros H; exact H).
  - destruct set; [right; intros []|left; exact I].
  - destruct (decide (name = bs "*")); [right|left]; auto.
  - destruct alias_target; [right; intros []|]. destruct remove; [right; intros []|left; exact I].
Qed.

Lemma history_cases n h text fs q : save_history O n h text fs !! q = fs !! q \/
  (q = h /\ fs !! q <> Some Dir /\ exists t, save_history O n h text fs !! q = Some (File t)).
Proof.
  unfold save_history, write_file. destruct h as [|c up]; [left; reflexivity|].
  destruct (negb (is_dir fs up) || is_dir fs (c :: up) || o_open O n) eqn:Eo; [left; reflexivity|].
  apply orb_false_iff in Eo. destruct Eo as [Eo _]. apply orb_false_iff in Eo. destruct Eo as [_ Eo].
  assert (fs !! (c :: up) <> Some Dir) as Hd by (intros H; apply is_dir_true in H; congruence).
  destruct (decide (q = c :: up)) as [-> |Hn]; [right|left].
  - split; [reflexivity|]. split; [exact Hd|]. destruct (o_write O n); cbn [snd]; rewrite lookup_insert; eauto.
  - destruct (o_write O n); cbn [snd]; rewrite lookup_insert_ne by congruence; reflexivity.
Qed.
Lemma history_tree n h text fs : tree fs -> tree (save_history O n h text fs).
Proof.
  intros Ht. unfold save_history, write_file. destruct h as [|c up]; [exact Ht|].
  destruct (negb (is_dir fs up) || is_dir fs (c :: up) || o_open O n) eqn:Eo; [exact Ht|].
  apply orb_false_iff in Eo. destruct Eo as [Eo _]. apply orb_false_iff in Eo. destruct Eo as [Eu Ed].
  apply negb_false_iff, is_dir_true in Eu.
  assert (fs !! (c :: up) <> Some Dir) as Hd by (intros H; apply is_dir_true in H; congruence).
  destruct (o_write O n); cbn [snd]; (apply tree_insert; [exact Ht|exact Eu|]); intros q Hq Ha; exact (tree_leaf _ _ Ht Hd _ Hq Ha).
Qed.

Lemma kept_refl l fs q : kept l fs fs q.
Proof. left. reflexivity. Qed.
Lemma kept_mono l l' fs fs' q : (forall u, In u l -> In u l') -> kept l fs fs' q -> kept l' fs fs' q.
Proof.
  intros Hi [H|[(H1 & H2 & u & p & c & H3 & H4)|(H1 & H2 & u & H3 & H4)]]; [left; exact H|right; left|right; right].
  - split; [exact H1|]. split; [exact H2|]. exists u, p, c. auto.
  - split; [exact H1|]. split; [exact H2|]. exists u. auto.
Qed.
Lemma kept_trans l fs1 fs2 fs3 q : kept l fs1 fs2 q -> kept l fs2 fs3 q -> kept l fs1 fs3 q.
Proof.
  intros H12 H23. destruct H23 as [H|[(H1 & H2 & H3)|(H1 & (t & H2) & H3)]].
  - unfold S_Machine.kept in *. rewrite H. exact H12.
  - destruct H12 as [H0|[(_ & H0 & _)|(_ & (t & H0) & _)]]; [|congruence..]. right. left. rewrite <- H0. auto.
  - destruct H12 as [H0|[(_ & H0 & _)|(H0 & _)]]; [right; right; rewrite <- H0; eauto|congruence|]. right. right. eauto.
Qed.

Lemma one_kept u m q : usage_valid u -> kept [u] (m_files m) (m_files (snd (invoke u m))) q.
Proof.
  intros Hu. destruct (parse_args (u_words u)) as [i|] eqn:Ep; [|unfold M_Machine.invoke; rewrite Ep; apply kept_refl].
  pose proof (one_use u m i Ep Hu) as (ops1 & fs' & m' & Ei & _ & _ & _ & _ & _ & _ & Hon & _ & Hlk & Hhi). cbv zeta in *.
  rewrite Ei. cbn [snd]. apply (kept_trans _ _ fs').
  - destruct (looks_dec (a_command (i_args i))) as [Hl|Hl]; [rewrite (Hlk Hl); apply kept_refl|].
    assert (uses u (storage_file cwd root i) (a_command (i_args i))) as Hus by (apply uses_parse; eauto).
    destruct (Hon q) as [H|[(H1 & H2 & H3)|(-> & H1 & H2)]]; [left; exact H|right; left|right; right].
    + split; [exact H2|]. split; [exact H3|]. exists u, (storage_file cwd root i), (a_command (i_args i)). cbn [In]. auto.
    + split; [exact H1|]. split; [exact H2|]. exists u. split; [left; reflexivity|]. left. exists (a_command (i_args i)). auto.
  - destruct Hhi as [-> |(h & n & text & Hk & _ & ->)]; [apply kept_refl|].
    destruct (history_cases n h text fs' q) as [H|(-> & H1 & H2)]; [left; exact H|]. right. right. split; [exact H1|]. split; [exact H2|].
    exists u. split; [left; reflexivity|]. right. exact Hk.
Qed.

Lemma all_kept l : forall m q, Forall usage_valid l -> kept l (m_files m) (m_files (invoke_all l m)) q.
Proof.
  induction l as [|u l IH]; intros m q Hv; [apply kept_refl|]. inversion Hv as [|? ? Hu Hv']; subst. cbn [M_Machine.invoke_all].
  eapply kept_trans; [eapply kept_mono; [|exact (one_kept u m q Hu)]; intros u' [-> |[]]; left; reflexivity|].
  eapply kept_mono; [|apply IH, Hv']. intros u' H. right. exact H.
Qed.

Lemma all_tree l : forall m, Forall usage_valid l -> tree (m_files m) -> tree (m_files (invoke_all l m)).
Proof.
  induction l as [|u l IH]; intros m Hv Ht; [exact Ht|]. inversion Hv as [|? ? Hu Hv']; subst. cbn [M_Machine.invoke_all].
  apply IH; [exact Hv'|].
  destruct (parse_args (u_words u)) as [i|] eqn:Ep; [|unfold M_Machine.invoke; rewrite Ep; exact Ht].
  pose proof (one_use u m i Ep Hu) as (ops1 & fs' & m' & Ei & _ & _ & _ & _ & _ & _ & _ & Htr & _ & Hhi). cbv zeta in *.
  rewrite Ei. cbn [snd]. destruct Hhi as [-> |(h & n & text & _ & _ & ->)]; [|apply history_tree]; exact (Htr Ht).
Qed.

Lemma looking u m p c : usage_valid u -> uses u p c -> looks c -> m_files (snd (invoke u m)) = m_files m.
Proof.
  intros Hu Hus Hl. apply uses_parse in Hus. destruct Hus as (i & Ep & _ & <-).
  pose proof (one_use u m i Ep Hu) as (ops1 & fs' & m' & Ei & _ & _ & _ & _ & _ & _ & _ & _ & Hlk & Hhi). cbv zeta in *.
  rewrite Ei. cbn [snd]. destruct Hhi as [-> |(h & n & text & _ & Hs & _)]; [exact (Hlk Hl)|]. rewrite Hs in Hl. destruct Hl.
Qed.

(** What a use of [p] does is what it does in the models with one file. *)
Lemma one_result u m p storage stdin wait c : command_line (u_words u) storage stdin wait c ->
  p = match storage with Some text => resolve cwd text | None => default_storage_path root end ->
  read (m_files m) p = s_disk (m_state m p) ->
  fst (invoke u m) = Some (program (env m p) E (match storage with Some text => text | None => display p end)
    (mk_inv storage wait (mk_args stdin c)) (with_st (m_state m p) (u_term u))).
Proof.
  intros Hc Hp Hr. apply parse_args_spec in Hc. unfold M_Machine.invoke. rewrite Hc. cbv zeta.
  assert (storage_file cwd root (mk_inv storage wait (mk_args stdin c)) = p) as -> by (rewrite Hp; destruct storage; reflexivity).
  assert (shown_path root (mk_inv storage wait (mk_args stdin c)) = match storage with Some text => text | None => display p end) as ->.
  { rewrite Hp. destruct storage; reflexivity. }
  rewrite (found_eq m p Hr). destruct (program _ _ _ _ _). reflexivity.
Qed.

(** * Other files make no difference *)

Section noninterference.
Context (p : fpath).
Hypothesis HO : no_trouble O.
Hypothesis Hp : p <> [].

Lemma clear_kept u fs fs' : elsewhere cwd root p u -> (forall q, kept [u] fs fs' q) -> tree fs' -> way_clear p fs -> way_clear p fs'.
Proof.
  intros [He Hh] Hk Ht (_ & Hc & Hd). split; [exact Ht|]. split.
  - intros q t Ha Hf. destruct (Hk q) as [H|[(_ & H & _)|(_ & _ & v & [-> |[]] & [(c & H & _)|H])]].
    + rewrite H in Hf. exact (Hc q t Ha Hf).
    + congruence.
    + destruct (He q c H) as [H1 _]; [intros ->; exact (not_above_self _ Ha)|]. exact (H1 Ha).
    + exact (proj2 (Hh q H) Ha).
  - intros Hf. destruct (Hk p) as [H|[(_ & _ & v & q & c & [-> |[]] & H & _ & Ha)|(_ & (t & H) & _)]]; [congruence| |congruence].
    destruct (He q c H) as [_ H1]; [intros ->; exact (not_above_self _ Ha)|]. exact (H1 Ha).
Qed.
Lemma step_clear u m : usage_valid u -> elsewhere cwd root p u -> way_clear p (m_files m) -> way_clear p (m_files (snd (invoke u m))).
Proof.
  intros Hu He Hc. apply (clear_kept u (m_files m)); [exact He|intros q; apply one_kept, Hu| |exact Hc].
  apply (all_tree [u] m); [constructor; [exact Hu|constructor]|exact (proj1 Hc)].
Qed.

Lemma clear_outcomes m k : way_clear p (m_files m) ->
  outcomes m p k = if k <? s_flushes (m_state m p) then m_past m p k else WriteOk.
Proof.
  intros (Ht & Hc & Hd). unfold M_Machine.outcomes. cbv zeta. destruct (k <? s_flushes (m_state m p)); [reflexivity|].
  apply answers_fine; auto.
Qed.

Lemma same_outcomes m m' : way_clear p (m_files m) -> way_clear p (m_files m') -> same_at p m m' ->
  forall k, outcomes m p k = outcomes m' p k.
Proof.
  intros C1 C2 (Es & _ & _ & Hpa) k. rewrite !clear_outcomes by assumption. rewrite <- Es.
  destruct (Nat.ltb_spec k (s_flushes (m_state m p))); [apply Hpa; assumption|reflexivity].
Qed.

(** A use of another file *)
Lemma step_other u m : usage_valid u -> elsewhere cwd root p u -> (forall c, ~ uses u p c) ->
  m_state (snd (invoke u m)) p = m_state m p /\ m_past (snd (invoke u m)) p = m_past m p /\
  read (m_files (snd (invoke u m))) p = read (m_files m) p.
Proof.
  intros Hu He Hn. destruct (parse_args (u_words u)) as [i|] eqn:Ep; [|unfold M_Machine.invoke; rewrite Ep; auto].
  pose proof (one_use u m i Ep Hu) as (ops1 & fs' & m' & Ei & _ & _ & _ & Hst & Hpa & _ & Hon & _ & _ & Hhi). cbv zeta in *.
  assert (p <> storage_file cwd root i) as Hq.
  { intros ->. apply (Hn (a_command (i_args i))). apply uses_parse. eauto. }
  rewrite Ei. cbn [snd]. split; [rewrite Hst; apply decide_False, Hq|]. split; [rewrite Hpa; apply decide_False, Hq|].
  rewrite <- (other_read p _ _ _ Hon Hq). destruct Hhi as [-> |(h & n & text & Hk & _ & ->)]; [reflexivity|].
  apply history_read. apply not_eq_sym. exact (proj1 (proj2 He h Hk)).
Qed.

(** The same use on both sides *)
Lemma step_same u m m' : usage_valid u -> elsewhere cwd root p u -> way_clear p (m_files m) -> way_clear p (m_files m') ->
  same_at p m m' -> same_at p (snd (invoke u m)) (snd (invoke u m')) /\ ((exists c, uses u p c) -> fst (invoke u m) = fst (invoke u m')).
Proof.
  intros Hu He C1 C2 HS. pose proof (same_outcomes m m' C1 C2 HS) as Ho. destruct HS as (Es & R1 & R2 & Hpa).
  destruct (parse_args (u_words u)) as [i|] eqn:Ep.
  2:{ unfold M_Machine.invoke. rewrite Ep. split; [repeat split; assumption|reflexivity]. }
  pose proof (one_use u m i Ep Hu) as (ops1 & fs1 & m1 & E1 & _ & _ & _ & S1 & A1 & D1 & _ & _ & _ & H1). cbv zeta in *.
  pose proof (one_use u m' i Ep Hu) as (ops2 & fs2 & m2 & E2 & _ & _ & _ & S2 & A2 & D2 & _ & _ & _ & H2). cbv zeta in *.
  destruct (decide (p = storage_file cwd root i)) as [Hq|Hq].
  - rewrite <- Hq in *. rewrite (found_eq m p R1) in *. assert (found m' p = m_state m' p) as Ef by (apply found_eq; rewrite <- Es; exact R2).
    rewrite Ef, <- Es in *.
    set (t := with_st (m_state m p) (u_term u)) in *.
    assert (program (env m' p) E (shown_path root i) i t = program (env m p) E (shown_path root i) i t) as Er.
    { symmetry. exact (program_ext (env m p) (outcomes m' p) E _ i t (fun k => eq_sym (Ho k))). }
    rewrite Er in *. set (r := program (env m p) E (shown_path root i) i t) in *.
    rewrite E1, E2. cbn [fst snd]. split; [|intros _; reflexivity].
    specialize (S1 p). rewrite decide_True in S1 by reflexivity. specialize (S2 p). rewrite decide_True in S2 by reflexivity.
    specialize (A1 p). rewrite decide_True in A1 by reflexivity. specialize (A2 p). rewrite decide_True in A2 by reflexivity.
    split; [congruence|]. rewrite S1, A1, A2.
    assert (forall fs mx, (m_files mx = fs \/ exists h n text, keeps_history u h /\ a_command (i_args i) = Shell /\ m_files mx = save_history O n h text fs) ->
      read (m_files mx) p = read fs p) as Hrd.
    { intros fs mx [-> |(h & n & text & Hk & _ & ->)]; [reflexivity|]. apply history_read. apply not_eq_sym. exact (proj1 (proj2 He h Hk)). }
    split; [rewrite (Hrd _ _ H1); exact D1|]. split; [rewrite (Hrd _ _ H2); exact D2|]. intros k _. apply Ho.
  - assert (forall c, ~ uses u p c) as Hn.
    { intros c Hus. apply uses_parse in Hus. destruct Hus as (i' & Ei & Hf & _). rewrite Ep in Ei. injection Ei as <-. congruence. }
    destruct (step_other u m Hu He Hn) as (X1 & X2 & X3). destruct (step_other u m' Hu He Hn) as (Y1 & Y2 & Y3).
    split; [|intros [c Hc]; destruct (Hn c Hc)]. unfold same_at. rewrite X1, X2, X3, Y1, Y2, Y3. auto.
Qed.

Lemma noninterference l l' : same_uses cwd root p l l' -> forall m m',
  Forall (fun u => usage_valid u /\ elsewhere cwd root p u) l -> Forall (fun u => usage_valid u /\ elsewhere cwd root p u) l' ->
  way_clear p (m_files m) -> way_clear p (m_files m') -> same_at p m m' ->
  same_at p (invoke_all l m) (invoke_all l' m') /\ way_clear p (m_files (invoke_all l m)) /\ way_clear p (m_files (invoke_all l' m')).
Proof.
  intros HS. induction HS as [|u l l' Hn HS IH|u l l' Hn HS IH|u l l' HS IH]; intros m m' V1 V2 C1 C2 Hm.
  - auto.
  - inversion V1 as [|? ? [Hu He] V1']; subst. cbn [M_Machine.invoke_all]. apply IH; auto; [apply step_clear; assumption|].
    destruct (step_other u m Hu He Hn) as (X1 & X2 & X3). unfold same_at. rewrite X1, X2, X3. exact Hm.
  - inversion V2 as [|? ? [Hu He] V2']; subst. cbn [M_Machine.invoke_all]. apply IH; auto; [apply step_clear; assumption|].
    destruct (step_other u m' Hu He Hn) as (X1 & X2 & X3). unfold same_at. rewrite X1, X2, X3. exact Hm.
  - inversion V1 as [|? ? [Hu He] V1']; subst. inversion V2 as [|? ? _ V2']; subst. cbn [M_Machine.invoke_all].
    apply IH; auto; [apply step_clear; assumption..|]. apply step_same; assumption.
Qed.

Lemma no_difference l l' m m' u : same_uses cwd root p l l' ->
  Forall (fun u => usage_valid u /\ elsewhere cwd root p u) l -> Forall (fun u => usage_valid u /\ elsewhere cwd root p u) l' ->
  way_clear p (m_files m) -> way_clear p (m_files m') -> same_at p m m' ->
  read (m_files (invoke_all l m)) p = read (m_files (invoke_all l' m')) p /\
  (usage_valid u -> elsewhere cwd root p u -> (exists c, uses u p c) -> fst (invoke u (invoke_all l m)) = fst (invoke u (invoke_all l' m'))).
Proof.
  intros HS V1 V2 C1 C2 Hm. destruct (noninterference l l' HS m m' V1 V2 C1 C2 Hm) as (Ha & D1 & D2). split.
  - destruct Ha as (_ & R1 & R2 & _). congruence.
  - intros Hu He Hc. exact (proj2 (step_same u _ _ Hu He D1 D2 Ha) Hc).
Qed.
End noninterference.

(** * What is shown *)

Lemma shows l m0 p : Forall usage_valid l -> (forall u, In u l -> ~ keeps_history u p) ->
  read (m_files m0) p = s_disk (m_state m0 p) -> fresh (Ps p) (m_state m0 p) ->
  let m := invoke_all l m0 in
  exists ops, Forall (one_of p l) ops /\ m_state m p = snd (run (env m p) ops (m_state m0 p)) /\
  forall sc, (forall x, In x (sc_sites sc) -> utf8 x = true) ->
    (forall n r, In (n, r) (sc_ids sc) -> utf8 n = true /\ utf8 r = true /\ ~ In x00 n) -> Forall (covered sc) ops ->
    assumptions (Ps p) (sc_sites sc) (sc_ids sc) (sc_pws sc) (s_rand (m_state m p)) ->
  exists wrs, writes_ok (env m p) ops wrs (m_state m0 p) /\
  match w_file (fst (vrun (env m p) wrs nothing ops)) with
  | None => forall u storage stdin c, command_line (u_words u) storage stdin false c ->
      p = match storage with Some text => resolve cwd text | None => default_storage_path root end -> (forall y, c <> SetPrimary y) ->
      exists t', fst (invoke u m) = Some (Failure, t')
  | Some (pp, v) => covered sc (Unlock pp) -> 6 <= length pp ->
      forall u storage stdin x n r bad typed es, command_line (u_words u) storage stdin false (Show x n r false) ->
      p = match storage with Some text => resolve cwd text | None => default_storage_path root end ->
      t_buf (u_term u) = [] -> entered stdin (u_term u) (map Some bad ++ Some typed :: es) -> trim typed = pp ->
      Forall (fun b => length (trim b) < 6 \/ (covered sc (Unlock (trim b)) /\ trim b <> pp)) bad -> covered sc (Has x n r) ->
      exists t1, opened_by (env m p) pp (map complaint bad) stdin es (with_st (m_state m p) (u_term u)) t1 /\
        fst (invoke u m) = Some
          match v_pw v !! (target v x, n, rev_of r) with
          | Some e => match reveal (env m p) pp (target v x, n, rev_of r) (e_secret e) with
                      | OText text => (Success, ended (show_text (bs "Password retrieved." ++ text ++ [newline]) t1))
                      | OErr err => (Failure, ended (complained (Lib err) t1))
                      | _ => (Aborted, t1)
                      end
          | None => (Failure, ended (complained (Lib KeyMissing) t1))
          end
  end.
Proof.
  intros Hv Hh Hr Hf. cbv zeta. destruct (isolated p l m0 (m_state m0 p) [] Hv Hh Hr eq_refl I) as (ops & Es & Hd & Hc & Hops). cbv zeta in *.
  cbn [app] in *. set (m := invoke_all l m0) in *. exists ops. split; [exact Hops|]. split; [exact Es|].
  intros sc Hs Hi Hcov Ha.
  assert (sound (env m p) sc ops (m_state m0 p)) as So.
  { split; auto; [apply with_writes_ok, HPs|]. rewrite <- Es. destruct Ha as [A1 A2 A3]. split; assumption. }
  destruct (sound_rep (env m p) sc ops (m_state m0 p) So) as (wrs & Hw & R & _). exists wrs. split; [exact Hw|].
  assert (forall u storage stdin c, command_line (u_words u) storage stdin false c ->
    p = match storage with Some text => resolve cwd text | None => default_storage_path root end -> exists path,
    fst (invoke u m) = Some (main (env m p) E path (mk_args stdin c) (with_st (m_state m p) (u_term u)))) as Hm.
  { intros u storage stdin c Hcl Hp. exists (match storage with Some text => text | None => display p end). rewrite (one_result u m p storage stdin false c Hcl Hp Hd). unfold program. cbn [i_args i_wait].
    destruct (main _ _ _ _ _) as [x t']. destruct x; reflexivity. }
  destruct (w_file (fst (vrun (env m p) wrs nothing ops))) as [[pp v]|] eqn:Ef.
  - intros Hcu H6 u storage stdin x n r bad typed es Hcl Hp Hb He Ht Hbad Hch.
    destruct (Hm _ _ _ _ Hcl Hp) as (path & ->).
    destruct (show_process (env m p) E path sc ops (m_state m0 p) So wrs R pp v Ef Hcu H6 stdin (with_st (m_state m p) (u_term u)) bad typed es Es Hb He Ht Hbad)
      as (t1 & Ho & Hsh & _).
    exists t1. split; [exact Ho|]. rewrite (Hsh x n r Hch). reflexivity.
  - intros u storage stdin c Hcl Hp Hns. destruct (Hm _ _ _ _ Hcl Hp) as (path & ->).
    pose proof (opens (env m p) E path sc ops (m_state m0 p) So wrs R) as H. rewrite Ef in H.
    destruct (H stdin c (with_st (m_state m p) (u_term u)) Es Hns) as (e & ->). eauto.
Qed.
End machine.

(** * Paths *)

Lemma split_name c s rest : ~ In c s -> split_on c (s ++ c :: rest) = s :: split_on c rest.
Proof.
  induction s as [|x s IH]; intros Hn; cbn [app split_on].
  - rewrite P_Base.eqb_refl. reflexivity.
  - destruct (Byte.eqb x c) eqn:Ex; [apply P_Base.eqb_eq in Ex; subst x; destruct Hn; left; reflexivity|].
    rewrite IH by (intros H; apply Hn; right; exact H). reflexivity.
Qed.
Lemma split_whole c s : ~ In c s -> split_on c s = [s].
Proof.
  induction s as [|x s IH]; intros Hn; [reflexivity|]. cbn [split_on].
  destruct (Byte.eqb x c) eqn:Ex; [apply P_Base.eqb_eq in Ex; subst x; destruct Hn; left; reflexivity|].
  rewrite IH by (intros H; apply Hn; right; exact H). reflexivity.
Qed.
Lemma split_join l : l <> [] -> names l -> split_on "/"%byte (join (bs "/") l) = l.
Proof.
  induction l as [|c l IH]; [congruence|]. intros _ H. inversion H as [|? ? (_ & _ & Hc) H']; subst.
  destruct l as [|c' l]; [apply split_whole, Hc|].
  change (join (bs "/") (c :: c' :: l)) with (c ++ "/"%byte :: join (bs "/") (c' :: l)). rewrite split_name by exact Hc.
  rewrite IH; [reflexivity|discriminate|exact H'].
Qed.
Lemma add_names l start : names l ->
  fold_left (fun p c => if bytes_eqb c [] || bytes_eqb c (bs ".") then p else c :: p) l start = rev l ++ start.
Proof.
  revert start. induction l as [|c l IH]; intros start H; [reflexivity|]. inversion H as [|? ? (H1 & H2 & _) H']; subst. cbn [fold_left rev].
  destruct (bytes_eqb c []) eqn:E1; [apply bytes_eqb_eq in E1; contradiction|].
  destruct (bytes_eqb c (bs ".")) eqn:E2; [apply bytes_eqb_eq in E2; contradiction|]. cbn [orb]. rewrite IH by exact H'.
  rewrite <- app_assoc. reflexivity.
Qed.
Lemma names_start l : l <> [] -> names l -> exists c r, join (bs "/") l = c :: r /\ Byte.eqb c "/"%byte = false.
Proof.
  intros Hl H. destruct l as [|n l]; [contradiction|]. inversion H as [|? ? (H1 & _ & H3) _]; subst.
  destruct n as [|c n]; [contradiction|]. assert (Byte.eqb c "/"%byte = false) as Hc.
  { destruct (Byte.eqb c "/"%byte) eqn:Ec; [|reflexivity]. apply P_Base.eqb_eq in Ec. subst c. destruct H3. left. reflexivity. }
  destruct l as [|n' l]; eexists c, _; (split; [reflexivity|exact Hc]).
Qed.
Lemma resolve_relative cwd l : l <> [] -> names l -> resolve cwd (join (bs "/") l) = rev l ++ cwd.
Proof.
  intros Hl H. destruct (names_start l Hl H) as (c & r & Ej & Hc). unfold resolve. rewrite Ej, Hc, <- Ej. unfold add_components.
  rewrite split_join by assumption. apply add_names, H.
Qed.
Lemma resolve_absolute cwd l : l <> [] -> names l -> resolve cwd (bs "/" ++ join (bs "/") l) = rev l.
Proof.
  intros Hl H. change (add_components [] (bs "/" ++ join (bs "/") l) = rev l). unfold add_components.
  change (bs "/" ++ join (bs "/") l) with ("/"%byte :: join (bs "/") l). change ("/"%byte :: join (bs "/") l) with ([] ++ "/"%byte :: join (bs "/") l).
  rewrite split_name by (intros []). cbn [fold_left bytes_eqb orb]. rewrite split_join by assumption. rewrite add_names by exact H. apply app_nil_r.
Qed.
Lemma display_join l : l <> [] -> display (rev l) = bs "/" ++ join (bs "/") l.
Proof.
  intros Hl. unfold display. rewrite rev_involutive. induction l as [|c l IH]; [contradiction|]. destruct l as [|c' l].
  - cbn [map concat join]. rewrite app_nil_r. reflexivity.
  - cbn [map concat]. cbn [map concat] in IH. rewrite IH by discriminate. rewrite <- app_assoc. reflexivity.
Qed.
Lemma resolve_display cwd p : p <> [] -> names p -> resolve cwd (display p) = p.
Proof.
  intros Hp H. rewrite <- (rev_involutive p) at 1. assert (rev p <> []) as Hr by (intros E; apply Hp; rewrite <- (rev_involutive p), E; reflexivity).
  rewrite display_join by exact Hr. rewrite resolve_absolute; [apply rev_involutive|exact Hr|]. apply List.Forall_rev, H.
Qed.
