(** The whole program with output that stops being accepted. *)
From stdpp Require Import gmap.
From Verif Require Import M_Base M_Utf8 M_Prims M_Types M_Recovery M_Json M_Storage M_Passwords S_Vault M_History S_Api P_Base M_Cli S_Cli M_Steps S_Steps M_Pipe S_Pipe
  P_Steps P_Points P_StepCalls P_StepFile P_StepProps P_StepShell P_Pipe.

Lemma pipe_outcome P E path a L t r t' : fits L t -> completes_to L (main_p P E path a) t r t' ->
  (exists x, main P E path a t = (x, t') /\ outcome x = Some r /\ fits L t') \/
  (r = CPanic /\ exists pt, during (main_p P E path a) t pt /\ cannot_write L pt t').
Proof.
  intros Hf H. destruct (limited L _ _ _ _ Hf H) as [[G F]|G]; [|right; exact G]. left.
  apply main_completes in G. destruct G as (x & G1 & G2). eauto.
Qed.

Lemma pipe_exact P E path a L t x t1 : fits L t -> main P E path a t = (x, t1) -> x <> Waiting ->
  (fits L t1 -> exists r, outcome x = Some r /\ forall r' t', completes_to L (main_p P E path a) t r' t' <-> r' = r /\ t' = t1) /\
  (~ fits L t1 -> (exists t', completes_to L (main_p P E path a) t CPanic t') /\
     forall r' t', completes_to L (main_p P E path a) t r' t' -> r' = CPanic /\ begins (t_shown t') (t_shown t1) /\ begins (t_err t') (t_err t1) /\
       (length (t_shown t') = lim_out L \/ length (t_err t') = lim_err L)).
Proof.
  intros Hf Hm Hw. assert (exists r, outcome x = Some r) as [r Hr] by (destruct x; cbn; eauto; contradiction).
  assert (completes (main_p P E path a) t r t1) as Hc by (apply main_completes; eauto). split.
  - intros F. exists r. split; [exact Hr|]. pose proof (unlimited L _ _ _ _ Hc F) as U. intros r' t'. split.
    + intros H. exact (completes_to_once L _ _ _ _ _ _ H U).
    + intros [-> ->]. exact U.
  - intros F. destruct (overflow L _ _ _ _ Hc Hf F) as [t' Ho]. split; [eauto|]. intros r' t'' H.
    destruct (completes_to_once L _ _ _ _ _ _ H Ho) as [-> ->]. split; [reflexivity|].
    destruct (limited_begins L _ _ _ _ _ _ Hf Ho Hc) as [B1 B2]. split; [exact B1|]. split; [exact B2|].
    destruct (limited L _ _ _ _ Hf Ho) as [[G F']|[_ (pt & D & W)]].
    + destruct (completes_once _ _ _ _ _ _ G Hc) as [_ ->]. contradiction.
    + destruct W as [_ W]. destruct (pt_next pt); try contradiction; [left|left|left|right]; tauto.
Qed.

Lemma pipe_stopped P L pt t' : cannot_write L pt t' -> stopped P pt (s_disk (t_st t')) /\ forall d, ~ torn P pt d.
Proof.
  intros [Hs Hn]. split; [left; rewrite Hs; reflexivity|]. intros d (s & p & q & E & _). rewrite E in Hn. exact Hn.
Qed.

Lemma pipe_file P E path a L t r t' : prims_ok P -> externals_valid E -> command_valid (a_command a) -> typed_valid t -> fits L t ->
  completes_to L (main_p P E path a) t r t' ->
  (a_command a <> Shell -> s_disk (t_st t') = s_disk (t_st t) \/ exists x t1, main P E path a t = (x, t1) /\ x <> Waiting /\ s_disk (t_st t1) = s_disk (t_st t')) /\
  (a_command a = Shell -> (exists x, main P E path a t = (x, t')) \/
     exists k x t1, main P E path a (with_lines (firstn k (t_lines t) ++ [Eof]) t) = (x, t1) /\ x <> Waiting /\ s_disk (t_st t1) = s_disk (t_st t')).
Proof.
  intros HP HE Hc Ht Hf H. split; intros Hs.
  - destruct (pipe_outcome P E path a L t r t' Hf H) as [(x & H1 & H2 & _)|[-> (pt & D & W)]].
    + right. exists x, t'. split; [exact H1|]. split; [destruct x; discriminate|reflexivity].
    + destruct (pipe_stopped P L pt t' W) as [S N]. destruct (stopped_settled P E path a t pt _ HP HE Hc Ht Hs D S) as [G|[G|[G _]]]; [left; exact G|right; exact G|].
      destruct (N _ G).
  - destruct (pipe_outcome P E path a L t r t' Hf H) as [(x & H1 & H2 & _)|[-> (pt & D & W)]].
    + left. eauto.
    + destruct (pipe_stopped P L pt t' W) as [S N]. destruct (stopped_shell P E path a t pt _ HP HE Hc Ht Hs D S) as [G|[G _]]; [right; exact G|]. destruct (N _ G).
Qed.


Lemma nothing_left P E path a t r t' : t_buf t = [] -> completes (main_inner_p P E path a) t r t' -> t_buf t' = [].
Proof.
  intros Ht. assert (tidy (main_inner_p P E path a)) as H by (unfold main_inner_p; tidies; apply tidy_command). exact (proj1 (H t Ht) r t').
Qed.

(** * Asking for ever *)

Definition unlock_body (P : prims) (_ : unit) : prog (unit + unit) :=
  do open <- lib is_unlocked;
  if open : bool then Ret (inr tt)
  else
    do primary_password <- prompt_password_p (bs "Your primary password: ") true;
    do _ <- (if length primary_password <? 6 then Complain (Text TOO_SHORT)
             else do r <- Call (unlock P primary_password);
                  match r with Err e => Complain (Lib e) | _ => Ret tt end);
    Ret (inl tt).
Definition asked (t : term) : term :=
  mk_term (t_st t) [] (t_tty t) (t_confirms t) (t_asks t) (t_lines t) (t_shown t ++ bs "Your primary password: ") (t_buf t) (t_err t ++ [Text TOO_SHORT]).
Lemma body_asks P t : t_stdin t = [] -> unlocked (t_st t) = false -> completes (unlock_body P tt) t (COk (inl tt)) (asked t).
Proof.
  intros Hi Hu. unfold unlock_body. left. exists false, t. split.
  - left. exists (Ok false), t. split; [|split; reflexivity]. split; [|discriminate]. unfold api_res, is_unlocked. rewrite Hu. destruct t; reflexivity.
  - left. exists [], (mk_term (t_st t) [] (t_tty t) (t_confirms t) (t_asks t) (t_lines t) (t_shown t ++ bs "Your primary password: ") (t_buf t) (t_err t)). split.
    + left. exists []. eexists. split; [|split; reflexivity]. left. eexists tt, (with_out (t_shown t ++ bs "Your primary password: ") (t_buf t) t).
      split; [split; [reflexivity|discriminate]|]. split; [|discriminate]. unfold stdin_line. cbn [t_stdin with_out]. rewrite Hi. reflexivity.
    + left. exists tt, (asked t). split; [|split; reflexivity]. split; [reflexivity|discriminate].
Qed.
Lemma unlock_breaks P L : forall n t, lim_err L - length (t_err t) <= n -> fits L t -> t_stdin t = [] -> unlocked (t_st t) = false ->
  exists t', completes_to L (unlock_loop_p P true) t CPanic t'.
Proof.
  change (unlock_loop_p P true) with (Loop (unlock_body P) tt).
  induction n as [|n IH]; intros t Hn Hf Hi Hu; pose proof (body_asks P t Hi Hu) as Hb;
    (destruct (fits_dec L (asked t)) as [F|F]; [|destruct (overflow L _ _ _ _ Hb Hf F) as [t' G]; exists t'; apply loop_aborts; exact G]).
  - exfalso. destruct F as [_ F]. cbn in F. rewrite app_length in F. cbn in F. lia.
  - destruct (IH (asked t)) as [t' G]; [cbn; rewrite app_length; cbn; lia|exact F|reflexivity|exact Hu|].
    exists t'. apply (loop_again _ _ _ tt (asked t)); [exact (unlimited L _ _ _ _ Hb F)|exact G].
Qed.

Lemma panics_bind {A B} L (p : prog A) (k : A -> prog B) t t' : completes_to L p t CPanic t' -> completes_to L (Bind p k) t CPanic t'.
Proof. intros H. right. right. auto. Qed.
Lemma panics_simple P E path L c t t' : match c with SetPrimary _ | Shell => False | _ => True end ->
  completes_to L (ensure_unlocked_p P true) t CPanic t' -> completes_to L (simple_p P E path true c) t CPanic t'.
Proof. intros Hc H. destruct c; try destruct Hc; apply panics_bind, H. Qed.

(** At the end of the standard input, asking for the primary password ends when nothing can be written any more. *)
Lemma prompt_breaks P E path L c t v : match c with SetPrimary _ | Shell => False | _ => True end ->
  fits L t -> t_stdin t = [] -> load P (s_disk (t_st t)) = Ok v -> storage_initialized v = true ->
  exists t', completes_to L (main_p P E path (mk_args true c)) t CPanic t'.
Proof.
  intros Hc Hf Hi Hl Hv. set (s := passwords_new v (t_st t)). set (u := with_st s t).
  assert (exists t', completes_to L (unlock_loop_p P true) u CPanic t') as [t' H].
  { apply (unlock_breaks P L (lim_err L)); [lia|exact Hf|exact Hi|reflexivity]. }
  exists t'. unfold main_p. apply panics_bind. right. right. split; [|reflexivity]. unfold main_inner_p. cbn [a_command a_stdin_passwords].
  left. exists (Ok v), u. split.
  - left. exists (Ok (Ok v)), u. split; [|split; reflexivity]. split; [|discriminate]. unfold api_res, open_file. rewrite Hl. reflexivity.
  - assert (completes_to L (ensure_unlocked_p P true) u CPanic t') as He.
    { unfold ensure_unlocked_p. left. exists true, u. split; [|exact H]. left. exists (Ok true), u. split; [|split; reflexivity].
      split; [|discriminate]. unfold api_res, is_initialized. replace (initialized (t_st u)) with true by (symmetry; exact Hv).
      destruct u; reflexivity. }
    pose proof (panics_simple P E path L c u t' Hc He) as Hs. destruct c; try destruct Hc; exact Hs.
Qed.
