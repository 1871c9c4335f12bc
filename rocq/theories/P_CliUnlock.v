(** The command line program: asking for passwords, unlocking. *)
From Coq Require Import Permutation ZArith ZifyBool ZifyNat ZifyN.
From stdpp Require Import gmap.
From Verif Require Import M_Base M_Base64 M_Utf8 M_Prims M_Types M_Crypto M_Recovery M_Json M_Serde M_Storage M_Passwords S_Serde
  S_Vault M_History S_Api P_Base P_Utf8 P_Json P_Serde P_Storage P_Api P_Calls M_Cli S_Cli P_CliBase.

(** * Lines of the standard input *)

Lemma read_line_end l : ~ In newline l -> read_line l = (l, []).
Proof.
  induction l as [|b l IH]; intros H; [reflexivity|]. cbn [read_line].
  destruct (Byte.eqb b newline) eqn:E; [apply P_Base.eqb_eq in E; subst; cbn in H; tauto|].
  rewrite IH by (cbn in H; tauto). reflexivity.
Qed.
Lemma read_line_line l r : ~ In newline l -> read_line (l ++ newline :: r) = (l, r).
Proof.
  induction l as [|b l IH]; intros H; [reflexivity|]. cbn [read_line app].
  destruct (Byte.eqb b newline) eqn:E; [apply P_Base.eqb_eq in E; subst; cbn in H; tauto|].
  rewrite IH by (cbn in H; tauto). reflexivity.
Qed.
Lemma read_line_join l ls : Forall (fun l => ~ In newline l) (l :: ls) -> read_line (join [newline] (l :: ls)) = (l, join [newline] ls).
Proof.
  intros H. inversion H; subst. destruct ls as [|l' ls]; cbn [join]; [apply read_line_end|apply read_line_line]; assumption.
Qed.

Lemma lines_exist s : exists ls, ls <> [] /\ Forall (fun l => ~ In newline l) ls /\ s = join [newline] ls /\ length ls <= S (length s).
Proof.
  induction s as [|b s (ls & Hn & HF & E & Hl)].
  - exists [[]]. repeat split; [discriminate| |cbn; lia]. constructor; [intros []|constructor].
  - destruct ls as [|l ls]; [contradiction|]. destruct (Byte.eqb b newline) eqn:Eb.
    + apply P_Base.eqb_eq in Eb. subst b. exists ([] :: l :: ls). split; [discriminate|]. split; [constructor; [intros []|exact HF]|].
      split; [cbn [join app]; rewrite E; reflexivity|cbn [length] in *; lia].
    + exists ((b :: l) :: ls). split; [discriminate|]. inversion HF as [|? ? HF1 HF2]. split; [constructor; [|assumption]|].
      * intros [->|Hb]; [|contradiction]. rewrite P_Base.eqb_refl in Eb. discriminate Eb.
      * split; [destruct ls; cbn [join app] in *; rewrite E; reflexivity|cbn [length] in *; lia].
Qed.
Lemma lines_unique : forall ls ls', ls <> [] -> ls' <> [] -> Forall (fun l => ~ In newline l) ls -> Forall (fun l => ~ In newline l) ls' ->
  join [newline] ls = join [newline] ls' -> ls = ls'.
Proof.
  induction ls as [|l ls IH]; intros [|l' ls'] H1 H2 F1 F2 E; try contradiction.
  pose proof (read_line_join l ls F1) as R1. pose proof (read_line_join l' ls' F2) as R2. rewrite E in R1. rewrite R1 in R2.
  injection R2 as -> E2. inversion F1 as [|? ? N1 F1']; inversion F2 as [|? ? N2 F2']; subst.
  destruct ls as [|m ls], ls' as [|m' ls']; [reflexivity| | |f_equal; apply IH; try assumption; discriminate].
  - exfalso. cbn [join] in E. apply N1. rewrite E. apply in_app_iff. right. left. reflexivity.
  - exfalso. cbn [join] in E. apply N2. rewrite <- E. apply in_app_iff. right. left. reflexivity.
Qed.

Lemma entered_exist sp t : exists es, entered sp t es /\ length es <= S (length (t_stdin t) + length (t_tty t)).
Proof.
  destruct sp; cbn.
  - destruct (lines_exist (t_stdin t)) as (ls & ? & ? & ? & ?). eexists. split; [exists ls; eauto|]. rewrite map_length. lia.
  - eexists. split; [reflexivity|lia].
Qed.
Lemma entered_unique sp t es es' : entered sp t es -> entered sp t es' -> es = es'.
Proof.
  destruct sp; cbn; [|congruence]. intros (ls & H1 & H2 & H3 & ->) (ls' & H1' & H2' & H3' & ->). f_equal.
  apply lines_unique; congruence.
Qed.
Lemma entered_end t : t_stdin t = [] -> entered true t [Some []].
Proof. intros E. exists [[]]. repeat split; [discriminate|constructor; [intros []|constructor]|exact E]. Qed.

(** * Prompts *)

Lemma prompt_secret_entered pr t x es : entered true t (x :: es) -> exists t',
  prompt_secret_text pr t = (match x with Some c => COk c | None => CPanic end, t') /\
  prompted pr true t t' /\ remaining true t' es.
Proof.
  intros (ls & Hn & HF & E & Hm). destruct ls as [|l ls]; [contradiction|]. cbn [map] in Hm. injection Hm as -> ->.
  unfold prompt_secret_text, cbind, write_direct. cbn [with_out t_stdin]. rewrite E, read_line_join by exact HF.
  eexists. split; [destruct (utf8 l); reflexivity|]. split; [split; cbn; try reflexivity; discriminate|].
  destruct ls as [|l' ls]; [right; auto|left]. exists (l' :: ls). inversion HF; subst. repeat split; [discriminate|assumption].
Qed.
Lemma prompt_entered pr sp t x es : entered sp t (x :: es) -> exists t',
  prompt_password pr sp t = (match x with Some c => COk (trim c) | None => CPanic end, t') /\
  prompted pr sp t t' /\ remaining sp t' es.
Proof.
  destruct sp; intros H.
  - destruct (prompt_secret_entered pr t x es H) as (t' & E & Hp & Hr). exists t'. split; [|auto].
    unfold prompt_password, cbind. rewrite E. destruct x; reflexivity.
  - unfold entered in H. unfold prompt_password, cbind, tty_password. rewrite <- H.
    eexists. split; [destruct x; reflexivity|]. split; [split; cbn; try rewrite app_nil_r; try reflexivity; discriminate|].
    left. reflexivity.
Qed.
Lemma prompt_waits pr t : entered false t [] -> prompt_password pr false t = (CStuck, t).
Proof. cbn. intros E. unfold prompt_password, cbind, tty_password. rewrite <- E. reflexivity. Qed.

(** * The loop *)

Section unlock.
Context (P : prims).

Lemma unlock_api pp t : api_res (unlock P pp) t =
  (match fst (exec P (Unlock pp) (t_st t)) with ODone => COk (Ok tt) | OErr e => COk (Err e) | _ => CPanic end,
   with_st (snd (exec P (Unlock pp) (t_st t))) t).
Proof.
  unfold api_res. cbn [exec]. unfold as_out. destruct (unlock P pp (t_st t)) as [[[]|e|] s']; reflexivity.
Qed.
Lemma with_st_same t : with_st (t_st t) t = t.
Proof. destruct t; reflexivity. Qed.

(** One round. *)
Definition round (sp : bool) (x : option bytes) (t t' : term) (r : cres unit) : Prop :=
  match x with
  | None => r = CPanic /\ prompted (bs "Your primary password: ") sp t t'
  | Some c =>
      exists t1, prompted (bs "Your primary password: ") sp t t1 /\
      if length (trim c) <? 6 then r = COk tt /\ t' = snd (eprintln (Text TOO_SHORT) t1)
      else match fst (exec P (Unlock (trim c)) (t_st t)) with
           | ODone => r = COk tt /\ t' = with_st (snd (exec P (Unlock (trim c)) (t_st t))) t1
           | OErr e => r = COk tt /\ t' = snd (eprintln (Lib e) t1)
           | _ => r = CPanic /\ t' = t1
           end
  end.

Definition body (sp : bool) : C unit :=
  let& primary_password := prompt_password (bs "Your primary password: ") sp in
  if length primary_password <? 6 then eprintln (Text TOO_SHORT)
  else let& r := api_res (unlock P primary_password) in
       match r with Err e => eprintln (Lib e) | _ => cret tt end.

Lemma loop_eq f sp t : unlock_loop (S f) P sp t = if unlocked (t_st t) then (COk tt, t) else (let& _ := body sp in unlock_loop f P sp) t.
Proof.
  cbn [unlock_loop]. destruct (unlocked (t_st t)); [reflexivity|]. unfold body, cbind.
  destruct (prompt_password _ sp t) as [[pp|m| |] t1]; try reflexivity.
Qed.

Lemma rest_entered sp t es : remaining sp t es -> entered sp t es \/ entered sp t [Some []] /\ es = [] /\ sp = true.
Proof. intros [H|(-> & -> & H)]; [left; exact H|right]. split; [apply entered_end, H|auto]. Qed.

Lemma body_round sp t x es : entered sp t (x :: es) -> exists t' r, body sp t = (r, t') /\ round sp x t t' r /\ remaining sp t' es.
Proof.
  intros H. destruct (prompt_entered (bs "Your primary password: ") sp t x es H) as (t1 & E & Hp & Hr).
  unfold body, cbind. rewrite E. destruct x as [c|]; [|exists t1, CPanic; cbn; auto].
  unfold round. assert (remaining sp t1 es) as Hr' by exact Hr.
  destruct (length (trim c) <? 6) eqn:El.
  { eexists _, _. split; [reflexivity|]. split; [exists t1; split; [exact Hp|split; reflexivity]|exact Hr]. }
  rewrite unlock_api, (pr_st _ _ _ _ Hp).
  destruct (unlock_cases P (trim c) (t_st t)) as [[E1 _]|[E1 E2]].
  - rewrite E1. cbn [fst snd]. eexists _, _. split; [reflexivity|]. split; [exists t1; split; [exact Hp|split; reflexivity]|exact Hr].
  - rewrite E2. assert (with_st (t_st t) t1 = t1) as -> by (rewrite <- (pr_st _ _ _ _ Hp); apply with_st_same). destruct (fst (exec P (Unlock (trim c)) (t_st t))) eqn:E3; try contradiction;
      (eexists _, _; split; [reflexivity|]; split; [exists t1; split; [exact Hp|split; reflexivity]|exact Hr]).
Qed.

Lemma prompted_asked sp t t' : prompted (bs "Your primary password: ") sp t t' -> asked 1 sp t t'.
Proof. intros [_ H1 H2 H3 H4 H5 H6 H7 _]. constructor; try assumption. Qed.
Lemma asked_refl sp t : asked 0 sp t t.
Proof. constructor; try (intros; reflexivity). destruct sp; cbn; rewrite app_nil_r; reflexivity. Qed.
Lemma asked_trans n m sp t t1 t2 : asked n sp t t1 -> asked m sp t1 t2 -> asked (n + m) sp t t2.
Proof.
  intros [A1 A2 A3 A4 A5 A6 A7] [B1 B2 B3 B4 B5 B6 B7]. constructor; try congruence; try (intros H; rewrite ?B1, ?B2; auto).
  rewrite B6, A6, <- app_assoc. f_equal. destruct sp; [|reflexivity]. rewrite repeat_app, concat_app. reflexivity.
Qed.

Lemma rejected_round sp c m t t' r : rejected P (t_st t) c m -> round sp (Some c) t t' r ->
  r = COk tt /\ t_st t' = t_st t /\ t_err t' = t_err t ++ [m] /\ asked 1 sp t t'.
Proof.
  intros H (t1 & Hp & Hr). pose proof (prompted_asked _ _ _ Hp) as Ha. destruct H as [c Hc|c e Hc He].
  - destruct (length (trim c) <? 6) eqn:El; [|lia]. destruct Hr as [-> ->]. cbn. rewrite (pr_st _ _ _ _ Hp), (pr_err _ _ _ _ Hp).
    repeat split; apply Ha.
  - destruct (length (trim c) <? 6) eqn:El; [lia|]. rewrite He in Hr. destruct Hr as [-> ->]. cbn.
    rewrite (pr_st _ _ _ _ Hp), (pr_err _ _ _ _ Hp). repeat split; apply Ha.
Qed.

(** Rejected candidates are reported, then the loop continues with the same state. *)
Lemma loop_skip sp bad : forall msgs t es f, unlocked (t_st t) = false ->
  Forall2 (rejected P (t_st t)) bad msgs -> entered sp t (map Some bad ++ es) -> es <> [] ->
  exists t', unlock_loop (length bad + f) P sp t = unlock_loop f P sp t' /\
    t_st t' = t_st t /\ t_err t' = t_err t ++ msgs /\ entered sp t' es /\ asked (length bad) sp t t'.
Proof.
  induction bad as [|c bad IH]; intros msgs t es f Hu HF He Hes; inversion HF as [|? m ? msgs' Hm HF']; subst.
  - exists t. rewrite app_nil_r. repeat split; try assumption. apply (asked_refl sp t).
  - cbn [length app map] in *. change (S (length bad) + f) with (S (length bad + f)). rewrite loop_eq, Hu.
    destruct (body_round sp t _ _ He) as (t1 & r & E & Hround & Hr).
    destruct (rejected_round _ _ _ _ _ _ Hm Hround) as (-> & E1 & E2 & A1).
    unfold cbind. rewrite E. destruct Hr as [Hr|(_ & Hr & _)].
    + destruct (IH msgs' t1 es f) as (t' & H1 & H2 & H3 & H4 & A2); try assumption; [congruence|rewrite E1; exact HF'|].
      exists t'. rewrite H1, H2, H3, E1, E2, <- app_assoc. pose proof (asked_trans _ _ _ _ _ _ A1 A2). auto.
    + destruct bad; [destruct es; [contradiction|discriminate Hr]|discriminate Hr].
Qed.

(** Nothing but rejected candidates: the program never continues. *)
Lemma loop_stuck sp : forall f t bad msgs, unlocked (t_st t) = false -> Forall2 (rejected P (t_st t)) bad msgs ->
  entered sp t (map Some bad) -> fst (unlock_loop f P sp t) = CStuck /\ t_st (snd (unlock_loop f P sp t)) = t_st t.
Proof.
  induction f as [|f IH]; intros t bad msgs Hu HF He.
  - cbn [unlock_loop]. rewrite Hu. auto.
  - rewrite loop_eq, Hu. inversion HF as [|c m bad' msgs' Hm HF']; subst.
    { destruct sp; [destruct He as ([|? ?] & Hn & _ & _ & He); [contradiction|discriminate He]|].
      cbn [entered map] in He. unfold cbind, body, cbind. rewrite prompt_waits by exact He. auto. }
    destruct (body_round sp t _ _ He) as (t1 & r & E & Hround & Hr).
    destruct (rejected_round _ _ _ _ _ _ Hm Hround) as (-> & E1 & E2 & _). unfold cbind. rewrite E. rewrite <- E1 in HF' |- *.
    destruct Hr as [Hr|(-> & Hr & Hin)].
    + apply (IH t1 bad' msgs'); [congruence|exact HF'|exact Hr].
    + apply (IH t1 [[]] [Text TOO_SHORT]); [congruence| |apply entered_end, Hin].
      constructor; [|constructor]. apply too_short. cbn. lia.
Qed.

(** What the first entry that is not rejected does. *)
Lemma loop_last sp t x es f : unlocked (t_st t) = false -> entered sp t (x :: es) -> (forall c m, x = Some c -> ~ rejected P (t_st t) c m) ->
  match x with
  | None => fst (unlock_loop (S f) P sp t) = CPanic /\ t_st (snd (unlock_loop (S f) P sp t)) = t_st t
  | Some c =>
      6 <= length (trim c) /\
      t_st (snd (unlock_loop (S f) P sp t)) = snd (exec P (Unlock (trim c)) (t_st t)) /\
      (fst (unlock_loop (S f) P sp t) = COk tt /\ fst (exec P (Unlock (trim c)) (t_st t)) = ODone /\
       t_err (snd (unlock_loop (S f) P sp t)) = t_err t /\ remaining sp (snd (unlock_loop (S f) P sp t)) es /\
       asked 1 sp t (snd (unlock_loop (S f) P sp t)) \/
       fst (unlock_loop (S f) P sp t) = CPanic /\ fst (exec P (Unlock (trim c)) (t_st t)) = OPanic)
  end.
Proof.
  intros Hu He Hx. rewrite loop_eq, Hu. destruct (body_round sp t _ _ He) as (t1 & r & E & Hround & Hr).
  unfold cbind. rewrite E. unfold round in Hround. destruct x as [c|].
  - destruct Hround as (t2 & Hp & Hround). destruct (length (trim c) <? 6) eqn:El.
    { exfalso. refine (Hx c _ eq_refl (too_short _ _ _ _)). lia. }
    split; [lia|].
    destruct (unlock_cases P (trim c) (t_st t)) as [[E1 (key & h & Hs & _)]|[E1 E2]].
    + rewrite E1 in Hround. destruct Hround as [-> ->]. set (s' := snd (exec P _ _)) in *.
      assert (unlock_loop f P sp (with_st s' t2) = (COk tt, with_st s' t2)) as ->.
      { assert (unlocked s' = true) as Hul by (unfold unlocked; unfold secrets in Hs; injection Hs as -> _ _; reflexivity).
        destruct f; [cbn [unlock_loop]|rewrite loop_eq]; cbn [with_st t_st]; rewrite Hul; reflexivity. }
      cbn [fst snd with_st t_st t_err]. split; [reflexivity|]. left. rewrite (pr_err _ _ _ _ Hp).
      repeat split; try assumption; apply (prompted_asked _ _ _ Hp).
    + destruct (fst (exec P (Unlock (trim c)) (t_st t))) eqn:E3; try contradiction;
        try (cbn [exec] in E3; unfold as_out in E3; cbn [fst] in E3; destruct (fst (unlock P (trim c) (t_st t))); discriminate E3).
      * exfalso. refine (Hx c _ eq_refl (wrong _ _ _ _ _ E3)). lia.
      * destruct Hround as [-> ->]. cbn [fst snd]. rewrite E2. split; [apply (pr_st _ _ _ _ Hp)|]. right. auto.
  - destruct Hround as [-> Hp]. cbn. split; [reflexivity|apply (pr_st _ _ _ _ Hp)].
Qed.

(** Entries are all rejected, or there is a first one that is not. *)
Lemma rejected_dec s c : (exists m, rejected P s c m) \/ forall m, ~ rejected P s c m.
Proof.
  destruct (Nat.lt_ge_cases (length (trim c)) 6) as [H|H]; [left; eexists; apply too_short, H|].
  destruct (fst (exec P (Unlock (trim c)) s)) eqn:E;
    try (right; intros m Hm; inversion Hm; subst; [lia|congruence]). left. eexists. apply wrong; eassumption.
Qed.
Lemma first_accepted s (es : list (option bytes)) : exists bad msgs rest, Forall2 (rejected P s) bad msgs /\ es = map Some bad ++ rest /\
  match rest with [] => True | Some c :: _ => forall m, ~ rejected P s c m | None :: _ => True end.
Proof.
  induction es as [|[c|] es (bad & msgs & rest & HF & -> & Hr)].
  - exists [], [], []. repeat split. constructor.
  - destruct (rejected_dec s c) as [[m Hm]|Hm].
    + exists (c :: bad), (m :: msgs), rest. repeat split; [constructor; assumption|exact Hr].
    + exists [], [], (Some c :: map Some bad ++ rest). repeat split; [constructor|exact Hm].
  - exists [], [], (None :: map Some bad ++ rest). repeat split. constructor.
Qed.

(** [ensure_unlocked_passwords] *)
Lemma ensure_new sp t : initialized (t_st t) = false -> ensure_unlocked P sp t = (CErr (Lib StorageNotInitialized), t).
Proof. intros H. unfold ensure_unlocked. rewrite H. reflexivity. Qed.
Lemma ensure_done sp t : initialized (t_st t) = true -> unlocked (t_st t) = true -> ensure_unlocked P sp t = (COk tt, t).
Proof. intros H Hu. unfold ensure_unlocked. rewrite H. cbn [negb]. rewrite loop_eq, Hu. reflexivity. Qed.

Lemma ensure_asks sp t bad msgs x es : initialized (t_st t) = true -> unlocked (t_st t) = false ->
  entered sp t (map Some bad ++ x :: es) -> Forall2 (rejected P (t_st t)) bad msgs ->
  (forall c m, x = Some c -> ~ rejected P (t_st t) c m) ->
  match x with
  | None => fst (ensure_unlocked P sp t) = CPanic /\ t_st (snd (ensure_unlocked P sp t)) = t_st t
  | Some c =>
      6 <= length (trim c) /\
      t_st (snd (ensure_unlocked P sp t)) = snd (exec P (Unlock (trim c)) (t_st t)) /\
      (fst (ensure_unlocked P sp t) = COk tt /\ fst (exec P (Unlock (trim c)) (t_st t)) = ODone /\
       t_err (snd (ensure_unlocked P sp t)) = t_err t ++ msgs /\ remaining sp (snd (ensure_unlocked P sp t)) es /\
       asked (S (length bad)) sp t (snd (ensure_unlocked P sp t)) \/
       fst (ensure_unlocked P sp t) = CPanic /\ fst (exec P (Unlock (trim c)) (t_st t)) = OPanic)
  end.
Proof.
  intros Hi Hu He HF Hx. unfold ensure_unlocked. rewrite Hi. cbn [negb].
  destruct (entered_exist sp t) as (es' & He' & Hlen). pose proof (entered_unique _ _ _ _ He He'). subst es'.
  rewrite app_length, map_length in Hlen. cbn [length] in Hlen.
  set (n := S (length (t_stdin t) + length (t_tty t))) in *.
  replace n with (length bad + S (n - length bad - 1)) by lia. generalize (n - length bad - 1). intros f. clear Hlen n He'.
  destruct (loop_skip sp bad msgs t (x :: es) (S f) Hu HF He ltac:(discriminate)) as (t' & -> & E1 & E2 & He' & A).
  pose proof (loop_last sp t' x es f) as H. rewrite E1, E2 in H. specialize (H Hu He' Hx).
  destruct x as [c|]; [|exact H]. destruct H as (H1 & H2 & [(H3 & H4 & H5 & H6 & H7)|H3]); (split; [exact H1|]; split; [exact H2|]); [left|right; exact H3].
  repeat split; try assumption; pose proof (asked_trans _ _ _ _ _ _ A H7) as A'; rewrite Nat.add_1_r in A'; apply A'.
Qed.
Lemma ensure_waits sp t bad msgs : initialized (t_st t) = true -> unlocked (t_st t) = false ->
  entered sp t (map Some bad) -> Forall2 (rejected P (t_st t)) bad msgs ->
  fst (ensure_unlocked P sp t) = CStuck /\ t_st (snd (ensure_unlocked P sp t)) = t_st t.
Proof.
  intros Hi Hu He HF. unfold ensure_unlocked. rewrite Hi. cbn [negb]. exact (loop_stuck sp _ t bad msgs Hu HF He).
Qed.

(** All outcomes. *)
Lemma ensure_cases sp t : let '(r, t') := ensure_unlocked P sp t in
  (r = CErr (Lib StorageNotInitialized) /\ t' = t /\ initialized (t_st t) = false) \/
  initialized (t_st t) = true /\
  ((r = COk tt /\ t' = t /\ unlocked (t_st t) = true) \/
   unlocked (t_st t) = false /\
   ((r = COk tt /\ exists c es, entered sp t es /\ In (Some c) es /\ 6 <= length (trim c) /\
       exec P (Unlock (trim c)) (t_st t) = (ODone, t_st t')) \/
    ((r = CPanic \/ r = CStuck) /\ t_st t' = t_st t))).
Proof.
  destruct (initialized (t_st t)) eqn:Hi; [|rewrite ensure_new by exact Hi; left; auto].
  destruct (unlocked (t_st t)) eqn:Hu; [rewrite ensure_done by assumption; right; split; [reflexivity|]; left; auto|].
  destruct (entered_exist sp t) as (es & He & _).
  destruct (first_accepted (t_st t) es) as (bad & msgs & rest & HF & -> & Hr).
  destruct rest as [|x rest].
  - rewrite app_nil_r in He. destruct (ensure_waits sp t bad msgs Hi Hu He HF) as [E1 E2].
    destruct (ensure_unlocked P sp t) as [r t']. cbn [fst snd] in *. subst r. right. split; [reflexivity|]. right. auto.
  - pose proof (ensure_asks sp t bad msgs x rest Hi Hu He HF) as H.
    destruct (ensure_unlocked P sp t) as [r t']. cbn [fst snd] in H. right. split; [reflexivity|]. right. split; [reflexivity|].
    destruct x as [c|].
    + destruct H as (Hl & Est & [(-> & E1 & _)|(-> & E1)]).
      * intros c' m [= <-]. apply Hr.
      * left. split; [reflexivity|]. exists c, (map Some bad ++ Some c :: rest). split; [exact He|].
        split; [apply in_app_iff; right; left; reflexivity|]. split; [exact Hl|]. rewrite Est, <- E1. apply surjective_pairing.
      * right. split; [auto|]. rewrite Est. destruct (unlock_cases P (trim c) (t_st t)) as [[E2 _]|[_ E2]]; [congruence|exact E2].
    + destruct H as [-> E1]; [discriminate|]. right. auto.
Qed.
End unlock.
