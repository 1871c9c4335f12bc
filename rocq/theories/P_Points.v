(** Moments in the life of a process: facts that hold for all programs, and rules to prove facts for one. *)
From stdpp Require Import gmap.
From Verif Require Import M_Base M_Utf8 M_Prims M_Types M_Recovery M_Json M_Storage M_Passwords M_Cli M_Steps.

(** * Programs do the same thing when started again *)

Lemma acts_once {A} (c : C A) t r1 t1 r2 t2 : acts c t r1 t1 -> acts c t r2 t2 -> r1 = r2 /\ t1 = t2.
Proof. intros [H1 _] [H2 _]. rewrite H1 in H2. injection H2 as <- <-. auto. Qed.

Lemma loop_once {A B} (E : A -> term -> cres (A + B) -> term -> Prop) :
  (forall a t r1 t1 r2 t2, E a t r1 t1 -> E a t r2 t2 -> r1 = r2 /\ t1 = t2) ->
  forall a t r1 t1, loop_ends E a t r1 t1 -> forall r2 t2, loop_ends E a t r2 t2 -> r1 = r2 /\ t1 = t2.
Proof.
  intros HE a t r1 t1 H. induction H as [a t y t' r t'' H _ IH|a t b t' H|a t m t' H|a t t' H]; intros r2 t2 H2;
    inversion H2 as [? ? y2 t'2 ? ? G1 G2|? ? b2 ? G1|? ? m2 ? G1|? ? ? G1]; subst; destruct (HE _ _ _ _ _ _ H G1) as [E1 E2];
    try discriminate E1; try (injection E1 as <-); subst; auto.
Qed.

Lemma completes_once {A} (p : prog A) : forall t r1 t1 r2 t2,
  completes p t r1 t1 -> completes p t r2 t2 -> r1 = r2 /\ t1 = t2.
Proof.
  induction p as [A a|A m|A|A B p IHp k IHk|A B body IHb a|A p IHp|A m|b| |b|m| | | | |]; intros t r1 t1 r2 t2; cbn [completes];
    try (intros [-> ->] [-> ->]; auto; fail); try apply acts_once.
  - intros [(a & u & H1 & H2)|[(m & H1 & ->)|(H1 & ->)]] [(a' & u' & G1 & G2)|[(m' & G1 & ->)|(G1 & ->)]];
      destruct (IHp _ _ _ _ _ H1 G1) as [E1 E2]; try discriminate E1; try (injection E1 as <-); subst; auto.
    exact (IHk _ _ _ _ _ _ H2 G2).
  - intros H G. exact (loop_once _ IHb _ _ _ _ H _ _ G).
  - intros [(a & H1 & ->)|[(m & H1 & ->)|(H1 & ->)]] [(a' & G1 & ->)|[(m' & G1 & ->)|(G1 & ->)]];
      destruct (IHp _ _ _ _ _ H1 G1) as [E1 E2]; try discriminate E1; try (injection E1 as <-); subst; auto.
Qed.

Lemma never_stuck {A} (p : prog A) : forall t r t', completes p t r t' -> r <> CStuck.
Proof.
  induction p as [A a|A m|A|A B p IHp k IHk|A B body IHb a|A p IHp|A m|b| |b|m| | | | |]; intros t r t';
    try (intros [-> _]; discriminate); try (intros [_ H]; exact H).
  - intros [(a & u & H1 & H2)|[(m & H1 & ->)|(H1 & ->)]]; [eauto|discriminate..].
  - cbn [completes]. induction 1 as [a t y t1 r t' H _ IH|a t b t' H|a t m t' H|a t t' H]; [exact IH|discriminate..].
  - intros [(a & H1 & ->)|[(m & H1 & ->)|(H1 & ->)]]; discriminate.
Qed.

(** * What every action does to the terminal in every program *)

Section path.
  Context (R : term -> term -> Prop).
  Context (Rrefl : forall t, R t t) (Rtrans : forall a b c, R a b -> R b c -> R a c).
  Context (Ract : forall A (p : prog A) t r t', match p with
    | Call _ | Print _ | Flush | Direct _ | Complain _ | Confirm | Question | Typed | Stdin | Readline => completes p t r t' -> R t t'
    | _ => True end).

  Lemma path_ends {A} (p : prog A) : forall t r t', completes p t r t' -> R t t'.
  Proof.
    induction p as [A a|A m|A|A B p IHp k IHk|A B body IHb a|A p IHp|A m|b| |b|m| | | | |]; intros t r t';
      try (intros [_ ->]; apply Rrefl; fail); try (apply (Ract _ (_ : prog _))).
    - intros [(a & u & H1 & H2)|[(m & H1 & ->)|(H1 & ->)]]; eauto.
    - cbn [completes]. induction 1 as [a t y t1 r t' H _ IH|a t b t' H|a t m t' H|a t t' H]; eauto.
    - intros [(a & H1 & ->)|[(m & H1 & ->)|(H1 & ->)]]; eauto.
    - exact (Ract _ (Call m) t r t').
    - exact (Ract _ (Print b) t r t').
    - exact (Ract _ Flush t r t').
    - exact (Ract _ (Direct b) t r t').
    - exact (Ract _ (Complain m) t r t').
    - exact (Ract _ Confirm t r t').
    - exact (Ract _ Question t r t').
    - exact (Ract _ Typed t r t').
    - exact (Ract _ Stdin t r t').
    - exact (Ract _ Readline t r t').
  Qed.
  Lemma path_during {A} (p : prog A) : forall t pt, during p t pt -> R t (pt_term pt).
  Proof.
    induction p as [A a|A m|A|A B p IHp k IHk|A B body IHb a|A p IHp|A m|b| |b|m| | | | |]; intros t pt; cbn [during];
      try (intros ->; apply Rrefl); try tauto; eauto.
    - intros [H|(a & u & H1 & H2)]; [eauto|]. eapply Rtrans; [exact (path_ends p _ _ _ H1)|eauto].
    - induction 1 as [a t pt H|a t a1 t1 pt H _ IH]; [eauto|]. eapply Rtrans; [exact (path_ends _ _ _ _ H)|exact IH].
  Qed.
  Lemma path_after {A} (p : prog A) : forall t pt r t', during p t pt -> completes p t r t' -> R (pt_term pt) t'.
  Proof.
    induction p as [A a|A m|A|A B p IHp k IHk|A B body IHb a|A p IHp|A m|b| |b|m| | | | |]; intros t pt r t'.
    1-3: intros [].
    - intros [H|(a & u & H1 & H2)] [(a' & u' & G1 & G2)|[(m' & G1 & ->)|(G1 & ->)]]; try (eauto; fail).
      + eapply Rtrans; [exact (IHp _ _ _ _ H G1)|exact (path_ends _ _ _ _ G2)].
      + destruct (completes_once _ _ _ _ _ _ H1 G1) as [E1 E2]. injection E1 as <-. subst u'. exact (IHk _ _ _ _ _ H2 G2).
      + destruct (completes_once _ _ _ _ _ _ H1 G1) as [E1 _]. discriminate E1.
      + destruct (completes_once _ _ _ _ _ _ H1 G1) as [E1 _]. discriminate E1.
    - cbn [during completes]. intros H. revert r t'. induction H as [a t pt H|a t a1 t1 pt H _ IH]; intros r t' G.
      + inversion G as [? ? y2 t'2 ? ? G1 G2|? ? b2 ? G1|? ? m2 ? G1|? ? ? G1]; subst; try exact (IHb _ _ _ _ _ H G1).
        eapply Rtrans; [exact (IHb _ _ _ _ _ H G1)|]. exact (path_ends (Loop body y2) _ _ _ G2).
      + inversion G as [? ? y2 t'2 ? ? G1 G2|? ? b2 ? G1|? ? m2 ? G1|? ? ? G1]; subst;
          destruct (completes_once _ _ _ _ _ _ H G1) as [E1 E2]; try discriminate E1. injection E1 as <-. subst. exact (IH _ _ G2).
    - intros H [(a & H1 & ->)|[(m & H1 & ->)|(H1 & ->)]]; eauto.
    - intros -> H. exact (path_ends (Call m) _ _ _ H).
    - intros -> H. exact (path_ends (Print b) _ _ _ H).
    - intros -> H. exact (path_ends Flush _ _ _ H).
    - intros -> H. exact (path_ends (Direct b) _ _ _ H).
    - intros -> H. exact (path_ends (Complain m) _ _ _ H).
    - intros -> H. exact (path_ends Confirm _ _ _ H).
    - intros -> H. exact (path_ends Question _ _ _ H).
    - intros -> H. exact (path_ends Typed _ _ _ H).
    - intros -> H. exact (path_ends Stdin _ _ _ H).
    - intros -> H. exact (path_ends Readline _ _ _ H).
  Qed.
End path.

(** * What is written stays written *)

Definition grows (t t' : term) : Prop :=
  (exists s, t_shown t' = t_shown t ++ s) /\ exists ms, t_err t' = t_err t ++ ms.
Lemma grows_refl t : grows t t.
Proof. split; exists []; rewrite app_nil_r; reflexivity. Qed.
Lemma grows_trans a b c : grows a b -> grows b c -> grows a c.
Proof.
  intros [(s2 & H2) (s3 & H3)] [(u2 & G2) (u3 & G3)]. split.
  - exists (s2 ++ u2). rewrite G2, H2, <- app_assoc. reflexivity.
  - exists (s3 ++ u3). rewrite G3, H3, <- app_assoc. reflexivity.
Qed.
Lemma grows_same t t' : t_shown t' = t_shown t -> t_err t' = t_err t -> grows t t'.
Proof. intros H1 H3. unfold grows. rewrite H1, H3. apply grows_refl. Qed.
Lemma grows_act A (p : prog A) t r t' : match p with
    | Call _ | Print _ | Flush | Direct _ | Complain _ | Confirm | Question | Typed | Stdin | Readline => completes p t r t' -> grows t t'
    | _ => True end.
Proof.
  destruct p as [A a|A m|A|A B p k|A B body a|A p|A m|b| |b|m| | | | |]; try exact I; intros [H _].
  - unfold api_res in H. destruct (m (t_st t)) as [x s]. injection H as _ <-. apply grows_same; reflexivity.
  - unfold print in H. destruct (last_line _) as [d x]. injection H as _ <-. split; [exists d; reflexivity|exists []; rewrite app_nil_r; reflexivity].
  - injection H as _ <-. split; [eexists; reflexivity|exists []; rewrite app_nil_r; reflexivity].
  - injection H as _ <-. split; [eexists; reflexivity|exists []; rewrite app_nil_r; reflexivity].
  - injection H as _ <-. split; [exists []; rewrite app_nil_r; reflexivity|eexists; reflexivity].
  - unfold confirm in H. destruct (t_confirms t); injection H as _ <-; apply grows_same; reflexivity.
  - unfold ask in H. destruct (t_asks t); injection H as _ <-; apply grows_same; reflexivity.
  - unfold tty_password in H. destruct (t_tty t); injection H as _ <-; apply grows_same; reflexivity.
  - unfold stdin_line in H. destruct (read_line _). injection H as _ <-. apply grows_same; reflexivity.
  - unfold next_line in H. destruct (t_lines t); injection H as _ <-; apply grows_same; reflexivity.
Qed.
Lemma shown_before {A} (p : prog A) t pt : during p t pt -> grows t (pt_term pt).
Proof. apply (path_during grows grows_refl grows_trans grows_act). Qed.
Lemma shown_after {A} (p : prog A) t pt r t' : during p t pt -> completes p t r t' -> grows (pt_term pt) t'.
Proof. apply (path_after grows grows_refl grows_trans grows_act). Qed.
