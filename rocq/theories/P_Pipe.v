From stdpp Require Import gmap.
From Verif Require Import M_Base M_Utf8 M_Prims M_Types M_Recovery M_Json M_Storage M_Passwords M_Cli M_Steps M_Pipe S_Pipe P_Points.

Lemma begins_refl {A} (x : list A) : begins x x. Proof. exists []. rewrite app_nil_r. reflexivity. Qed.
Lemma begins_trans {A} (x y z : list A) : begins x y -> begins y z -> begins x z.
Proof. intros [u ->] [w ->]. exists (u ++ w). rewrite app_assoc. reflexivity. Qed.
Lemma begins_app {A} (x y : list A) : begins x (x ++ y). Proof. exists y. reflexivity. Qed.
Lemma begins_length {A} (x y : list A) : begins x y -> length x <= length y. Proof. intros [u ->]. rewrite app_length. lia. Qed.
Lemma begins_firstn {A} (x y : list A) n : begins x y -> length x <= n -> n < length y -> begins x (firstn n y) /\ begins (firstn n y) y /\ length (firstn n y) = n.
Proof.
  intros [u ->] H1 H2. split; [|split].
  - exists (firstn (n - length x) u). rewrite firstn_app. f_equal. apply firstn_all2. lia.
  - exists (skipn n (x ++ u)). symmetry. apply firstn_skipn.
  - apply firstn_length_le. lia.
Qed.

Definition out_begins (t t' : term) : Prop := begins (t_shown t) (t_shown t') /\ begins (t_err t) (t_err t').
Lemma grows_begins t t' : grows t t' <-> out_begins t t'.
Proof. reflexivity. Qed.
Lemma out_trans a b c : out_begins a b -> out_begins b c -> out_begins a c.
Proof. intros [H1 H2] [G1 G2]. split; eapply begins_trans; eauto. Qed.
Lemma out_fits L t t' : out_begins t t' -> fits L t' -> fits L t.
Proof. intros [H1 H2] [G1 G2]. apply begins_length in H1, H2. split; lia. Qed.
Lemma completes_out {A} (p : prog A) t r t' : completes p t r t' -> out_begins t t'.
Proof. intros H. apply grows_begins. exact (path_ends grows grows_refl grows_trans grows_act p t r t' H). Qed.

(** The three ways a write can go. *)
Lemma writing_cases {A} L (c : C A) t r t' : (forall t1 r1, c t = (r1, t1) -> t_err t1 = t_err t /\ t_st t1 = t_st t) ->
  fits L t -> acts (writing_to L c) t r t' ->
  (acts c t r t' /\ fits L t') \/
  (r = CPanic /\ exists r1 t1, c t = (r1, t1) /\ lim_out L < length (t_shown t1) /\ t' = with_out (firstn (lim_out L) (t_shown t1)) (t_buf t) t).
Proof.
  intros Hc [Ho He] [H Hs]. unfold writing_to in H. destruct (c t) as [r1 t1] eqn:Ec. destruct (Nat.leb_spec (length (t_shown t1)) (lim_out L)).
  - injection H as <- <-. left. split; [split; assumption|]. split; [assumption|]. rewrite (proj1 (Hc _ _ eq_refl)). exact He.
  - injection H as <- <-. right. split; [reflexivity|]. exists r1, t1. auto.
Qed.
Lemma print_keeps b t t1 r1 : print b t = (r1, t1) -> t_err t1 = t_err t /\ t_st t1 = t_st t.
Proof. unfold print. destruct (last_line _) as [d x]. injection 1 as _ <-. split; reflexivity. Qed.
Lemma flush_keeps t t1 r1 : flush_stdout t = (r1, t1) -> t_err t1 = t_err t /\ t_st t1 = t_st t.
Proof. injection 1 as _ <-. split; reflexivity. Qed.
Lemma direct_keeps b t t1 r1 : write_direct b t = (r1, t1) -> t_err t1 = t_err t /\ t_st t1 = t_st t.
Proof. injection 1 as _ <-. split; reflexivity. Qed.
Lemma print_grows b t t1 r1 : print b t = (r1, t1) -> begins (t_shown t) (t_shown t1).
Proof. unfold print. destruct (last_line _) as [d x]. injection 1 as _ <-. apply begins_app. Qed.
Lemma flush_grows t t1 r1 : flush_stdout t = (r1, t1) -> begins (t_shown t) (t_shown t1).
Proof. injection 1 as _ <-. apply begins_app. Qed.
Lemma direct_grows b t t1 r1 : write_direct b t = (r1, t1) -> begins (t_shown t) (t_shown t1).
Proof. injection 1 as _ <-. apply begins_app. Qed.

(** What happens with limited output: the same as ever, or the process stops at a moment where it cannot write. *)
Definition broken (L : limits) {A} (p : prog A) t (t' : term) : Prop := exists pt, during p t pt /\ cannot_write L pt t'.

Lemma write_broken L (c : C unit) t r1 t1 next : fits L t -> c t = (r1, t1) -> begins (t_shown t) (t_shown t1) -> lim_out L < length (t_shown t1) ->
  (exists b, next = Prints b) \/ next = Flushes \/ (exists b, next = Writes b) ->
  cannot_write L (mk_point next t) (with_out (firstn (lim_out L) (t_shown t1)) (t_buf t) t).
Proof.
  intros [Ho He] Hc Hb Hl Hn. destruct (begins_firstn _ _ _ Hb Ho Hl) as (H1 & H2 & H3). split; [reflexivity|].
  destruct Hn as [[b ->]|[-> |[b ->]]]; cbn; auto.
Qed.

Lemma limited {A} L (p : prog A) : forall t r t', fits L t -> completes_to L p t r t' ->
  (completes p t r t' /\ fits L t') \/ (r = CPanic /\ broken L p t t').
Proof.
  induction p as [A a|A m|A|A B p IHp k IHk|A B body IHb a|A p IHp|A m|b| |b|m| | | | |]; intros t r t' Hf;
    try (intros [-> ->]; left; split; [split; reflexivity|exact Hf]; fail).
  - cbn [completes_to]. intros [(a & u & H1 & H2)|[(m & H1 & ->)|(H1 & ->)]].
    + destruct (IHp _ _ _ Hf H1) as [[G1 F1]|[E _]]; [|discriminate E].
      destruct (IHk a _ _ _ F1 H2) as [[G2 F2]|[-> (pt & D & W)]].
      * left. split; [|exact F2]. left. eauto.
      * right. split; [reflexivity|]. exists pt. split; [|exact W]. right. eauto.
    + destruct (IHp _ _ _ Hf H1) as [[G1 F1]|[E _]]; [|discriminate E]. left. split; [|exact F1]. right. left. eauto.
    + destruct (IHp _ _ _ Hf H1) as [[G1 F1]|[_ (pt & D & W)]].
      * left. split; [|exact F1]. right. right. auto.
      * right. split; [reflexivity|]. exists pt. split; [left; exact D|exact W].
  - cbn [completes_to]. intros H. induction H as [a t y t1 r t' H _ IH|a t b t' H|a t m t' H|a t t' H].
    + destruct (IHb _ _ _ _ Hf H) as [[G1 F1]|[E _]]; [|discriminate E].
      destruct (IH F1) as [[G2 F2]|[-> (pt & D & W)]].
      * left. split; [|exact F2]. exact (loop_again _ _ _ _ _ _ _ G1 G2).
      * right. split; [reflexivity|]. exists pt. split; [|exact W]. eapply loop_later; [exact G1|exact D].
    + destruct (IHb _ _ _ _ Hf H) as [[G1 F1]|[E _]]; [|discriminate E]. left. split; [exact (loop_done _ _ _ _ _ G1)|exact F1].
    + destruct (IHb _ _ _ _ Hf H) as [[G1 F1]|[E _]]; [|discriminate E]. left. split; [exact (loop_fails _ _ _ _ _ G1)|exact F1].
    + destruct (IHb _ _ _ _ Hf H) as [[G1 F1]|[_ (pt & D & W)]].
      * left. split; [exact (loop_aborts _ _ _ _ G1)|exact F1].
      * right. split; [reflexivity|]. exists pt. split; [apply loop_now; exact D|exact W].
  - cbn [completes_to]. intros [(a & H1 & ->)|[(m & H1 & ->)|(H1 & ->)]].
    + destruct (IHp _ _ _ Hf H1) as [[G1 F1]|[E _]]; [|discriminate E]. left. split; [|exact F1]. left. eauto.
    + destruct (IHp _ _ _ Hf H1) as [[G1 F1]|[E _]]; [|discriminate E]. left. split; [|exact F1]. right. left. eauto.
    + destruct (IHp _ _ _ Hf H1) as [[G1 F1]|[_ (pt & D & W)]].
      * left. split; [|exact F1]. right. right. auto.
      * right. split; [reflexivity|]. exists pt. split; [exact D|exact W].
  - intros H. left. split; [exact H|]. destruct H as [H _]. unfold api_res in H. destruct (m (t_st t)) as [x s]. injection H as _ <-. exact Hf.
  - intros H. destruct (writing_cases L (print b) t r t' (fun _ _ => print_keeps b t _ _) Hf H) as [G|(-> & r1 & t1 & E & Hl & ->)]; [left; exact G|].
    right. split; [reflexivity|]. exists (mk_point (Prints b) t). split; [reflexivity|]. eapply write_broken; eauto using print_grows.
  - intros H. destruct (writing_cases L flush_stdout t r t' (fun _ _ => flush_keeps t _ _) Hf H) as [G|(-> & r1 & t1 & E & Hl & ->)]; [left; exact G|].
    right. split; [reflexivity|]. exists (mk_point Flushes t). split; [reflexivity|]. eapply write_broken; eauto using flush_grows.
  - intros H. destruct (writing_cases L (write_direct b) t r t' (fun _ _ => direct_keeps b t _ _) Hf H) as [G|(-> & r1 & t1 & E & Hl & ->)]; [left; exact G|].
    right. split; [reflexivity|]. exists (mk_point (Writes b) t). split; [reflexivity|]. eapply write_broken; eauto using direct_grows.
  - intros [H Hs]. unfold complaining_to, eprintln in H. cbn [t_err] in H. destruct (Nat.leb_spec (length (t_err t ++ [m])) (lim_err L)).
    + injection H as <- <-. left. split; [split; [reflexivity|exact Hs]|]. split; [exact (proj1 Hf)|assumption].
    + injection H as <- <-. right. split; [reflexivity|]. exists (mk_point (Complains m) t). split; [reflexivity|]. split; [reflexivity|].
      cbn. rewrite app_length in *. cbn in *. destruct Hf. split; [reflexivity|]. split; [reflexivity|lia].
  - intros H. left. split; [exact H|]. destruct H as [H _]. unfold confirm in H. destruct (t_confirms t); injection H as _ <-; exact Hf.
  - intros H. left. split; [exact H|]. destruct H as [H _]. unfold ask in H. destruct (t_asks t); injection H as _ <-; exact Hf.
  - intros H. left. split; [exact H|]. destruct H as [H _]. unfold tty_password in H. destruct (t_tty t); injection H as _ <-; exact Hf.
  - intros H. left. split; [exact H|]. destruct H as [H _]. unfold stdin_line in H. destruct (read_line _). injection H as _ <-; exact Hf.
  - intros H. left. split; [exact H|]. destruct H as [H _]. unfold next_line in H. destruct (t_lines t); injection H as _ <-; exact Hf.
Qed.

(** If everything can be written, the limits make no difference; otherwise the process panics. *)
Lemma writing_fine {A} L (c : C A) t r t' : acts c t r t' -> fits L t' -> acts (writing_to L c) t r t'.
Proof.
  intros [H Hs] [Ho He]. split; [|exact Hs]. unfold writing_to. rewrite H. destruct (Nat.leb_spec (length (t_shown t')) (lim_out L)); [reflexivity|lia].
Qed.
Lemma fine_step L t t1 t' : out_begins t t1 -> out_begins t1 t' -> fits L t' -> fits L t1.
Proof. intros _ H. apply out_fits, H. Qed.
Lemma unlimited {A} L (p : prog A) : forall t r t', completes p t r t' -> fits L t' -> completes_to L p t r t'.
Proof.
  induction p as [A a|A m|A|A B p IHp k IHk|A B body IHb a|A p IHp|A m|b| |b|m| | | | |]; intros t r t' H Hf; try exact H; cbn [completes] in H; cbn [completes_to].
  - destruct H as [(a & u & H1 & H2)|[(m & H1 & ->)|(H1 & ->)]].
    + left. exists a, u. split; [|exact (IHk _ _ _ _ H2 Hf)]. apply IHp; [exact H1|]. exact (out_fits _ _ _ (completes_out _ _ _ _ H2) Hf).
    + right. left. eauto.
    + right. right. eauto.
  - induction H as [a t y t1 r t' H H' IH|a t b t' H|a t m t' H|a t t' H].
    + apply (loop_again _ _ _ y t1); [|exact (IH Hf)]. apply IHb; [exact H|].
      exact (out_fits _ _ _ (completes_out (Loop body y) _ _ _ H') Hf).
    + apply loop_done; eauto.
    + apply loop_fails; eauto.
    + apply loop_aborts; eauto.
  - destruct H as [(a & H1 & ->)|[(m & H1 & ->)|(H1 & ->)]]; eauto 6.
  - apply writing_fine; assumption.
  - apply writing_fine; assumption.
  - apply writing_fine; assumption.
  - destruct H as [H Hs]. split; [|exact Hs]. unfold complaining_to. rewrite H. destruct Hf as [_ He]. destruct (Nat.leb_spec (length (t_err t')) (lim_err L)); [reflexivity|lia].
Qed.

Lemma fits_dec L t : {fits L t} + {~ fits L t}.
Proof. unfold fits. destruct (le_dec (length (t_shown t)) (lim_out L)), (le_dec (length (t_err t)) (lim_err L)); try (right; lia). left. auto. Qed.

Lemma writing_over (c : C unit) L t r t' : acts c t r t' -> t_err t' = t_err t -> fits L t -> ~ fits L t' -> exists t1, acts (writing_to L c) t CPanic t1.
Proof.
  intros [H Hs] He [F1 F2] F3. unfold writing_to. eexists. split; [|discriminate]. rewrite H.
  destruct (Nat.leb_spec (length (t_shown t')) (lim_out L)); [|reflexivity]. destruct F3. split; [assumption|]. rewrite He. exact F2.
Qed.
Lemma overflow {A} L (p : prog A) : forall t r t', completes p t r t' -> fits L t -> ~ fits L t' -> exists t1, completes_to L p t CPanic t1.
Proof.
  induction p as [A a|A m|A|A B p IHp k IHk|A B body IHb a|A p IHp|A m|b| |b|m| | | | |]; intros t r t' H Hf Hn; cbn [completes] in H; cbn [completes_to];
    try (destruct H as [_ ->]; contradiction).
  - destruct H as [(a & u & H1 & H2)|[(m & H1 & ->)|(H1 & ->)]].
    + destruct (fits_dec L u) as [F|F].
      * destruct (IHk _ _ _ _ H2 F Hn) as [t1 G]. exists t1. left. exists a, u. split; [exact (unlimited L p _ _ _ H1 F)|exact G].
      * destruct (IHp _ _ _ H1 Hf F) as [t1 G]. exists t1. right. right. auto.
    + destruct (IHp _ _ _ H1 Hf Hn) as [t1 G]. exists t1. right. right. auto.
    + destruct (IHp _ _ _ H1 Hf Hn) as [t1 G]. exists t1. right. right. auto.
  - induction H as [a t y t1 r t' H H' IH|a t b t' H|a t m t' H|a t t' H].
    + destruct (fits_dec L t1) as [F|F].
      * destruct (IH F Hn) as [t2 G]. exists t2. apply (loop_again _ _ _ y t1); [exact (unlimited L _ _ _ _ H F)|exact G].
      * destruct (IHb _ _ _ _ H Hf F) as [t2 G]. exists t2. apply loop_aborts. exact G.
    + destruct (IHb _ _ _ _ H Hf Hn) as [t2 G]. exists t2. apply loop_aborts. exact G.
    + destruct (IHb _ _ _ _ H Hf Hn) as [t2 G]. exists t2. apply loop_aborts. exact G.
    + destruct (IHb _ _ _ _ H Hf Hn) as [t2 G]. exists t2. apply loop_aborts. exact G.
  - destruct H as [(a & H1 & ->)|[(m & H1 & ->)|(H1 & ->)]]; destruct (IHp _ _ _ H1 Hf Hn) as [t1 G]; exists t1; right; right; auto.
  - destruct Hn. destruct H as [H _]. unfold api_res in H. destruct (m (t_st t)) as [x s]. injection H as _ <-. exact Hf.
  - apply (writing_over (print b) L t r t' H); [exact (proj1 (print_keeps b t t' r (proj1 H)))|assumption..].
  - apply (writing_over flush_stdout L t r t' H); [exact (proj1 (flush_keeps t t' r (proj1 H)))|assumption..].
  - apply (writing_over (write_direct b) L t r t' H); [exact (proj1 (direct_keeps b t t' r (proj1 H)))|assumption..].
  - destruct H as [H Hs]. eexists. split; [|discriminate]. unfold complaining_to. rewrite H.
    destruct (Nat.leb_spec (length (t_err t')) (lim_err L)); [|reflexivity]. destruct Hn. injection H as _ <-. split; [exact (proj1 Hf)|assumption].
  - destruct Hn. destruct H as [H _]. unfold confirm in H. destruct (t_confirms t); injection H as _ <-; exact Hf.
  - destruct Hn. destruct H as [H _]. unfold ask in H. destruct (t_asks t); injection H as _ <-; exact Hf.
  - destruct Hn. destruct H as [H _]. unfold tty_password in H. destruct (t_tty t); injection H as _ <-; exact Hf.
  - destruct Hn. destruct H as [H _]. unfold stdin_line in H. destruct (read_line _). injection H as _ <-; exact Hf.
  - destruct Hn. destruct H as [H _]. unfold next_line in H. destruct (t_lines t); injection H as _ <-; exact Hf.
Qed.

Lemma limited_begins {A} L (p : prog A) : forall t r t' r1 t1, fits L t -> completes_to L p t r t' -> completes p t r1 t1 -> out_begins t' t1.
Proof.
  induction p as [A a|A m|A|A B p IHp k IHk|A B body IHb a|A p IHp|A m|b| |b|m| | | | |]; intros t r t' r1 t1 Hf H G;
    cbn [completes completes_to] in H, G; try (destruct H as [_ ->], G as [_ ->]; split; apply begins_refl);
    try (destruct (acts_once _ _ _ _ _ _ H G) as [_ <-]; split; apply begins_refl).
  - destruct G as [(a & u & G1 & G2)|[(m & G1 & ->)|(G1 & ->)]].
    + destruct H as [(a' & u' & H1 & H2)|[(m & H1 & ->)|(H1 & ->)]].
      * destruct (limited L p _ _ _ Hf H1) as [[K F]|[E _]]; [|discriminate E]. destruct (completes_once _ _ _ _ _ _ K G1) as [E <-]. injection E as <-.
        exact (IHk _ _ _ _ _ _ F H2 G2).
      * eapply out_trans; [exact (IHp _ _ _ _ _ Hf H1 G1)|exact (completes_out _ _ _ _ G2)].
      * eapply out_trans; [exact (IHp _ _ _ _ _ Hf H1 G1)|exact (completes_out _ _ _ _ G2)].
    + destruct H as [(a' & u' & H1 & H2)|[(m' & H1 & ->)|(H1 & ->)]]; [|exact (IHp _ _ _ _ _ Hf H1 G1)..].
      destruct (limited L p _ _ _ Hf H1) as [[K F]|[E _]]; [|discriminate E]. destruct (completes_once _ _ _ _ _ _ K G1) as [E _]. discriminate E.
    + destruct H as [(a' & u' & H1 & H2)|[(m' & H1 & ->)|(H1 & ->)]]; [|exact (IHp _ _ _ _ _ Hf H1 G1)..].
      destruct (limited L p _ _ _ Hf H1) as [[K F]|[E _]]; [|discriminate E]. destruct (completes_once _ _ _ _ _ _ K G1) as [E _]. discriminate E.
  - revert r1 t1 G.
    assert (forall a t r1 t1 r0 t0, loop_ends (fun x => completes (body x)) a t r1 t1 -> fits L t -> completes_to L (body a) t r0 t0 ->
      (forall y, r0 <> COk (inl y)) -> out_begins t0 t1) as Hlast.
    { intros a0 u r1 t1 r0 t0 G Hu H0 Hr. destruct G as [a0 u y u1 r1 t1 G G'|a0 u b t1 G|a0 u m t1 G|a0 u t1 G]; try exact (IHb _ _ _ _ _ _ Hu H0 G).
      eapply out_trans; [exact (IHb _ _ _ _ _ _ Hu H0 G)|exact (completes_out (Loop body y) _ _ _ G')]. }
    induction H as [a t y u r t' H _ IH|a t b t' H|a t m t' H|a t t' H]; intros r1 t1 G;
      try (refine (Hlast _ _ _ _ _ _ G Hf H _); discriminate).
    destruct (limited L (body a) _ _ _ Hf H) as [[K F]|[E _]]; [|discriminate E].
    inversion G as [? ? y2 t'2 ? ? G1 G2|? ? b2 ? G1|? ? m2 ? G1|? ? ? G1]; subst; destruct (completes_once _ _ _ _ _ _ K G1) as [E1 E2]; try discriminate E1.
    injection E1 as <-. subst. exact (IH F _ _ G2).
  - destruct G as [(a & G1 & ->)|[(m & G1 & ->)|(G1 & ->)]], H as [(a' & H1 & ->)|[(m' & H1 & ->)|(H1 & ->)]]; exact (IHp _ _ _ _ _ Hf H1 G1).
  - destruct (writing_cases L (print b) t r t' (fun _ _ => print_keeps b t _ _) Hf H) as [[K _]|(-> & r2 & t2 & E & Hl & ->)].
    + destruct (completes_once (Print b) _ _ _ _ _ K G) as [_ <-]. split; apply begins_refl.
    + destruct G as [G _]. rewrite E in G. injection G as <- <-. split; cbn.
      * exact (proj1 (proj2 (begins_firstn _ _ _ (print_grows _ _ _ _ E) (proj1 Hf) Hl))).
      * rewrite (proj1 (print_keeps _ _ _ _ E)). apply begins_refl.
  - destruct (writing_cases L flush_stdout t r t' (fun _ _ => flush_keeps t _ _) Hf H) as [[K _]|(-> & r2 & t2 & E & Hl & ->)].
    + destruct (completes_once Flush _ _ _ _ _ K G) as [_ <-]. split; apply begins_refl.
    + destruct G as [G _]. rewrite E in G. injection G as <- <-. split; cbn.
      * exact (proj1 (proj2 (begins_firstn _ _ _ (flush_grows _ _ _ E) (proj1 Hf) Hl))).
      * rewrite (proj1 (flush_keeps _ _ _ E)). apply begins_refl.
  - destruct (writing_cases L (write_direct b) t r t' (fun _ _ => direct_keeps b t _ _) Hf H) as [[K _]|(-> & r2 & t2 & E & Hl & ->)].
    + destruct (completes_once (Direct b) _ _ _ _ _ K G) as [_ <-]. split; apply begins_refl.
    + destruct G as [G _]. rewrite E in G. injection G as <- <-. split; cbn.
      * exact (proj1 (proj2 (begins_firstn _ _ _ (direct_grows _ _ _ _ E) (proj1 Hf) Hl))).
      * rewrite (proj1 (direct_keeps _ _ _ _ E)). apply begins_refl.
  - destruct H as [H _], G as [G _]. injection G as _ <-. unfold complaining_to, eprintln in H. cbn [t_err] in H.
    destruct (Nat.leb_spec (length (t_err t ++ [m])) (lim_err L)); injection H as _ <-; split; cbn; try apply begins_refl. apply begins_app.
Qed.

Lemma completes_to_once {A} L (p : prog A) : forall t r1 t1 r2 t2, completes_to L p t r1 t1 -> completes_to L p t r2 t2 -> r1 = r2 /\ t1 = t2.
Proof.
  induction p as [A a|A m|A|A B p IHp k IHk|A B body IHb a|A p IHp|A m|b| |b|m| | | | |]; intros t r1 t1 r2 t2; cbn [completes_to];
    try (intros [-> ->] [-> ->]; auto; fail); try apply acts_once.
  - intros [(a & u & H1 & H2)|[(m & H1 & ->)|(H1 & ->)]] [(a' & u' & G1 & G2)|[(m' & G1 & ->)|(G1 & ->)]];
      destruct (IHp _ _ _ _ _ H1 G1) as [E1 E2]; try discriminate E1; try (injection E1 as <-); subst; auto.
    exact (IHk _ _ _ _ _ _ H2 G2).
  - intros H G. exact (loop_once _ IHb _ _ _ _ H _ _ G).
  - intros [(a & H1 & ->)|[(m & H1 & ->)|(H1 & ->)]] [(a' & G1 & ->)|[(m' & G1 & ->)|(G1 & ->)]];
      destruct (IHp _ _ _ _ _ H1 G1) as [E1 E2]; try discriminate E1; try (injection E1 as <-); subst; auto.
Qed.
