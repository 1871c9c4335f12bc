(** Listing the moments of a process, for examples. *)
From stdpp Require Import gmap.
From Verif Require Import M_Base M_Utf8 M_Prims M_Types M_Storage M_Passwords S_Vault M_History S_Api M_Cli M_Steps T_Toy T_History T_Cli.

Definition act {A} (next : action) (c : C A) (t : term) : list point * (cres A * term) := ([mk_point next t], c t).
(** The moments in their order, and how it ends; loops are followed [n] times. *)
Fixpoint trace (n : nat) {A : Type} (p : prog A) : term -> list point * (cres A * term) :=
  match p in prog A return term -> list point * (cres A * term) with
  | Ret a => fun t => ([], (COk a, t))
  | Fail m => fun t => ([], (CErr m, t))
  | Abort => fun t => ([], (CPanic, t))
  | Bind p k => fun t =>
      let '(l, (r, t1)) := trace n p t in
      match r with
      | COk a => let '(l', e) := trace n (k a) t1 in (l ++ l', e)
      | CErr m => (l, (CErr m, t1))
      | CPanic => (l, (CPanic, t1))
      | CStuck => (l, (CStuck, t1))
      end
  | Loop body a => fun t =>
      (fix go k a t := match k with
       | 0 => ([], (CStuck, t))
       | S k =>
           let '(l, (r, t1)) := trace n (body a) t in
           match r with
           | COk (inl a') => let '(l', e) := go k a' t1 in (l ++ l', e)
           | COk (inr b) => (l, (COk b, t1))
           | CErr m => (l, (CErr m, t1))
           | CPanic => (l, (CPanic, t1))
           | CStuck => (l, (CStuck, t1))
           end
       end) n a t
  | Try p => fun t =>
      let '(l, (r, t1)) := trace n p t in
      (l, (match r with COk a => COk (inr a) | CErr m => COk (inl m) | CPanic => CPanic | CStuck => CStuck end, t1))
  | Call m => fun t => act (Calls (snd (m (t_st t)))) (api_res m) t
  | Print b => act (Prints b) (print b)
  | Flush => act Flushes flush_stdout
  | Direct b => act (Writes b) (write_direct b)
  | Complain m => act (Complains m) (eprintln m)
  | Confirm => act (Waits Answers) confirm
  | Question => act (Waits Answers) ask
  | Typed => act (Waits Secrets) tty_password
  | Stdin => act (Waits Input) stdin_line
  | Readline => act (Waits Commands) next_line
  end.
Lemma trace_sound n {A} (p : prog A) : forall t,
  let '(l, (r, t')) := trace n p t in (r <> CStuck -> completes p t r t') /\ forall pt, In pt l -> during p t pt.
Proof.
  assert (forall B (q : prog B) next (c : C B) t, (forall r t', completes q t r t' = acts c t r t') -> (forall pt, during q t pt = (pt = mk_point next t)) ->
    let '(l, (r, t')) := act next c t in (r <> CStuck -> completes q t r t') /\ forall pt, In pt l -> during q t pt) as HA.
  { intros B q next c t H1 H2. unfold act. destruct (c t) as [r t'] eqn:Ec. split; [intros Hr; rewrite H1; split; assumption|].
    intros pt [<-|[]]. rewrite H2. reflexivity. }
  induction p as [A a|A m|A|A B p IHp k IHk|A B body IH a|A p IHp| | | | | | | | | | ]; intros t; try (apply HA; reflexivity).
  - cbn. split; [split; reflexivity|intros pt []].
  - cbn. split; [split; reflexivity|intros pt []].
  - cbn. split; [split; reflexivity|intros pt []].
  - cbn [trace]. specialize (IHp t). destruct (trace n p t) as [l [r t1]]. destruct IHp as [I1 I2]. destruct r as [a|m| |].
    + specialize (IHk a t1). destruct (trace n (k a) t1) as [l' [r t']]. destruct IHk as [J1 J2]. split.
      * intros Hr. left. exists a, t1. split; [apply I1; discriminate|exact (J1 Hr)].
      * intros pt H. apply in_app_or in H. destruct H as [H|H]; [left; auto|]. right. exists a, t1. split; [apply I1; discriminate|auto].
    + split; [intros _; right; left; exists m; split; [apply I1; discriminate|reflexivity]|intros pt H; left; auto].
    + split; [intros _; right; right; split; [apply I1; discriminate|reflexivity]|intros pt H; left; auto].
    + split; [intros H; contradiction|intros pt H; left; auto].
  - cbn [trace completes during]. match goal with |- let '(_, _) := ?F n a t in _ => set (go := F) end.
    enough (forall k a t, let '(l, (r, t')) := go k a t in
      (r <> CStuck -> loop_ends (fun x => completes (body x)) a t r t') /\
      forall pt, In pt l -> loop_during (fun x => completes (body x)) (fun x => during (body x)) a t pt) as H by apply H.
    clear a t. unfold go. clear go. induction k as [|k IHk]; intros a t; [split; [intros H; contradiction|intros pt []]|].
    pose proof (IH a t) as Ha. destruct (trace n (body a) t) as [l [r t1]]. destruct Ha as [I1 I2]. destruct r as [[a'|b]|m| |].
    + specialize (IHk a' t1). match goal with |- let '(_, _) := (let '(_, _) := ?x in _) in _ => destruct x as [l' [r t']] end. destruct IHk as [J1 J2]. split.
      * intros Hr. eapply loop_again; [apply I1; discriminate|exact (J1 Hr)].
      * intros pt H. apply in_app_or in H. destruct H as [H|H]; [apply loop_now; auto|]. eapply loop_later; [apply I1; discriminate|auto].
    + split; [intros _; apply loop_done, I1; discriminate|intros pt H; apply loop_now; auto].
    + split; [intros _; apply loop_fails, I1; discriminate|intros pt H; apply loop_now; auto].
    + split; [intros _; apply loop_aborts, I1; discriminate|intros pt H; apply loop_now; auto].
    + split; [intros H; contradiction|intros pt H; apply loop_now; auto].
  - cbn [trace]. specialize (IHp t). destruct (trace n p t) as [l [r t1]]. destruct IHp as [I1 I2]. split; [|exact I2].
    intros Hr. destruct r as [a|m| |]; [left; exists a|right; left; exists m|right; right|contradiction]; (split; [apply I1; discriminate|reflexivity]).
Qed.

(** The moments of a process after some calls. *)
Definition moments {B : Type} (P : prims) (l : list op) (y : typing) (a : args) (k : list point -> B) : B :=
  final P l start (fun s => k (fst (trace 9 (main_p P toy_ext (bs "path") a) (typed y s)))).
Lemma moments_eq {B : Type} P l y a (k : list point -> B) :
  moments P l y a k = k (fst (trace 9 (main_p P toy_ext (bs "path") a) (typed y (snd (run P l start))))).
Proof. apply (final_run P l start (fun s => k (fst (trace 9 (main_p P toy_ext (bs "path") a) (typed y s))))). Qed.
Lemma a_moment P l y a (f : point -> bool) : moments P l y a (existsb f) = true ->
  exists pt, during (main_p P toy_ext (bs "path") a) (typed y (snd (run P l start))) pt /\ f pt = true.
Proof.
  rewrite moments_eq, existsb_exists. intros (pt & H1 & H2). exists pt. split; [|exact H2].
  pose proof (trace_sound 9 (main_p P toy_ext (bs "path") a) (typed y (snd (run P l start)))) as H.
  destruct (trace _ _ _) as [l' [r t']]. apply H, H1.
Qed.
