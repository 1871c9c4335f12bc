(** Running a program with limited output, for examples. *)
From stdpp Require Import gmap.
From Verif Require Import M_Base M_Utf8 M_Prims M_Types M_Storage M_Passwords S_Vault M_History S_Api M_Cli M_Steps M_Pipe T_Toy T_History T_Cli.

(** How it ends; loops are followed [n] times. *)
Fixpoint attempt (L : limits) (n : nat) {A : Type} (p : prog A) : term -> cres A * term :=
  match p in prog A return term -> cres A * term with
  | Ret a => fun t => (COk a, t)
  | Fail m => fun t => (CErr m, t)
  | Abort => fun t => (CPanic, t)
  | Bind p k => fun t =>
      let '(r, t1) := attempt L n p t in
      match r with COk a => attempt L n (k a) t1 | CErr m => (CErr m, t1) | CPanic => (CPanic, t1) | CStuck => (CStuck, t1) end
  | Loop body a => fun t =>
      (fix go k a t := match k with
       | 0 => (CStuck, t)
       | S k =>
           let '(r, t1) := attempt L n (body a) t in
           match r with COk (inl a') => go k a' t1 | COk (inr b) => (COk b, t1) | CErr m => (CErr m, t1) | CPanic => (CPanic, t1) | CStuck => (CStuck, t1) end
       end) n a t
  | Try p => fun t =>
      let '(r, t1) := attempt L n p t in
      (match r with COk a => COk (inr a) | CErr m => COk (inl m) | CPanic => CPanic | CStuck => CStuck end, t1)
  | Call m => api_res m
  | Print b => writing_to L (print b)
  | Flush => writing_to L flush_stdout
  | Direct b => writing_to L (write_direct b)
  | Complain m => complaining_to L (eprintln m)
  | Confirm => confirm
  | Question => ask
  | Typed => tty_password
  | Stdin => stdin_line
  | Readline => next_line
  end.
Lemma attempt_sound L n {A} (p : prog A) : forall t r t', attempt L n p t = (r, t') -> r <> CStuck -> completes_to L p t r t'.
Proof.
  induction p as [A a|A m|A|A B p IHp k IHk|A B body IH a|A p IHp| | | | | | | | | | ]; intros t r t' H Hr;
    try (injection H as <- <-; split; reflexivity); try (split; assumption).
  - cbn [attempt] in H. destruct (attempt L n p t) as [q t1] eqn:E. specialize (IHp t q t1 E). destruct q as [a|m| |].
    + left. exists a, t1. split; [apply IHp; discriminate|exact (IHk a t1 r t' H Hr)].
    + injection H as <- <-. right. left. exists m. split; [apply IHp; discriminate|reflexivity].
    + injection H as <- <-. right. right. split; [apply IHp; discriminate|reflexivity].
    + injection H as <- <-. contradiction.
  - cbn [attempt] in H. match type of H with ?F n a t = _ => set (go := F) in H end.
    enough (forall k a t, go k a t = (r, t') -> loop_ends (fun x => completes_to L (body x)) a t r t') as G by exact (G _ _ _ H).
    clear a t H. unfold go. clear go. induction k as [|k IHk]; intros a t H; [injection H as <- <-; contradiction|].
    destruct (attempt L n (body a) t) as [q t1] eqn:E. specialize (IH a t q t1 E). destruct q as [[a'|b]|m| |].
    + eapply loop_again; [apply IH; discriminate|exact (IHk _ _ H)].
    + injection H as <- <-. apply loop_done, IH. discriminate.
    + injection H as <- <-. apply loop_fails, IH. discriminate.
    + injection H as <- <-. apply loop_aborts, IH. discriminate.
    + injection H as <- <-. contradiction.
  - cbn [attempt] in H. destruct (attempt L n p t) as [q t1] eqn:E. specialize (IHp t q t1 E). injection H as <- <-.
    destruct q as [a|m| |]; [left; exists a|right; left; exists m|right; right|contradiction]; (split; [apply IHp; discriminate|reflexivity]).
Qed.

(** A process with limited output after some calls. *)
Definition attempting {B : Type} (P : prims) (l : list op) (y : typing) (a : args) (L : limits) (k : cres exit -> term -> B) : B :=
  final P l start (fun s => let '(r, t) := attempt L 9 (main_p P toy_ext (bs "path") a) (typed y s) in k r t).
Lemma attempting_eq {B : Type} P l y a L (k : cres exit -> term -> B) :
  attempting P l y a L k = let '(r, t) := attempt L 9 (main_p P toy_ext (bs "path") a) (typed y (snd (run P l start))) in k r t.
Proof. apply (final_run P l start (fun s => let '(r, t) := attempt L 9 (main_p P toy_ext (bs "path") a) (typed y s) in k r t)). Qed.
