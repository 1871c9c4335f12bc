(** The program written as single actions ends as M_Cli says. *)
From stdpp Require Import gmap.
From Verif Require Import M_Base M_Utf8 M_Prims M_Types M_Recovery M_Json M_Storage M_Passwords M_History M_Cli S_Cli P_CliUnlock P_CliProps M_Steps.

Definition sim {A} (p : prog A) (c : C A) : Prop := forall t r t', completes p t r t' <-> acts c t r t'.

Lemma sim_ext {A} (p : prog A) (c c' : C A) : (forall t, c t = c' t) -> sim p c -> sim p c'.
Proof. intros E H t r t'. unfold acts. rewrite <- E. apply H. Qed.
Lemma sim_ret {A} (a : A) : sim (Ret a) (cret a).
Proof.
  intros t r t'. cbn. unfold acts, cret. split.
  - intros [-> ->]. split; [reflexivity|discriminate].
  - intros [[= <- <-] _]. auto.
Qed.
Lemma sim_fail {A} m : sim (@Fail A m) (cfail m).
Proof.
  intros t r t'. cbn. unfold acts, cfail. split.
  - intros [-> ->]. split; [reflexivity|discriminate].
  - intros [[= <- <-] _]. auto.
Qed.
Lemma sim_abort {A} : sim (@Abort A) (fun t => (CPanic, t)).
Proof.
  intros t r t'. cbn. unfold acts. split.
  - intros [-> ->]. split; [reflexivity|discriminate].
  - intros [[= <- <-] _]. auto.
Qed.
Lemma sim_bind {A B} (p : prog A) (c : C A) (k : A -> prog B) f :
  sim p c -> (forall a, sim (k a) (f a)) -> sim (Bind p k) (cbind c f).
Proof.
  intros Hp Hk t r t'. cbn [completes]. unfold acts, cbind. split.
  - intros [(a & t1 & H1 & H2)|[(m & H1 & ->)|(H1 & ->)]].
    + apply Hp in H1. apply Hk in H2. destruct H1 as [-> _]. exact H2.
    + apply Hp in H1. destruct H1 as [-> _]. split; [reflexivity|discriminate].
    + apply Hp in H1. destruct H1 as [-> _]. split; [reflexivity|discriminate].
  - intros [H Hr]. destruct (c t) as [[a|m| |] t1] eqn:E.
    + left. exists a, t1. split; [apply Hp; split; [exact E|discriminate]|]. apply Hk. split; assumption.
    + right. left. exists m. injection H as <- <-. split; [|reflexivity]. apply Hp. split; [exact E|discriminate].
    + right. right. injection H as <- <-. split; [|reflexivity]. apply Hp. split; [exact E|discriminate].
    + exfalso. injection H as <- <-. apply Hr. reflexivity.
Qed.
Definition caught {A} (c : C A) : C (message + A) := fun t =>
  match c t with
  | (COk a, t') => (COk (inr a), t')
  | (CErr m, t') => (COk (inl m), t')
  | (CPanic, t') => (CPanic, t')
  | (CStuck, t') => (CStuck, t')
  end.
Lemma sim_try {A} (p : prog A) c : sim p c -> sim (Try p) (caught c).
Proof.
  intros Hp t r t'. cbn [completes]. unfold acts, caught. split.
  - intros [(a & H1 & ->)|[(m & H1 & ->)|(H1 & ->)]]; apply Hp in H1; destruct H1 as [-> _]; (split; [reflexivity|discriminate]).
  - intros [H Hr]. destruct (c t) as [[a|m| |] t1] eqn:E; injection H as <- <-.
    + left. exists a. split; [|reflexivity]. apply Hp. split; [exact E|discriminate].
    + right. left. exists m. split; [|reflexivity]. apply Hp. split; [exact E|discriminate].
    + right. right. split; [|reflexivity]. apply Hp. split; [exact E|discriminate].
    + exfalso. apply Hr. reflexivity.
Qed.

Lemma sim_call {A} (m : M A) : sim (Call m) (api_res m). Proof. intros t r t'. reflexivity. Qed.
Lemma sim_print b : sim (Print b) (print b). Proof. intros t r t'. reflexivity. Qed.
Lemma sim_flush : sim Flush flush_stdout. Proof. intros t r t'. reflexivity. Qed.
Lemma sim_direct b : sim (Direct b) (write_direct b). Proof. intros t r t'. reflexivity. Qed.
Lemma sim_complain m : sim (Complain m) (eprintln m). Proof. intros t r t'. reflexivity. Qed.
Lemma sim_confirm : sim Confirm confirm. Proof. intros t r t'. reflexivity. Qed.
Lemma sim_question : sim Question ask. Proof. intros t r t'. reflexivity. Qed.
Lemma sim_typed : sim Typed tty_password. Proof. intros t r t'. reflexivity. Qed.
Lemma sim_stdin : sim Stdin stdin_line. Proof. intros t r t'. reflexivity. Qed.
Lemma sim_readline : sim Readline next_line. Proof. intros t r t'. reflexivity. Qed.
Lemma sim_print_line b : sim (print_line b) (println b). Proof. apply sim_print. Qed.

Lemma sim_lib {A} (m : M A) : sim (lib m) (api m).
Proof.
  eapply sim_ext; [|unfold lib; apply sim_bind; [apply sim_call|]; intros r].
  2: instantiate (1 := fun r => match r with Ok a => cret a | Err e => cfail (Lib e) | Panic => fun t => (CPanic, t) end).
  2: destruct r; [apply sim_ret|apply sim_fail|apply sim_abort].
  intros t. unfold cbind, api_res, api. destruct (m (t_st t)) as [[a|e|] s]; reflexivity.
Qed.
Lemma sim_lib_or {A} (m : M A) d : sim (lib_or m d) (api_or m d).
Proof.
  eapply sim_ext; [|unfold lib_or; apply sim_bind; [apply sim_call|]; intros r].
  2: instantiate (1 := fun r => match r with Ok a => cret a | Err e => cret d | Panic => fun t => (CPanic, t) end).
  2: destruct r; [apply sim_ret|apply sim_ret|apply sim_abort].
  intros t. unfold cbind, api_res, api_or. destruct (m (t_st t)) as [[a|e|] s]; reflexivity.
Qed.

Lemma bind_bind {A B D} (c : C A) (f : A -> C B) (g : B -> C D) t :
  cbind (cbind c f) g t = cbind c (fun a => cbind (f a) g) t.
Proof. unfold cbind. destruct (c t) as [[a|m| |] t1]; reflexivity. Qed.

Create HintDb sim.
Ltac sims := repeat match goal with
  | |- sim (Bind _ _) _ => apply sim_bind; [|intros ?]
  | |- sim (Ret _) _ => apply sim_ret
  | |- sim (Fail _) _ => apply sim_fail
  | |- sim Abort _ => apply sim_abort
  | |- sim (lib _) _ => apply sim_lib
  | |- sim (lib_or _ _) _ => apply sim_lib_or
  | |- sim (print_line _) _ => apply sim_print_line
  | |- sim (Print _) _ => apply sim_print
  | |- sim Flush _ => apply sim_flush
  | |- sim (Direct _) _ => apply sim_direct
  | |- sim (Complain _) _ => apply sim_complain
  | |- sim Confirm _ => apply sim_confirm
  | |- sim Typed _ => apply sim_typed
  | |- sim (Call _) _ => apply sim_call
  | |- sim (if ?b then _ else _) _ => destruct b
  | |- sim (match ?x with _ => _ end) _ => destruct x
  | |- sim (let '(_, _) := ?x in _) _ => destruct x
  end; eauto with sim.

Lemma sim_prompt_secret_text prompt : sim (prompt_secret_text_p prompt) (prompt_secret_text prompt).
Proof. unfold prompt_secret_text_p, prompt_secret_text. apply sim_bind; [apply sim_direct|]. intros _. apply sim_stdin. Qed.
#[export] Hint Resolve sim_prompt_secret_text : sim.
Lemma sim_prompt_password prompt sp : sim (prompt_password_p prompt sp) (prompt_password prompt sp).
Proof. unfold prompt_password_p, prompt_password. sims. Qed.
#[export] Hint Resolve sim_prompt_password : sim.

(** * Unlocking *)

Section Unlock.
Context (P : prims) (sp : bool).

Definition round : C (unit + unit) :=
  let& open := api is_unlocked in
  if open then cret (inr tt)
  else
    let& primary_password := prompt_password (bs "Your primary password: ") sp in
    let& _ := (if length primary_password <? 6 then eprintln (Text TOO_SHORT)
               else let& r := api_res (unlock P primary_password) in
                    match r with Err e => eprintln (Lib e) | _ => cret tt end) in
    cret (inl tt).
Definition round_p (x : unit) : prog (unit + unit) :=
  do open <- lib is_unlocked;
  if open then Ret (inr tt)
  else
    do primary_password <- prompt_password_p (bs "Your primary password: ") sp;
    do _ <- (if length primary_password <? 6 then Complain (Text TOO_SHORT)
             else do r <- Call (unlock P primary_password);
                  match r with Err e => Complain (Lib e) | _ => Ret tt end);
    Ret (inl tt).
Lemma sim_round x : sim (round_p x) round.
Proof. unfold round_p, round. sims. Qed.

Lemma round_eq t : round t = if unlocked (t_st t) then (COk (inr tt), t) else (let& _ := body P sp in cret (inl tt)) t.
Proof.
  unfold round, body. unfold cbind at 1. assert (api is_unlocked t = (COk (unlocked (t_st t)), t)) as -> by (destruct t; reflexivity).
  destruct (unlocked (t_st t)); [reflexivity|]. symmetry. apply bind_bind.
Qed.
Lemma loop_round f t : unlock_loop (S f) P sp t =
  (let& x := round in match x with inl _ => unlock_loop f P sp | inr _ => cret tt end) t.
Proof.
  rewrite loop_eq. unfold cbind at 2. rewrite round_eq. destruct (unlocked (t_st t)); [reflexivity|].
  unfold cbind. destruct (body P sp t) as [[w|m| |] t1]; reflexivity.
Qed.

Lemma rounds_end u t r t' : loop_ends (fun x => completes (round_p x)) u t r t' -> exists n, acts (unlock_loop n P sp) t r t'.
Proof.
  induction 1 as [u t u1 t1 r t' H _ [n IH]|u t b t' H|u t m t' H|u t t' H];
    apply sim_round in H; destruct H as [H _].
  - exists (S n). unfold acts. rewrite loop_round. unfold cbind. rewrite H. exact IH.
  - exists 1. unfold acts. rewrite loop_round. unfold cbind. rewrite H. destruct b. split; [reflexivity|discriminate].
  - exists 1. unfold acts. rewrite loop_round. unfold cbind. rewrite H. split; [reflexivity|discriminate].
  - exists 1. unfold acts. rewrite loop_round. unfold cbind. rewrite H. split; [reflexivity|discriminate].
Qed.
Lemma end_rounds n : forall t r t', acts (unlock_loop n P sp) t r t' -> loop_ends (fun x => completes (round_p x)) tt t r t'.
Proof.
  induction n as [|n IH]; intros t r t' H.
  - destruct H as [H Hr]. cbn [unlock_loop] in H. destruct (unlocked (t_st t)) eqn:Eu; injection H as <- <-; [|contradiction].
    apply loop_done. apply sim_round. unfold acts, round, cbind, api, is_unlocked. rewrite Eu. destruct t; cbn.
    split; [reflexivity|discriminate].
  - destruct H as [H Hr]. rewrite loop_round in H. unfold cbind in H. destruct (round t) as [[[[]|[]]|m| |] t1] eqn:E.
    + eapply loop_again; [apply sim_round; split; [exact E|discriminate]|]. apply IH. split; assumption.
    + injection H as <- <-. apply loop_done. apply sim_round. split; [exact E|discriminate].
    + injection H as <- <-. apply loop_fails. apply sim_round. split; [exact E|discriminate].
    + injection H as <- <-. apply loop_aborts. apply sim_round. split; [exact E|discriminate].
    + injection H as <- <-. contradiction.
Qed.
(** More rounds do not change the result. *)
Lemma loop_more n : forall m t r t', n <= m -> acts (unlock_loop n P sp) t r t' -> acts (unlock_loop m P sp) t r t'.
Proof.
  induction n as [|n IH]; intros m t r t' L H.
  - destruct H as [H Hr]. cbn [unlock_loop] in H. destruct (unlocked (t_st t)) eqn:Eu; injection H as <- <-; [|contradiction].
    unfold acts. destruct m; cbn [unlock_loop]; rewrite Eu; (split; [reflexivity|discriminate]).
  - destruct m as [|m]; [lia|]. destruct H as [H Hr]. unfold acts. rewrite loop_round in H |- *. unfold cbind in *.
    destruct (round t) as [[[[]|[]]|e| |] t1]; try (split; assumption).
    apply (IH m); [lia|split; assumption].
Qed.
Lemma sim_ensure_unlocked : sim (ensure_unlocked_p P sp) (ensure_unlocked P sp).
Proof.
  apply sim_ext with (c := let& usable := api is_initialized in
    if negb usable then cfail (Lib StorageNotInitialized)
    else fun t => unlock_loop (S (length (t_stdin t) + length (t_tty t))) P sp t).
  { intros t. unfold cbind, api, is_initialized, ensure_unlocked, cfail. destruct t as [s a b c d e g h i]. unfold with_st. cbn.
    destruct (initialized s); reflexivity. }
  unfold ensure_unlocked_p. intros t r t'. split.
  - intros H. cbn [completes] in H. unfold acts, cbind.
    assert (api is_initialized t = (COk (initialized (t_st t)), t)) as E by (destruct t; reflexivity).
    rewrite E. destruct H as [(a & t1 & H1 & H2)|[(m & H1 & ->)|(H1 & ->)]];
      apply sim_lib in H1; destruct H1 as [H1 _]; rewrite E in H1; try discriminate H1.
    injection H1 as <- <-. destruct (initialized (t_st t)) eqn:Ei; cbn [negb] in *.
    + cbn [unlock_loop_p completes] in H2. apply rounds_end in H2. destruct H2 as [n Hn].
      set (F := S (length (t_stdin t) + length (t_tty t))).
      destruct (fst (unlock_loop F P sp t)) eqn:Ef.
      4: { exfalso. pose proof (ensure_stuck P sp t) as Hs. unfold ensure_unlocked in Hs. rewrite Ei in Hs. cbn [negb] in Hs.
           specialize (Hs Ef n). destruct Hn as [Hn Hr]. rewrite Hn in Hs. cbn in Hs. contradiction. }
      all: assert (acts (unlock_loop F P sp) t (fst (unlock_loop F P sp t)) (snd (unlock_loop F P sp t))) as Ha
             by (split; [destruct (unlock_loop F P sp t); reflexivity|rewrite Ef; discriminate]);
           apply (loop_more F (max n F)) in Ha; [|lia]; apply (loop_more n (max n F)) in Hn; [|lia];
           destruct Ha as [Ha _], Hn as [Hn Hr]; rewrite Hn in Ha; rewrite Ha, Ef;
           (split; [destruct (unlock_loop F P sp t); cbn in *; congruence|congruence]).
    + destruct H2 as [-> ->]. split; [reflexivity|discriminate].
  - intros [H Hr]. unfold cbind in H. assert (api is_initialized t = (COk (initialized (t_st t)), t)) as E by (destruct t; reflexivity).
    rewrite E in H. cbn [completes]. left. exists (initialized (t_st t)), t. split; [apply sim_lib; split; [exact E|discriminate]|].
    destruct (negb (initialized (t_st t))); [apply sim_fail; split; assumption|].
    cbn [unlock_loop_p completes]. apply (end_rounds (S (length (t_stdin t) + length (t_tty t)))). split; assumption.
Qed.
End Unlock.
#[export] Hint Resolve sim_ensure_unlocked : sim.

(** * Recovery codes *)

Section Code.
Context (P : prims).

Definition lines_of (formatted : bytes) (n : nat) : C bytes := fun t => (match first_lines formatted n with Ok x => COk x | _ => CPanic end, t).
Lemma sim_first_lines formatted n : sim (first_lines_p formatted n) (lines_of formatted n).
Proof.
  unfold first_lines_p, lines_of. destruct (first_lines formatted n); [apply sim_ret| |]; apply sim_abort.
Qed.

Definition code_round (accepted : bytes) : C (bytes + bytes) :=
  let& a := ask in
  match a with
  | Some (RESPONSE line) =>
      match line with
      | [] => cfail (Text [])
      | _ =>
          let code := accepted ++ line in
          let formatted := format_code code true in
          let& r := api_res (decode_recovery_code P code) in
          match r with
          | Ok value => cret (inr value)
          | Err (RecoveryCodeExtraData n) =>
              let& accepted := lines_of formatted n in
              let& accept := confirm in
              match accept with
              | YES => let& value := api (decode_recovery_code P accepted) in cret (inr value)
              | _ => cfail (Text [])
              end
          | Err (RecoveryCodeChecksumMismatch n) =>
              let& accepted := lines_of formatted n in
              let& _ := eprintln (Text (match accepted with [] => NOT_VALID | _ => ACCEPTED accepted end)) in
              cret (inl accepted)
          | Err RecoveryCodeIncomplete =>
              let& _ := eprintln (Text MORE_DATA) in
              cret (inl formatted)
          | Err e => cfail (Lib e)
          | Panic => fun t => (CPanic, t)
          end
      end
  | _ => cret (inl accepted)
  end.
Definition code_round_p (accepted : bytes) : prog (bytes + bytes) :=
  do a <- Question;
  match a with
  | Some (RESPONSE line) =>
      match line with
      | [] => Fail (Text [])
      | _ =>
          let code := accepted ++ line in
          let formatted := format_code code true in
          do r <- Call (decode_recovery_code P code);
          match r with
          | Ok value => Ret (inr value)
          | Err (RecoveryCodeExtraData n) =>
              do accepted <- first_lines_p formatted n;
              do accept <- Confirm;
              match accept with
              | YES => do value <- lib (decode_recovery_code P accepted); Ret (inr value)
              | _ => Fail (Text [])
              end
          | Err (RecoveryCodeChecksumMismatch n) =>
              do accepted <- first_lines_p formatted n;
              do _ <- Complain (Text (match accepted with [] => NOT_VALID | _ => ACCEPTED accepted end));
              Ret (inl accepted)
          | Err RecoveryCodeIncomplete =>
              do _ <- Complain (Text MORE_DATA);
              Ret (inl formatted)
          | Err e => Fail (Lib e)
          | Panic => Abort
          end
      end
  | _ => Ret (inl accepted)
  end.
Lemma sim_code_round x : sim (code_round_p x) (code_round x).
Proof.
  unfold code_round_p, code_round. apply sim_bind; [apply sim_question|]. intros a. destruct a as [[| |line]|]; try apply sim_ret.
  destruct line as [|b line]; [apply sim_fail|]. cbv zeta. apply sim_bind; [apply sim_call|]. intros r.
  destruct r as [v|e|]; [apply sim_ret| |apply sim_abort].
  destruct e; try apply sim_fail.
  - apply sim_bind; [apply sim_first_lines|]. intros acc. sims.
  - apply sim_bind; [apply sim_first_lines|]. intros acc. apply sim_bind; [apply sim_complain|intros _; apply sim_ret].
  - sims.
Qed.

Lemma loop_code_round accepted t : recovery_loop P (t_asks t) accepted t =
  (let& x := code_round accepted in match x with inl y => fun t' => recovery_loop P (t_asks t') y t' | inr v => cret v end) t.
Proof.
  unfold code_round. destruct t as [s i ty co [|a rest] li sh bu er]; [reflexivity|].
  cbn [recovery_loop t_asks]. unfold cbind, ask, cret, cfail. cbn [t_asks t_st t_stdin t_tty t_confirms t_lines t_shown t_buf t_err].
  destruct a as [[| |line]|]; try reflexivity. destruct line as [|b line]; [reflexivity|]. cbv zeta.
  unfold api_res. cbn [t_st].
  destruct (decode_recovery_code P (accepted ++ b :: line) s) as [[v|e|] s1]; try reflexivity.
  destruct e; try reflexivity.
  - unfold lines_of. destruct (first_lines _ _) as [acc|e|]; try reflexivity.
    destruct (confirm _) as [[[| |]|m| |] t2]; try reflexivity.
    destruct (api _ t2) as [[v|m| |] t3]; reflexivity.
  - unfold lines_of. destruct (first_lines _ _) as [acc|e|]; reflexivity.
Qed.

Lemma code_round_uses accepted t x t' : code_round accepted t = (COk (inl x), t') -> length (t_asks t') < length (t_asks t).
Proof.
  unfold code_round. destruct t as [s i ty co [|a rest] li sh bu er]; [discriminate|].
  unfold cbind at 1. unfold ask. cbn [t_asks t_st t_stdin t_tty t_confirms t_lines t_shown t_buf t_err].
  destruct a as [[| |line]|]; try (intros [= <- <-]; cbn; lia). destruct line as [|b line]; [discriminate|].
  cbv zeta. unfold cbind at 1. unfold api_res. cbn [t_st].
  destruct (decode_recovery_code P (accepted ++ b :: line) s) as [[v|e|] s1]; try discriminate.
  destruct e; try discriminate; unfold cbind, lines_of; try destruct (first_lines _ _) as [acc|e|]; try discriminate.
  - intros H. destruct (confirm _) as [[[| |]|m| |] t2]; try discriminate H.
    destruct (api _ t2) as [[v|m| |] t3]; discriminate H.
  - intros [= <- <-]. cbn. lia.
  - intros [= <- <-]. cbn. lia.
Qed.

Definition code_loop (x : bytes) : C bytes := fun t => recovery_loop P (t_asks t) x t.
Lemma sim_code_loop t r : forall x t', loop_ends (fun x => completes (code_round_p x)) x t r t' <-> acts (code_loop x) t r t'.
Proof.
  intros x t'. split.
  - induction 1 as [x t y t1 r t' H _ IH|x t b t' H|x t m t' H|x t t' H]; apply sim_code_round in H; destruct H as [H _];
      unfold acts, code_loop; rewrite loop_code_round; unfold cbind; rewrite H; try (split; [reflexivity|discriminate]).
    exact IH.
  - remember (length (t_asks t)) as n eqn:En. revert t En x t'. induction n as [n IH] using lt_wf_ind. intros t En x t' [H Hr].
    unfold code_loop in H. rewrite loop_code_round in H. unfold cbind in H. destruct (code_round x t) as [[[y|v]|m| |] t1] eqn:E.
    + eapply loop_again; [apply sim_code_round; split; [exact E|discriminate]|]. pose proof (code_round_uses _ _ _ _ E) as L.
      apply (IH (length (t_asks t1)) ltac:(lia) t1 eq_refl). split; assumption.
    + injection H as <- <-. apply loop_done. apply sim_code_round. split; [exact E|discriminate].
    + injection H as <- <-. apply loop_fails. apply sim_code_round. split; [exact E|discriminate].
    + injection H as <- <-. apply loop_aborts. apply sim_code_round. split; [exact E|discriminate].
    + injection H as <- <-. contradiction.
Qed.
Lemma sim_prompt_recovery_code : sim (prompt_recovery_code_p P) (prompt_recovery_code P).
Proof. intros t r t'. exact (sim_code_loop t r [] t'). Qed.
End Code.
#[export] Hint Resolve sim_prompt_recovery_code : sim.

(** * The commands *)

Section Commands.
Context (P : prims) (E : externals) (path : bytes) (sp : bool).

Lemma sim_overwrite y d n r : sim (overwrite_p P y d n r) (OVERWRITE P y d n r).
Proof. unfold overwrite_p, OVERWRITE. sims. Qed.
Hint Resolve sim_overwrite : sim.
Lemma sim_add d n r len nl nu nd ns y : sim (add_p P sp d n r len nl nu nd ns y) (add_cmd P sp d n r len nl nu nd ns y).
Proof. unfold add_p, add_cmd. sims. Qed.
Lemma sim_add_stored d n r rc y : sim (add_stored_p P sp d n r rc y) (add_stored_cmd P sp d n r rc y).
Proof. unfold add_stored_p, add_stored_cmd. sims. Qed.
Lemma sim_alias d a r : sim (alias_p P sp d a r) (alias_cmd P sp d a r).
Proof. unfold alias_p, alias_cmd. sims. Qed.
Lemma sim_remove d n r : sim (remove_p P sp d n r) (remove_cmd P sp d n r).
Proof. unfold remove_p, remove_cmd. sims. Qed.
Lemma sim_notes d n r s : sim (notes_p P sp d n r s) (notes_cmd P sp d n r s).
Proof. unfold notes_p, notes_cmd. sims. Qed.

Lemma sim_for_each {A} (f : A -> prog unit) g l : (forall x, sim (f x) (g x)) -> sim (for_each f l) (each g l).
Proof. intros H. induction l as [|x l IH]; cbn; sims. Qed.
Hint Resolve sim_for_each : sim.

(** Texts written one after the other *)
Lemma write_each {A} (g : A -> bytes) l t :
  each (fun x => write_direct (g x)) l t = write_direct (concat (map g l)) t.
Proof.
  revert t. induction l as [|x l IH]; intros t; cbn [each map concat].
  - unfold cret, write_direct, with_out. rewrite app_nil_r. destruct t; reflexivity.
  - unfold cbind at 1. unfold write_direct at 1. rewrite IH. unfold write_direct, with_out. cbn. rewrite app_assoc. reflexivity.
Qed.
Lemma write_write a b t : (let& _ := write_direct a in write_direct b) t = write_direct (a ++ b) t.
Proof. unfold cbind, write_direct, with_out. cbn. rewrite app_assoc. reflexivity. Qed.
Lemma sim_qr_row q y : sim (qr_row_p q y) (write_direct (qr_row q y)).
Proof.
  eapply sim_ext; [|unfold qr_row_p; apply sim_bind; [apply sim_for_each; intros x; apply sim_direct|intros ?; apply sim_direct]].
  intros t. unfold cbind at 1. rewrite (write_each (fun x => block (get_module q x y) (get_module q x (y + 1)))).
  exact (write_write _ _ t).
Qed.
Lemma sim_qr_text q : sim (for_each (fun i => qr_row_p q (2 * i)) (seq 0 ((qr_size q + 1) / 2))) (write_direct (qr_text q)).
Proof.
  eapply sim_ext; [|apply sim_for_each; intros i; apply sim_qr_row]. intros t.
  exact (write_each (fun i => qr_row q (2 * i)) _ t).
Qed.
Lemma sim_show d n r q : sim (show_p P E sp d n r q) (show_cmd P E sp d n r q).
Proof.
  unfold show_p, show_cmd. apply sim_bind; [apply sim_ensure_unlocked|intros _]. apply sim_bind; [apply sim_lib|intros pw].
  apply sim_bind; [apply sim_direct|intros _]. destruct q; [|sims]. destruct (e_qr E pw); [apply sim_qr_text|apply sim_fail].
Qed.

Lemma sim_list_password sh rc vb site p : sim (list_password_p P sh rc vb site p) (list_password P sh rc vb site p).
Proof.
  unfold list_password_p, list_password. apply sim_bind; [apply sim_print_line|intros _].
  apply sim_bind; [destruct sh; sims|intros _].
  apply sim_bind; [destruct rc; [destruct p; sims; intros; sims|sims]|intros _].
  1: { apply sim_for_each. intros x. apply sim_print_line. }
  destruct vb; [|sims]. apply sim_bind; [destruct (pass_notes p); sims|intros _]. destruct p; sims.
Qed.
Lemma sim_heading vb site l : sim (heading_p vb site l) (heading vb site l).
Proof. unfold heading_p, heading. sims. Qed.
Hint Resolve sim_list_password sim_heading : sim.
Lemma sim_list_loop n sh rc vb all sites : sim (list_loop_p P n sh rc vb all sites) (list_loop P n sh rc vb all sites).
Proof.
  induction sites as [|s rest IH]; cbn [list_loop_p list_loop]; [apply sim_ret|].
  apply sim_bind; [apply sim_lib|intros l]. destruct l as [|p l].
  - apply sim_bind; [exact IH|intros [f es]; apply sim_ret].
  - apply sim_bind; [apply sim_heading|intros _].
    apply sim_bind; [apply sim_for_each; intros x; apply sim_list_password|intros _].
    apply sim_bind; [exact IH|intros [f es]; apply sim_ret].
Qed.
Lemma sim_list d n sh rc vb : sim (list_p P sp d n sh rc vb) (list_cmd P sp d n sh rc vb).
Proof.
  unfold list_p, list_cmd. apply sim_bind; [apply sim_ensure_unlocked|intros _]. apply sim_bind; [apply sim_lib|intros l].
  cbv zeta. apply sim_bind; [apply sim_list_loop|intros [f es]]. sims.
Qed.
Lemma sim_set_primary : sim (set_primary_p P path sp) (set_primary_cmd P path sp).
Proof. unfold set_primary_p, set_primary_cmd. sims. Qed.
Lemma sim_simple c : sim (simple_p P E path sp c) (process_simple P E path sp c).
Proof.
  destruct c; cbn [simple_p process_simple].
  - apply sim_set_primary.
  - apply sim_add.
  - apply sim_add_stored.
  - apply sim_remove.
  - apply sim_show.
  - apply sim_notes.
  - apply sim_list.
  - apply sim_alias.
  - apply sim_ret.
Qed.

Lemma sim_shell_step line : sim (shell_step_p P E path sp line) (shell_step P E path sp line).
Proof.
  unfold shell_step_p, shell_step. destruct (e_parse E line) as [m| | |c]; try (sims; fail).
  assert (forall c, sim (do r <- Try (simple_p P E path sp c);
      do _ <- (match r with inl m => Complain m | inr _ => Flush end); Ret true)
    (fun t => match process_simple P E path sp c t with
        | (COk _, t') => (let& _ := flush_stdout in cret true) t'
        | (CErr m, t') => (let& _ := eprintln m in cret true) t'
        | (CPanic, t') => (CPanic, t')
        | (CStuck, t') => (CStuck, t')
        end)) as H.
  { clear c. intros c. eapply sim_ext; [|apply sim_bind; [apply sim_try, sim_simple|intros r]].
    2: instantiate (1 := fun r => match r with inl m => let& _ := eprintln m in cret true | inr _ => let& _ := flush_stdout in cret true end).
    2: destruct r; sims.
    intros t. unfold cbind at 1, caught. destruct (process_simple _ _ _ _ _ t) as [[a|m| |] t1]; reflexivity. }
  destruct c; try apply H; sims.
Qed.

Definition shell_round_p (x : unit) : prog (unit + unit) :=
  do r <- Readline;
  match r with
  | Line line =>
      do go <- shell_step_p P E path sp line;
      Ret (if go : bool then inl tt else inr tt)
  | Interrupted => Ret (inl tt)
  | Eof => Ret (inr tt)
  | OtherError => do _ <- Complain (Text (bs "Error: ")); Ret (inl tt)
  end.
Definition shell_round : C (unit + unit) :=
  let& r := next_line in
  match r with
  | Line line => let& go := shell_step P E path sp line in cret (if go : bool then inl tt else inr tt)
  | Interrupted => cret (inl tt)
  | Eof => cret (inr tt)
  | OtherError => let& _ := eprintln (Text (bs "Error: ")) in cret (inl tt)
  end.
Lemma sim_shell_round x : sim (shell_round_p x) shell_round.
Proof.
  unfold shell_round_p, shell_round. apply sim_bind; [apply sim_readline|intros r]. destruct r; try (sims; fail).
  apply sim_bind; [apply sim_shell_step|intros go; apply sim_ret].
Qed.

(** ** Commands do not read lines of the shell *)

Definition keeps_lines {A} (p : prog A) : Prop := forall t r t', completes p t r t' -> t_lines t' = t_lines t.
Lemma keeps_ret {A} (a : A) : keeps_lines (Ret a). Proof. intros t r t' [_ ->]. reflexivity. Qed.
Lemma keeps_fail {A} m : keeps_lines (@Fail A m). Proof. intros t r t' [_ ->]. reflexivity. Qed.
Lemma keeps_abort {A} : keeps_lines (@Abort A). Proof. intros t r t' [_ ->]. reflexivity. Qed.
Lemma keeps_bind {A B} (p : prog A) (k : A -> prog B) : keeps_lines p -> (forall a, keeps_lines (k a)) -> keeps_lines (Bind p k).
Proof.
  intros H1 H2 t r t' [(a & t1 & Ha & Hb)|[(m & H & _)|(H & _)]]; [|exact (H1 _ _ _ H)..].
  rewrite (H2 _ _ _ _ Hb). exact (H1 _ _ _ Ha).
Qed.
Lemma keeps_loop {A B} (body : A -> prog (A + B)) a : (forall x, keeps_lines (body x)) -> keeps_lines (Loop body a).
Proof.
  intros H t r t' Hl. cbn [completes] in Hl. induction Hl as [x t y t1 r t' H1 _ IH|x t b t' H1|x t m t' H1|x t t' H1];
    [rewrite IH|..]; exact (H _ _ _ _ H1).
Qed.
Lemma keeps_try {A} (p : prog A) : keeps_lines p -> keeps_lines (Try p).
Proof. intros H t r t' [(a & H1 & _)|[(m & H1 & _)|(H1 & _)]]; exact (H _ _ _ H1). Qed.
Lemma keeps_call {A} (m : M A) : keeps_lines (Call m).
Proof. intros t r t' [H _]. unfold api_res in H. destruct (m (t_st t)) as [x s]. injection H as _ <-. reflexivity. Qed.
Lemma keeps_print b : keeps_lines (Print b).
Proof. intros t r t' [H _]. unfold print in H. destruct (last_line _). injection H as _ <-. reflexivity. Qed.
Lemma keeps_flush : keeps_lines Flush.
Proof. intros t r t' [H _]. injection H as _ <-. reflexivity. Qed.
Lemma keeps_direct b : keeps_lines (Direct b).
Proof. intros t r t' [H _]. injection H as _ <-. reflexivity. Qed.
Lemma keeps_complain m : keeps_lines (Complain m).
Proof. intros t r t' [H _]. injection H as _ <-. reflexivity. Qed.
Lemma keeps_confirm : keeps_lines Confirm.
Proof. intros t r t' [H _]. unfold confirm in H. destruct (t_confirms t); injection H as _ <-; reflexivity. Qed.
Lemma keeps_question : keeps_lines Question.
Proof. intros t r t' [H _]. unfold ask in H. destruct (t_asks t); injection H as _ <-; reflexivity. Qed.
Lemma keeps_typed : keeps_lines Typed.
Proof. intros t r t' [H _]. unfold tty_password in H. destruct (t_tty t); injection H as _ <-; reflexivity. Qed.
Lemma keeps_stdin : keeps_lines Stdin.
Proof. intros t r t' [H _]. unfold stdin_line in H. destruct (read_line _). injection H as _ <-. reflexivity. Qed.
Lemma keeps_for_each {A} (f : A -> prog unit) l : (forall x, keeps_lines (f x)) -> keeps_lines (for_each f l).
Proof. intros H. induction l; cbn; [apply keeps_ret|apply keeps_bind; [apply H|intros _; assumption]]. Qed.

Ltac keeps := repeat match goal with
  | |- keeps_lines (Bind _ _) => apply keeps_bind; [|intros ?]
  | |- keeps_lines (Ret _) => apply keeps_ret
  | |- keeps_lines (Fail _) => apply keeps_fail
  | |- keeps_lines Abort => apply keeps_abort
  | |- keeps_lines (Loop _ _) => apply keeps_loop; intros ?
  | |- keeps_lines (lib _) => unfold lib
  | |- keeps_lines (lib_or _ _) => unfold lib_or
  | |- keeps_lines (print_line _) => apply keeps_print
  | |- keeps_lines (Print _) => apply keeps_print
  | |- keeps_lines Flush => apply keeps_flush
  | |- keeps_lines (Direct _) => apply keeps_direct
  | |- keeps_lines (Complain _) => apply keeps_complain
  | |- keeps_lines Confirm => apply keeps_confirm
  | |- keeps_lines Question => apply keeps_question
  | |- keeps_lines Typed => apply keeps_typed
  | |- keeps_lines Stdin => apply keeps_stdin
  | |- keeps_lines (Call _) => apply keeps_call
  | |- keeps_lines (for_each _ _) => apply keeps_for_each; intros ?
  | |- keeps_lines (let '(_, _) := ?x in _) => destruct x
  | |- keeps_lines (if ?b then _ else _) => destruct b
  | |- keeps_lines (match ?x with _ => _ end) => destruct x
  end.
Lemma keeps_list_loop n sh rc vb all l : keeps_lines (list_loop_p P n sh rc vb all l).
Proof.
  induction l as [|s l IH]; cbn [list_loop_p]; keeps; try exact IH; unfold heading_p, list_password_p; keeps.
Qed.
Lemma keeps_ensure : keeps_lines (ensure_unlocked_p P sp).
Proof. unfold ensure_unlocked_p, unlock_loop_p, prompt_password_p, prompt_secret_text_p. keeps. Qed.
Lemma keeps_simple c : keeps_lines (simple_p P E path sp c).
Proof.
  destruct c; cbn [simple_p]; unfold set_primary_p, add_p, add_stored_p, remove_p, show_p, notes_p, list_p, alias_p,
    overwrite_p, prompt_password_p, prompt_secret_text_p, qr_row_p, prompt_recovery_code_p, first_lines_p;
    keeps; try apply keeps_ensure; try apply keeps_list_loop.
Qed.
Lemma keeps_shell_step line : keeps_lines (shell_step_p P E path sp line).
Proof.
  unfold shell_step_p. destruct (e_parse E line) as [m| | |c]; try (keeps; fail).
  assert (forall c, keeps_lines (do r <- Try (simple_p P E path sp c);
      do _ <- (match r with inl m => Complain m | inr _ => Flush end); Ret true)) as H.
  { intros c'. apply keeps_bind; [apply keeps_try, keeps_simple|]. intros r. keeps. }
  destruct c; try apply H; keeps.
Qed.

Definition shell_lines : C unit := fun t => shell_loop P E path sp (t_lines t) t.
Lemma shell_loop_round t : shell_lines t =
  (let& x := shell_round in match x with inl _ => shell_lines | inr _ => cret tt end) t.
Proof.
  unfold shell_lines at 1, shell_round. destruct (t_lines t) as [|[line| | |] rest] eqn:El; cbn [shell_loop].
  - unfold cbind, next_line. rewrite El. reflexivity.
  - unfold cbind, next_line. rewrite El. destruct (shell_step P E path sp line (with_lines rest t)) as [[go|m| |] t1] eqn:Es; try reflexivity.
    assert (t_lines t1 = rest) as Hl.
    { assert (completes (shell_step_p P E path sp line) (with_lines rest t) (COk go) t1) as H
        by (apply sim_shell_step; split; [exact Es|discriminate]).
      rewrite (keeps_shell_step _ _ _ _ H). reflexivity. }
    destruct go; [|reflexivity]. unfold cret, shell_lines. rewrite Hl. reflexivity.
  - unfold cbind, next_line. rewrite El. reflexivity.
  - unfold cbind, next_line. rewrite El. reflexivity.
  - unfold cbind, next_line. rewrite El. reflexivity.
Qed.
Lemma shell_round_uses t x t' : shell_round t = (COk x, t') -> length (t_lines t') < length (t_lines t).
Proof.
  intros H. assert (completes (shell_round_p tt) t (COk x) t') as Hc by (apply sim_shell_round; split; [exact H|discriminate]).
  cbn [shell_round_p completes] in Hc. destruct Hc as [(r & t1 & [H1 _] & H2)|[(m & [H1 _] & E1)|([H1 _] & E1)]]; [|discriminate E1..].
  unfold next_line in H1. destruct (t_lines t) as [|l rest] eqn:El; [discriminate H1|]. injection H1 as <- <-.
  assert (t_lines t' = rest) as ->; [|cbn; lia].
  assert (forall (q : prog (unit + unit)), keeps_lines q -> completes q (with_lines rest t) (COk x) t' -> t_lines t' = rest) as G
    by (intros q Hq Hc; rewrite (Hq _ _ _ Hc); reflexivity).
  revert H2. apply G. destruct l; keeps. apply keeps_shell_step.
Qed.
Lemma sim_shell_loop : sim (shell_loop_p P E path sp) shell_lines.
Proof.
  intros t r t'. change (shell_loop_p P E path sp) with (Loop shell_round_p tt).
  change (completes (Loop shell_round_p tt)) with (loop_ends (fun x => completes (shell_round_p x)) tt). split.
  - induction 1 as [x t y t1 r t' H _ IH|x t b t' H|x t m t' H|x t t' H]; destruct x; apply sim_shell_round in H; destruct H as [H _];
      unfold acts; rewrite shell_loop_round; unfold cbind; rewrite H; try (split; [reflexivity|discriminate]).
    + exact IH.
    + destruct b. split; [reflexivity|discriminate].
  - remember (length (t_lines t)) as n eqn:En. revert t En t'. induction n as [n IH] using lt_wf_ind. intros t En t' [H Hr].
    rewrite shell_loop_round in H. unfold cbind in H. destruct (shell_round t) as [[[[]|[]]|m| |] t1] eqn:Es.
    + eapply loop_again; [apply sim_shell_round; split; [exact Es|discriminate]|]. pose proof (shell_round_uses _ _ _ Es) as L.
      apply (IH (length (t_lines t1)) ltac:(lia) t1 eq_refl). split; assumption.
    + injection H as <- <-. apply loop_done. apply sim_shell_round. split; [exact Es|discriminate].
    + injection H as <- <-. apply loop_fails. apply sim_shell_round. split; [exact Es|discriminate].
    + injection H as <- <-. apply loop_aborts. apply sim_shell_round. split; [exact Es|discriminate].
    + injection H as <- <-. contradiction.
Qed.
Lemma sim_command c : sim (command_p P E path sp c) (process_command P E path sp c).
Proof.
  destruct c; try apply sim_simple. cbn [command_p process_command]. unfold shell_p, shell_cmd.
  apply sim_bind; [apply sim_print_line|intros _]. apply sim_bind; [apply sim_flush|intros _]. apply sim_shell_loop.
Qed.
End Commands.

(** * The process *)

Lemma sim_main_inner P E path a : sim (main_inner_p P E path a) (main_inner P E path a).
Proof.
  unfold main_inner_p, main_inner. apply sim_bind.
  - eapply sim_ext; [|apply sim_lib]. reflexivity.
  - intros r. destruct (a_command a) as [y| | | | | | | |] eqn:Ea.
    1: { apply sim_bind; [sims|]. intros go. destruct go; [apply sim_command|apply sim_ret]. }
    all: destruct r; [apply sim_command|apply sim_fail|apply sim_abort].
Qed.

(** [main] as a result *)
Definition outcome (x : exit) : option (cres exit) :=
  match x with Success => Some (COk Success) | Failure => Some (COk Failure) | Aborted => Some CPanic | Waiting => None end.
Lemma main_completes P E path a t r t' :
  completes (main_p P E path a) t r t' <-> exists x, main P E path a t = (x, t') /\ outcome x = Some r.
Proof.
  unfold main_p. set (c := let& r := caught (main_inner P E path a) in let& _ := api lock in
    match r with inl m => let& _ := eprintln m in let& _ := flush_stdout in cret Failure
               | inr _ => let& _ := flush_stdout in cret Success end).
  assert (sim (main_p P E path a) c) as Hs.
  { unfold main_p, c. apply sim_bind; [apply sim_try, sim_main_inner|]. intros x. apply sim_bind; [apply sim_lib|]. intros _. destruct x; sims. }
  unfold main_p in Hs. rewrite (Hs t r t'). unfold acts, c, cbind, caught, main, api, lock, cret, flush_stdout, eprintln. clear Hs c.
  destruct (main_inner P E path a t) as [[u|m| |] t1]; cbn; split.
  - intros [[= <- <-] _]. exists Success. auto.
  - intros (x & [= <- <-] & [= <-]). split; [reflexivity|discriminate].
  - intros [[= <- <-] _]. exists Failure. auto.
  - intros (x & [= <- <-] & [= <-]). split; [reflexivity|discriminate].
  - intros [[= <- <-] _]. exists Aborted. auto.
  - intros (x & [= <- <-] & [= <-]). split; [reflexivity|discriminate].
  - intros [[= <- <-] H]. contradiction.
  - intros (x & [= <- <-] & [=]).
Qed.
