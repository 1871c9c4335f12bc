(** A process depends on how saves end only by the outcomes, one by one. *)
From stdpp Require Import gmap.
From Verif Require Import M_Base M_Utf8 M_Prims M_Types M_Recovery M_Storage M_Passwords S_Vault M_History S_Api P_Base M_Cli S_Cli M_Args M_Files S_Files P_Files.

Section same.
Context (P : prims) (w : nat -> write_outcome) (E : externals) (path : bytes) (sp : bool).
Hypothesis Hw : forall k, w k = p_write P k.
Let P' := with_writes P w.

Definition eqc {A} (c c' : C A) : Prop := forall t, c t = c' t.

Lemma eqc_refl {A} (c : C A) : eqc c c.
Proof. intros t. reflexivity. Qed.
Lemma eqc_bind {A B} (c c' : C A) (f f' : A -> C B) : eqc c c' -> (forall a, eqc (f a) (f' a)) -> eqc (cbind c f) (cbind c' f').
Proof. intros H1 H2 t. unfold cbind. rewrite <- H1. destruct (c t) as [[a|m| |] t1]; [apply H2|reflexivity..]. Qed.
Lemma eqc_api {A} (m m' : M A) : (forall s, same P w m m' s) -> eqc (api m) (api m').
Proof. intros H t. unfold api. rewrite (H (t_st t) (or_introl (Hw _))). reflexivity. Qed.
Lemma eqc_api_res {A} (m m' : M A) : (forall s, same P w m m' s) -> eqc (api_res m) (api_res m').
Proof. intros H t. unfold api_res. rewrite (H (t_st t) (or_introl (Hw _))). reflexivity. Qed.
Lemma eqc_each {A} (f f' : A -> C unit) l : (forall x, eqc (f x) (f' x)) -> eqc (each f l) (each f' l).
Proof. intros H. induction l as [|x l IH]; [apply eqc_refl|]. cbn [each]. apply eqc_bind; [apply H|intros _; exact IH]. Qed.

Lemma eqc_unlock n : eqc (unlock_loop n P sp) (unlock_loop n P' sp).
Proof.
  induction n as [|n IH]; intros t; [reflexivity|]. cbn [unlock_loop]. destruct (unlocked (t_st t)); [reflexivity|].
  apply eqc_bind; [apply eqc_refl|intros p]. apply eqc_bind; [|intros _; exact IH]. apply eqc_refl.
Qed.
Lemma eqc_ensure : eqc (ensure_unlocked P sp) (ensure_unlocked P' sp).
Proof. intros t. unfold ensure_unlocked. destruct (negb _); [reflexivity|apply eqc_unlock]. Qed.

Lemma eqc_recovery l : forall accepted, eqc (recovery_loop P l accepted) (recovery_loop P' l accepted).
Proof.
  induction l as [|x l IH]; intros accepted; [apply eqc_refl|]. cbn [recovery_loop]. apply eqc_bind; [apply eqc_refl|intros a].
  destruct a as [a|]; [|apply IH]. destruct a; try apply IH. destruct line as [|b line]; [apply eqc_refl|].
  apply eqc_bind; [apply eqc_api_res; intros s; apply same_decode|intros [v|e|]]; [apply eqc_refl| |apply eqc_refl].
  destruct e; try apply eqc_refl.
  - apply eqc_bind; [apply eqc_refl|intros acc]. apply eqc_bind; [apply eqc_refl|intros y]. destruct y; try apply eqc_refl.
    apply eqc_api. intros s. apply same_decode.
  - apply eqc_bind; [apply eqc_refl|intros acc]. apply eqc_bind; [apply eqc_refl|intros _]. apply IH.
  - apply eqc_bind; [apply eqc_refl|intros _]. apply IH.
Qed.
Lemma eqc_code : eqc (prompt_recovery_code P) (prompt_recovery_code P').
Proof. intros t. apply eqc_recovery. Qed.

Lemma eqc_password a b c site p : eqc (list_password P a b c site p) (list_password P' a b c site p).
Proof.
  unfold list_password. apply eqc_bind; [apply eqc_refl|intros _]. apply eqc_bind; [apply eqc_refl|intros _].
  apply eqc_bind; [|intros _; apply eqc_refl]. destruct b, p; try apply eqc_refl.
  apply eqc_bind; [apply eqc_refl|intros _]. apply eqc_bind; [apply eqc_api; intros s; apply same_recovery|intros code; apply eqc_refl].
Qed.
Lemma eqc_list_loop name a b c all l : eqc (list_loop P name a b c all l) (list_loop P' name a b c all l).
Proof.
  induction l as [|x l IH]; [apply eqc_refl|]. cbn [list_loop]. apply eqc_bind; [apply eqc_refl|intros ps].
  destruct ps as [|p ps]; [apply eqc_bind; [exact IH|intros ?; apply eqc_refl]|].
  apply eqc_bind; [apply eqc_refl|intros _]. apply eqc_bind; [apply eqc_each; intros y; apply eqc_password|intros _].
  apply eqc_bind; [exact IH|intros ?; apply eqc_refl].
Qed.

Ltac same_call := apply eqc_api; intros ?; match goal with
  | |- same _ _ (reset _ _) _ _ => apply same_reset
  | |- same _ _ (set_alias _ _ _) _ _ => apply same_set_alias
  | |- same _ _ (remove_alias _ _) _ _ => apply same_remove_alias
  | |- same _ _ (remove_sites _ _) _ _ => apply same_remove_sites
  | |- same _ _ (set_generated _ _ _ _ _ _) _ _ => apply same_set_generated
  | |- same _ _ (set_stored _ _ _ _ _) _ _ => apply same_set_stored
  | |- same _ _ (set_notes _ _ _ _ _) _ _ => apply same_set_notes
  | |- same _ _ (M_Passwords.remove _ _ _ _) _ _ => apply same_remove
  | |- same _ _ (get _ _ _ _) _ _ => apply same_same
  | |- same _ _ (get_notes _ _ _ _) _ _ => apply same_same
  | |- same _ _ (get_alias _ _) _ _ => apply same_same
  | |- same _ _ (list_sites _ _) _ _ => apply same_same
  end.
Ltac eqc_tac := repeat match goal with
  | |- eqc (ensure_unlocked _ _) _ => apply eqc_ensure
  | |- eqc (prompt_recovery_code _) _ => apply eqc_code
  | |- eqc (list_loop _ _ _ _ _ _ _) _ => apply eqc_list_loop
  | |- eqc (api _) _ => same_call
  | |- eqc (cbind _ _) _ => apply eqc_bind; [|intros ?]
  | |- eqc (OVERWRITE _ _ _ _ _) _ => apply eqc_refl
  | |- eqc (println _) _ => apply eqc_refl
  | |- eqc (cret _) _ => apply eqc_refl
  | |- eqc (cfail _) _ => apply eqc_refl
  | |- eqc (prompt_password _ _) _ => apply eqc_refl
  | |- eqc (prompt_secret_text _) _ => apply eqc_refl
  | |- eqc (write_direct _) _ => apply eqc_refl
  | |- eqc flush_stdout _ => apply eqc_refl
  | |- eqc (match ?x with _ => _ end) _ => destruct x
  end.

Lemma eqc_simple c : eqc (process_simple P E path sp c) (process_simple P' E path sp c).
Proof.
  destruct c; cbn [process_simple]; [unfold set_primary_cmd|unfold add_cmd|unfold add_stored_cmd|unfold remove_cmd|unfold show_cmd|
    unfold notes_cmd|unfold list_cmd|unfold alias_cmd|]; eqc_tac.
Qed.

Lemma eqc_step line : eqc (shell_step P E path sp line) (shell_step P' E path sp line).
Proof.
  intros t. unfold shell_step. destruct (e_parse E line) as [m| | |c]; try reflexivity.
  destruct c; try reflexivity; rewrite (eqc_simple _ t); reflexivity.
Qed.
Lemma eqc_shell l : eqc (shell_loop P E path sp l) (shell_loop P' E path sp l).
Proof.
  induction l as [|[line| | |] l IH]; [apply eqc_refl|..]; cbn [shell_loop].
  - apply eqc_bind; [intros t; apply eqc_step|intros go]. destruct go; [exact IH|apply eqc_refl].
  - intros t. apply IH.
  - apply eqc_refl.
  - intros t. apply eqc_bind; [apply eqc_refl|intros _; exact IH].
Qed.
Lemma eqc_command c : eqc (process_command P E path sp c) (process_command P' E path sp c).
Proof.
  destruct c; try apply eqc_simple. cbn [process_command]. unfold shell_cmd. eqc_tac. intros t. apply eqc_shell.
Qed.
End same.

Lemma main_ext P w E path a t : (forall k, w k = p_write P k) -> main P E path a t = main (with_writes P w) E path a t.
Proof.
  intros Hw. assert (main_inner P E path a t = main_inner (with_writes P w) E path a t) as Ei.
  { unfold main_inner. apply (eqc_bind (start_process P) (start_process (with_writes P w))); [apply eqc_refl|intros r].
    destruct a as [sp c]. cbn [a_command a_stdin_passwords]. destruct c; [|destruct r; try apply eqc_refl; apply (eqc_command P w E path sp Hw)..].
    apply eqc_bind; [apply eqc_refl|intros go]. destruct go; [apply (eqc_command P w E path sp Hw)|apply eqc_refl]. }
  unfold main. rewrite <- Ei. reflexivity.
Qed.
Lemma program_ext P w E path i t : (forall k, w k = p_write P k) -> program P E path i t = program (with_writes P w) E path i t.
Proof. intros Hw. unfold program. rewrite (main_ext P w E path (i_args i) t Hw). reflexivity. Qed.
