(** The command line program: what each command does. *)
From Coq Require Import Permutation ZArith ZifyBool ZifyNat ZifyN.
From stdpp Require Import gmap.
From Verif Require Import M_Base M_Base64 M_Utf8 M_Prims M_Types M_Crypto M_Recovery M_Json M_Serde M_Storage M_Passwords S_Serde
  S_Vault M_History S_Api P_Base P_Utf8 P_Json P_Serde P_Storage P_Api P_Calls M_Cli S_Cli P_CliBase P_CliCalls P_CliUnlock.

(** * Output *)

Lemma last_line_app s : fst (last_line s) ++ snd (last_line s) = s.
Proof.
  induction s as [|x s IH]; [reflexivity|]. cbn [last_line]. destruct (last_line s) as [[|d0 d] r]; cbn [fst snd] in *.
  - destruct (Byte.eqb x newline); cbn in *; congruence.
  - cbn. f_equal. exact IH.
Qed.
Lemma last_line_newline s : last_line (s ++ [newline]) = (s ++ [newline], []).
Proof.
  induction s as [|x s IH]; [reflexivity|]. cbn [app last_line]. rewrite IH. destruct (s ++ [newline]) eqn:E; [|reflexivity].
  destruct s; discriminate E.
Qed.
Lemma last_line_none s : ~ In newline s -> last_line s = ([], s).
Proof.
  induction s as [|x s IH]; intros H; [reflexivity|]. cbn [last_line]. rewrite IH by (cbn in H; tauto).
  destruct (Byte.eqb x newline) eqn:E; [|reflexivity]. apply P_Base.eqb_eq in E. subst. cbn in H. tauto.
Qed.

Lemma println_eq b t : t_buf t = [] -> println b t = (COk tt, show_text (b ++ [newline]) t).
Proof. intros E. unfold println, print, show_text. rewrite E. cbn [app]. rewrite last_line_newline. reflexivity. Qed.
Lemma print_flush b t : t_buf t = [] -> ~ In newline b -> (let& _ := print b in flush_stdout) t = (COk tt, show_text b t).
Proof.
  intros E H. unfold cbind, print, show_text. rewrite E. cbn [app]. rewrite last_line_none by exact H. unfold flush_stdout.
  cbn. rewrite app_nil_r. reflexivity.
Qed.
Lemma direct_eq b t : write_direct b t = (COk tt, show_text b t).
Proof. reflexivity. Qed.
Lemma show_show a b t : show_text b (show_text a t) = show_text (a ++ b) t.
Proof. unfold show_text. cbn. rewrite <- app_assoc. reflexivity. Qed.
Lemma show_nothing t : show_text [] t = t.
Proof. destruct t. unfold show_text, with_out. cbn. rewrite app_nil_r. reflexivity. Qed.

(** * Common parts *)

Lemma bind_ok {A B : Type} (c : C A) (f : A -> C B) t a t' : c t = (COk a, t') -> cbind c f t = f a t'.
Proof. intros H. unfold cbind. rewrite H. reflexivity. Qed.
Lemma bind_stuck {A B : Type} (c : C A) (f : A -> C B) t t' : c t = (CStuck, t') -> cbind c f t = (CStuck, t').
Proof. intros H. unfold cbind. rewrite H. reflexivity. Qed.

Section commands.
Context (P : prims) (E : externals) (path : bytes).

Lemma ready_ensure sp t : ready t -> ensure_unlocked P sp t = (COk tt, t).
Proof. intros (H1 & H2 & _). apply ensure_done; assumption. Qed.
Lemma bind_ready {A : Type} sp t (f : unit -> C A) : ready t -> cbind (ensure_unlocked P sp) f t = f tt t.
Proof. intros H. unfold cbind. rewrite ready_ensure by exact H. reflexivity. Qed.

(** Commands other than [set-primary] and [shell] first see to it that the passwords are unlocked. *)
Lemma bind_after {A : Type} sp t t1 (f : unit -> C A) : ensure_unlocked P sp t = (COk tt, t1) ->
  cbind (ensure_unlocked P sp) f t = cbind (ensure_unlocked P sp) f t1.
Proof.
  intros H. pose proof (ensure_cases P sp t) as Hc. rewrite H in Hc.
  destruct Hc as [(? & _)|(Hi & [(_ & -> & Hu)|(Hu & [(_ & c & es & _ & _ & _ & Hx)|([?|?] & _)])])]; try discriminate.
  - reflexivity.
  - assert (ensure_unlocked P sp t1 = (COk tt, t1)) as H1.
    { apply ensure_done.
      - destruct (unlock_cases P (trim c) (t_st t)) as [[_ (k & h & _ & Hd & _)]|[Hn _]]; rewrite Hx in *; cbn [fst snd] in *; [|contradiction].
        unfold initialized in *. rewrite Hd. exact Hi.
      - destruct (unlock_cases P (trim c) (t_st t)) as [[_ (k & h & Hs & _)]|[Hn _]]; rewrite Hx in *; cbn [fst snd] in *; [|contradiction].
        unfold unlocked. unfold secrets in Hs. injection Hs as -> _ _. reflexivity. }
    unfold cbind. rewrite H, H1. reflexivity.
Qed.
Lemma bind_fails {A : Type} sp t t1 (f : unit -> C A) : fst (ensure_unlocked P sp t) <> COk tt ->
  snd (ensure_unlocked P sp t) = t1 ->
  cbind (ensure_unlocked P sp) f t =
    (match fst (ensure_unlocked P sp t) with COk _ => CPanic | CErr m => CErr m | CPanic => CPanic | CStuck => CStuck end, t1).
Proof.
  intros H <-. unfold cbind. destruct (ensure_unlocked P sp t) as [[[]|m| |] t']; cbn [fst snd] in *; try reflexivity. contradiction.
Qed.

Lemma simple_after sp c t t1 : ~ refused c -> ensure_unlocked P sp t = (COk tt, t1) ->
  process_simple P E path sp c t = process_simple P E path sp c t1.
Proof.
  intros Hr H. destruct c; cbn [refused] in Hr; try (destruct (Hr I)); cbn [process_simple];
    unfold add_cmd, add_stored_cmd, remove_cmd, show_cmd, notes_cmd, list_cmd, alias_cmd; apply bind_after; exact H.
Qed.
Lemma simple_fails sp c t : ~ refused c -> fst (ensure_unlocked P sp t) <> COk tt ->
  process_simple P E path sp c t = ensure_unlocked P sp t.
Proof.
  intros Hr H.
  assert (forall f : unit -> C unit, cbind (ensure_unlocked P sp) f t = ensure_unlocked P sp t) as G.
  { intros f. rewrite (bind_fails sp t _ f H eq_refl). destruct (ensure_unlocked P sp t) as [[[]|m| |] t']; cbn [fst snd] in *; try reflexivity. contradiction. }
  destruct c; cbn [refused] in Hr; try (destruct (Hr I)); cbn [process_simple];
    unfold add_cmd, add_stored_cmd, remove_cmd, show_cmd, notes_cmd, list_cmd, alias_cmd; apply G.
Qed.

Lemma api_unit (m : M unit) o t : (forall s, exec P o s = as_out (fun _ => ODone) (m s)) ->
  api m t = (match fst (exec P o (t_st t)) with ODone => COk tt | OErr e => CErr (Lib e) | _ => CPanic end,
             with_st (snd (exec P o (t_st t))) t).
Proof. intros H. rewrite H. unfold api, as_out. destruct (m (t_st t)) as [[[]|e|] s]; reflexivity. Qed.
Lemma api_text (m : M bytes) o t : (forall s, exec P o s = as_out OText (m s)) ->
  api m t = (match fst (exec P o (t_st t)) with OText b => COk b | OErr e => CErr (Lib e) | _ => CPanic end,
             with_st (snd (exec P o (t_st t))) t).
Proof. intros H. rewrite H. unfold api, as_out. destruct (m (t_st t)) as [[b|e|] s]; reflexivity. Qed.

Lemma finish_line (m : M unit) o line t : (forall s, exec P o s = as_out (fun _ => ODone) (m s)) -> t_buf t = [] ->
  finishes P o line t ((let& _ := api m in println line) t).
Proof.
  intros H Hb. unfold finishes, cbind. rewrite (api_unit m o t H). rewrite H. unfold as_out. cbn [fst snd].
  destruct (m (t_st t)) as [[[]|e|] s]; cbn [fst snd]; try reflexivity. apply println_eq. exact Hb.
Qed.

Lemma has_or x n r t : api_or (has P x n r) false t =
  (match fst (exec P (Has x n r) (t_st t)) with OBool b => COk b | OErr _ => COk false | _ => CPanic end, t).
Proof.
  pose proof (proj2 (exec_reading P (Has x n r) (t_st t) eq_refl) I) as Hs. unfold api_or. cbn [exec] in *. unfold as_out in *. cbn [fst snd] in *.
  destruct (has P x n r (t_st t)) as [[b|e|] s]; cbn [fst snd] in *; subst s; rewrite with_st_same; reflexivity.
Qed.

Lemma overwrite_yes x n r y t : y = true \/ seems_new P (t_st t) x n r -> OVERWRITE P y x n r t = (COk true, t).
Proof.
  unfold OVERWRITE, cret. destruct y; [reflexivity|]. intros [?|H]; [discriminate|]. unfold cbind. rewrite has_or.
  destruct H as [->|[e ->]]; reflexivity.
Qed.
Lemma overwrite_asks x n r a l t : fst (exec P (Has x n r) (t_st t)) = OBool true -> t_confirms t = a :: l ->
  OVERWRITE P false x n r t = (COk (match a with NO => false | _ => true end), answered l t).
Proof.
  intros H Hc. unfold OVERWRITE, cbind. rewrite has_or, H. unfold confirm. rewrite Hc. reflexivity.
Qed.
Lemma overwrite_waits x n r t : fst (exec P (Has x n r) (t_st t)) = OBool true -> t_confirms t = [] ->
  OVERWRITE P false x n r t = (CStuck, t).
Proof. intros H Hc. unfold OVERWRITE, cbind. rewrite has_or, H. unfold confirm. rewrite Hc. reflexivity. Qed.

(** * add *)

Lemma add_nothing sp x n r len y t : ready t ->
  process_simple P E path sp (Add x n r len true true true true y) t =
    (CErr (Text (bs "You need to allow at least one character set.")), t).
Proof. intros H. cbn [process_simple]. unfold add_cmd. rewrite bind_ready by exact H. reflexivity. Qed.

Lemma add_ready sp x n r len a b d e y t : ready t -> wanted a b d e <> cs_empty ->
  process_simple P E path sp (Add x n r len a b d e y) t =
    (let& go := OVERWRITE P y x n r in
     if go then let& _ := api (set_generated P x n r len (wanted a b d e)) in println (bs "Password added.")
     else cret tt) t.
Proof.
  intros H Hw. cbn [process_simple]. unfold add_cmd. rewrite bind_ready by exact H. rewrite add_charset_eq. fold (wanted a b d e).
  replace (cs_is_empty (wanted a b d e)) with false; [reflexivity|]. destruct a, b, d, e; try reflexivity. destruct Hw. reflexivity.
Qed.

Lemma add_goes sp x n r len a b d e y t : ready t -> wanted a b d e <> cs_empty ->
  y = true \/ seems_new P (t_st t) x n r ->
  finishes P (SetGenerated x n r len (wanted a b d e)) (bs "Password added.") t
    (process_simple P E path sp (Add x n r len a b d e y) t).
Proof.
  intros H Hw Hy. rewrite add_ready by assumption. unfold cbind at 1. rewrite overwrite_yes by exact Hy.
  apply finish_line; [reflexivity|apply H].
Qed.
Lemma add_asks sp x n r len a b d e t q l : ready t -> wanted a b d e <> cs_empty ->
  fst (exec P (Has x n r) (t_st t)) = OBool true -> t_confirms t = q :: l ->
  match q with
  | NO => process_simple P E path sp (Add x n r len a b d e false) t = (COk tt, answered l t)
  | _ => finishes P (SetGenerated x n r len (wanted a b d e)) (bs "Password added.") (answered l t)
           (process_simple P E path sp (Add x n r len a b d e false) t)
  end.
Proof.
  intros H Hw Hh Hc. rewrite add_ready by assumption. rewrite (bind_ok _ _ _ _ _ (overwrite_asks x n r q l t Hh Hc)).
  destruct q; try reflexivity; (apply finish_line; [reflexivity|apply H]).
Qed.

(** * add-stored *)

Lemma add_stored_ready sp x n r rc y t : ready t ->
  process_simple P E path sp (AddStored x n r rc y) t =
    (let& go := OVERWRITE P y x n r in
     if go then
       let& password := (if rc then prompt_recovery_code P else prompt_password (bs "Password to be stored: ") sp) in
       let& _ := api (set_stored P x n r password) in println (bs "Password added.")
     else cret tt) t.
Proof. intros H. cbn [process_simple]. unfold add_stored_cmd. apply bind_ready, H. Qed.

Lemma stored_prompt sp x n r c es t : t_buf t = [] -> entered sp t (Some c :: es) ->
  exists t1, prompted (bs "Password to be stored: ") sp t t1 /\ remaining sp t1 es /\
    finishes P (SetStored x n r (trim c)) (bs "Password added.") t1
      ((let& password := prompt_password (bs "Password to be stored: ") sp in
        let& _ := api (set_stored P x n r password) in println (bs "Password added.")) t).
Proof.
  intros Hb He. destruct (prompt_entered (bs "Password to be stored: ") sp t _ _ He) as (t1 & E1 & Hp & Hr).
  exists t1. split; [exact Hp|]. split; [exact Hr|]. unfold cbind at 1. rewrite E1.
  apply finish_line; [reflexivity|]. rewrite (pr_buf _ _ _ _ Hp). exact Hb.
Qed.
Lemma add_stored_goes sp x n r y c es t : ready t -> y = true \/ seems_new P (t_st t) x n r -> entered sp t (Some c :: es) ->
  exists t1, prompted (bs "Password to be stored: ") sp t t1 /\ remaining sp t1 es /\
    finishes P (SetStored x n r (trim c)) (bs "Password added.") t1
      (process_simple P E path sp (AddStored x n r false y) t).
Proof.
  intros H Hy He. rewrite add_stored_ready by assumption. unfold cbind at 1. rewrite overwrite_yes by exact Hy.
  apply stored_prompt; [apply H|exact He].
Qed.
Lemma add_stored_asks sp x n r c es t q l : ready t -> fst (exec P (Has x n r) (t_st t)) = OBool true -> t_confirms t = q :: l ->
  entered sp t (Some c :: es) ->
  match q with
  | NO => process_simple P E path sp (AddStored x n r false false) t = (COk tt, answered l t)
  | _ => exists t1, prompted (bs "Password to be stored: ") sp (answered l t) t1 /\ remaining sp t1 es /\
      finishes P (SetStored x n r (trim c)) (bs "Password added.") t1
        (process_simple P E path sp (AddStored x n r false false) t)
  end.
Proof.
  intros H Hh Hc He. rewrite add_stored_ready by assumption. rewrite (bind_ok _ _ _ _ _ (overwrite_asks x n r q l t Hh Hc)).
  destruct q; try reflexivity; (apply stored_prompt; [apply H|destruct sp; exact He]).
Qed.
Lemma add_stored_declined sp x n r rc t l : ready t -> fst (exec P (Has x n r) (t_st t)) = OBool true -> t_confirms t = NO :: l ->
  process_simple P E path sp (AddStored x n r rc false) t = (COk tt, answered l t).
Proof.
  intros H Hh Hc. rewrite add_stored_ready by assumption. unfold cbind at 1. rewrite (overwrite_asks x n r NO l) by assumption. reflexivity.
Qed.

(** Both: nothing happens to an existing password unless the user agrees. *)
Lemma bind_snd {A B : Type} (c : C A) (f : A -> C B) t r t' : c t = (r, t') ->
  (forall a, r <> COk a) -> t_st (snd (cbind c f t)) = t_st t'.
Proof. intros H Hr. unfold cbind. rewrite H. destruct r; try reflexivity. destruct (Hr a eq_refl). Qed.

Lemma overwrite_declined x n r t : fst (exec P (Has x n r) (t_st t)) = OBool true ->
  (forall q l, t_confirms t = q :: l -> q = NO) ->
  let '(g, t') := OVERWRITE P false x n r t in t_st t' = t_st t /\ (g = COk false \/ g = CStuck).
Proof.
  intros Hh Hq. destruct (t_confirms t) as [|q l] eqn:Ec.
  - rewrite overwrite_waits by assumption. auto.
  - rewrite (overwrite_asks x n r q l) by assumption. rewrite (Hq q l eq_refl). auto.
Qed.
Lemma unconfirmed sp c x n r t : ready t ->
  (exists len a b d e, c = Add x n r len a b d e false) \/ (exists rc, c = AddStored x n r rc false) ->
  fst (exec P (Has x n r) (t_st t)) = OBool true -> (forall q l, t_confirms t = q :: l -> q = NO) ->
  t_st (snd (process_simple P E path sp c t)) = t_st t /\ t_shown (snd (process_simple P E path sp c t)) = t_shown t.
Proof.
  intros H Hc Hh Hq. destruct Hc as [(len & a & b & d & e & ->)|(rc & ->)].
  - destruct (decide (a = true /\ b = true /\ d = true /\ e = true)) as [(-> & -> & -> & ->)|Hn].
    { rewrite add_nothing by exact H. split; reflexivity. }
    assert (wanted a b d e <> cs_empty) as Hw.
    { intros Hw. apply Hn. unfold wanted, cs_empty in Hw. injection Hw as H1 H2 H3 H4. destruct a, b, d, e; auto; discriminate. }
    rewrite add_ready by assumption. destruct (t_confirms t) as [|q l] eqn:Ec.
    + rewrite (bind_stuck _ _ _ _ (overwrite_waits x n r t Hh Ec)). auto.
    + rewrite (bind_ok _ _ _ _ _ (overwrite_asks x n r q l t Hh Ec)). rewrite (Hq q l eq_refl). auto.
  - rewrite add_stored_ready by assumption. destruct (t_confirms t) as [|q l] eqn:Ec.
    + rewrite (bind_stuck _ _ _ _ (overwrite_waits x n r t Hh Ec)). auto.
    + rewrite (bind_ok _ _ _ _ _ (overwrite_asks x n r q l t Hh Ec)). rewrite (Hq q l eq_refl). auto.
Qed.

(** * remove, alias *)

Lemma remove_finishes sp x n r t : ready t ->
  finishes P (Remove x n r) (bs "Password removed.") t (process_simple P E path sp (RemoveCmd x n r) t).
Proof. intros H. cbn [process_simple]. unfold remove_cmd. rewrite bind_ready by exact H. apply finish_line; [reflexivity|apply H]. Qed.
Lemma alias_finishes sp x a rm t : ready t ->
  finishes P (SetAlias x a) (bs "Alias added.") t (process_simple P E path sp (Alias x (Some a) rm) t).
Proof. intros H. cbn [process_simple]. unfold alias_cmd. rewrite bind_ready by exact H. apply finish_line; [reflexivity|apply H]. Qed.
Lemma unalias_finishes sp x t : ready t ->
  finishes P (RemoveAlias x) (bs "Alias removed.") t (process_simple P E path sp (Alias x None true) t).
Proof. intros H. cbn [process_simple]. unfold alias_cmd. rewrite bind_ready by exact H. apply finish_line; [reflexivity|apply H]. Qed.

Lemma reading_st o t : reading o = true -> match o with RecoveryCode _ _ _ _ => False | _ => True end ->
  with_st (snd (exec P o (t_st t))) t = t.
Proof. intros H1 H2. rewrite (proj2 (exec_reading P o (t_st t) H1) H2). apply with_st_same. Qed.

Lemma alias_shows sp x t : ready t ->
  process_simple P E path sp (Alias x None false) t =
  match fst (exec P (GetAlias x) (t_st t)) with
  | OText a => (COk tt, show_text (bs "'" ++ x ++ bs "' is an alias for '" ++ a ++ bs "'." ++ [newline]) t)
  | OErr e => (CErr (Lib e), t)
  | _ => (CPanic, t)
  end.
Proof.
  intros H. cbn [process_simple]. unfold alias_cmd. rewrite bind_ready by exact H. unfold cbind.
  rewrite (api_text (get_alias P x) (GetAlias x) t) by reflexivity. rewrite (reading_st (GetAlias x)) by (reflexivity || exact I).
  destruct (fst (exec P (GetAlias x) (t_st t))); try reflexivity. rewrite println_eq by apply H.
  rewrite <- !app_assoc. reflexivity.
Qed.

(** * show *)

Lemma show_shows sp x n r t : ready t ->
  process_simple P E path sp (Show x n r false) t =
  match fst (exec P (Get x n r) (t_st t)) with
  | OText p => (COk tt, show_text (bs "Password retrieved." ++ p ++ [newline]) t)
  | OErr e => (CErr (Lib e), t)
  | _ => (CPanic, t)
  end.
Proof.
  intros H. cbn [process_simple]. unfold show_cmd. rewrite bind_ready by exact H. unfold cbind.
  rewrite (api_text (get P x n r) (Get x n r) t) by reflexivity. rewrite (reading_st (Get x n r)) by (reflexivity || exact I).
  destruct (fst (exec P (Get x n r) (t_st t))); try reflexivity. rewrite !direct_eq, !show_show, <- ?app_assoc. reflexivity.
Qed.
Lemma show_qr sp x n r t : ready t ->
  process_simple P E path sp (Show x n r true) t =
  match fst (exec P (Get x n r) (t_st t)) with
  | OText p =>
      match e_qr E p with
      | Some q => (COk tt, show_text (bs "Password retrieved." ++ qr_text q) t)
      | None => (CErr (Text (bs "Error generating QR code: ")), show_text (bs "Password retrieved.") t)
      end
  | OErr e => (CErr (Lib e), t)
  | _ => (CPanic, t)
  end.
Proof.
  intros H. cbn [process_simple]. unfold show_cmd. rewrite bind_ready by exact H. unfold cbind.
  rewrite (api_text (get P x n r) (Get x n r) t) by reflexivity. rewrite (reading_st (Get x n r)) by (reflexivity || exact I).
  destruct (fst (exec P (Get x n r) (t_st t))) as [| |p| | | | | |]; try reflexivity. rewrite direct_eq.
  destruct (e_qr E p); [|reflexivity]. rewrite direct_eq, show_show. reflexivity.
Qed.

(** * notes *)

Lemma notes_print (notes : bytes) t : t_buf t = [] ->
  (match notes with
     | [] => println (bs "Currently no notes are stored for this password.")
     | _ =>
         let& _ := write_direct (bs "Notes for this password: ") in
         let& _ := write_direct notes in
         write_direct [newline]
     end) t = (COk tt, show_text (notes_text notes) t).
Proof.
  intros H. unfold notes_text. destruct notes as [|b notes]; [apply println_eq, H|]. unfold cbind. rewrite !direct_eq, !show_show, <- ?app_assoc. reflexivity.
Qed.
Lemma notes_shows sp x n r t : ready t ->
  process_simple P E path sp (Notes x n r false) t =
  match fst (exec P (GetNotes x n r) (t_st t)) with
  | OText notes => (COk tt, show_text (notes_text notes) t)
  | OErr e => (CErr (Lib e), t)
  | _ => (CPanic, t)
  end.
Proof.
  intros H. cbn [process_simple]. unfold notes_cmd. rewrite bind_ready by exact H. unfold cbind at 1.
  rewrite (api_text (get_notes P x n r) (GetNotes x n r) t) by reflexivity. rewrite (reading_st (GetNotes x n r)) by (reflexivity || exact I).
  destruct (fst (exec P (GetNotes x n r) (t_st t))) as [| |p| | | | | |]; try reflexivity.
  unfold cbind at 1. rewrite notes_print by apply H. reflexivity.
Qed.
Lemma notes_set sp x n r t old new es : ready t -> fst (exec P (GetNotes x n r) (t_st t)) = OText old ->
  entered true (show_text (notes_text old) t) (Some new :: es) ->
  exists t1, prompted (bs "Please enter new notes to be stored:") true (show_text (notes_text old) t) t1 /\ remaining true t1 es /\
    finishes P (SetNotes x n r new) (match new with [] => bs "Notes removed." | _ => bs "Notes stored." end) t1
      (process_simple P E path sp (Notes x n r true) t).
Proof.
  intros H Hg He. cbn [process_simple]. unfold notes_cmd. rewrite bind_ready by exact H. unfold cbind at 1.
  rewrite (api_text (get_notes P x n r) (GetNotes x n r) t) by reflexivity. rewrite (reading_st (GetNotes x n r)) by (reflexivity || exact I).
  rewrite Hg. unfold cbind at 1. rewrite notes_print by apply H.
  destruct (prompt_secret_entered (bs "Please enter new notes to be stored:") _ _ _ He) as (t1 & E1 & Hp & Hr).
  exists t1. split; [exact Hp|]. split; [exact Hr|]. unfold cbind at 1. rewrite E1.
  apply finish_line; [reflexivity|]. rewrite (pr_buf _ _ _ _ Hp). apply H.
Qed.
End commands.
