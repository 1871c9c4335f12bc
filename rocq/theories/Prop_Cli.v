(** C15, C39-C41, C44, C45, C47-C50: the command line program. *)
From stdpp Require Import gmap.
From Verif Require Import M_Base M_Codec M_Base64 M_Utf8 M_Prims M_Types M_Crypto M_Recovery M_Json M_Serde M_Storage M_Passwords
  S_Codec S_Policy S_Recovery S_Vault M_History S_Api S_History P_Base P_Lines M_Cli S_Cli P_CliBase P_CliCalls P_CliUnlock P_CliCommands P_CliMain
  P_CliQr P_CliRecovery P_CliLives P_CliProps S_Utf8 S_Trim P_Trim T_Toy T_History T_Cli Prop_Recovery.

Definition opened : list op := [Reset (bs "secret"); SetStored (bs "a") (bs "n") [] (bs "p1")].
Definition show_a : command := Show (bs "a") (bs "n") [] false.

(** * C15: entering a recovery code *)

(** Whatever is answered, no line number is out of range: it ends with the text of a code made of what was
    entered, with an error that says something about a complete code, with the user giving up (an empty
    message), or it waits for more answers. A panic needs overflow checks and a code of more than 256 lines (C14).
    Until the last answer the lines kept are right. *)
Theorem C15_dialogue : forall P pp t,
  prims_ok P -> s_primary (t_st t) = Some pp ->
  let '(r, t') := prompt_recovery_code P t in
  exists used ms, t_asks t = used ++ t_asks t' /\ t' = after_questions (t_confirms t') (t_asks t') ms t /\
  match r with
  | COk v => exists code, kept [] used code /\ decode P code pp = Ok v
  | CErr (Lib e) => final_error e /\ exists code, kept [] used code /\ decode P code pp = Err e
  | CErr (Text x) => x = []
  | CPanic => p_overflow_checks P = true
  | CStuck => t_asks t' = [] \/ t_confirms t' = []
  end.
Proof. intros P pp t HP Hp. exact (recovery_dialogue P HP pp (t_asks t) [] t eq_refl Hp (Forall_nil_2 _)). Qed.
Print Assumptions C15_dialogue.

(** Entering the characters of a complete code in pieces of any size, with any number of wrong lines in between,
    has the result of decoding the code. *)
Theorem C15_code_entered : forall P code lines pp answers ms more t,
  prims_ok P -> code_lines code lines -> (length lines <= 256 \/ p_overflow_checks P = false) ->
  spells [] (significant code) answers ms -> t_asks t = answers ++ more -> s_primary (t_st t) = Some pp ->
  prompt_recovery_code P t = (outcome_of (decode P code pp), after_questions (t_confirms t) more ms t).
Proof.
  intros P code lines pp answers ms more t HP Hc Hl Hs Ha Hp.
  exact (recovery_spells P HP code lines pp [] (significant code) answers ms Hc Hl Hs eq_refl more t Ha Hp).
Qed.
Print Assumptions C15_code_entered.

(** One answer: *)
Theorem C15_round : forall P pp a t text rest,
  prims_ok P -> Forall (fun c => In c alphabet32) a -> s_primary (t_st t) = Some pp -> t_asks t = Some (RESPONSE text) :: rest -> text <> [] ->
  let s := a ++ significant text in
  let t1 := after_questions (t_confirms t) rest [] t in
  recovery_loop P (t_asks t) (layout a) t =
  match decode P s pp with
  | Err (RecoveryCodeExtraData n) =>
      match t_confirms t with
      | [] => (CStuck, t1)
      | YES :: l => (outcome_of (decode P (firstn (24 * n) s) pp), answered l t1)
      | _ :: l => (CErr (Text []), answered l t1)
      end
  | Err (RecoveryCodeChecksumMismatch n) =>
      recovery_loop P rest (layout (firstn (24 * n) s)) (complained (Text (wrong_line (firstn (24 * n) s))) t1)
  | Err RecoveryCodeIncomplete => recovery_loop P rest (layout s) (complained (Text more_needed) t1)
  | r => (outcome_of r, t1)
  end.
Proof.
  intros P pp a t text rest HP Ha Hp Hk Ht. cbv zeta. rewrite <- (asked_questions rest t).
  exact (recovery_round P HP pp a t text rest Ha Hp Hk Ht).
Qed.
Print Assumptions C15_round.

(** The password is stored then. *)
Theorem C15_stored : forall P E path sp x n r y code lines pp answers ms more t,
  prims_ok P -> ready t -> y = true \/ seems_new P (t_st t) x n r ->
  code_lines code lines -> (length lines <= 256 \/ p_overflow_checks P = false) ->
  spells [] (significant code) answers ms -> t_asks t = answers ++ more -> s_primary (t_st t) = Some pp ->
  let t1 := after_questions (t_confirms t) more ms t in
  match decode P code pp with
  | Ok v => finishes P (SetStored x n r v) (bs "Password added.") t1 (process_simple P E path sp (AddStored x n r true y) t)
  | Err e => process_simple P E path sp (AddStored x n r true y) t = (CErr (Lib e), t1)
  | Panic => process_simple P E path sp (AddStored x n r true y) t = (CPanic, t1)
  end.
Proof. exact add_recovery_goes. Qed.
Print Assumptions C15_stored.

(** A code of four lines: the first line, an attempt at line 2 with a typo, the lines 2 and 3, no answer, the rest. *)
Definition ex_answers : list (option answer) :=
  [Some (RESPONSE ex_line1); Some (RESPONSE (bs "P3ZZ-A2MC-NPUG:L3VH-PBWY-W48G")); Some (RESPONSE (ex_line2 ++ ex_line3));
   None; Some (RESPONSE (bs "gk6n mxkf gtmt mklu cnze es85"))].
Example C15_example : exists lines ms,
  code_lines ex_code lines /\ length lines <= 256 /\ spells [] (significant ex_code) ex_answers ms /\ length ms = 3.
Proof.
  destruct ex_code_valid as (lines & Hc & Hl).
  set (wrong := bs "P3ZZ-A2MC-NPUG:L3VH-PBWY-W48G").
  exists lines, [Text more_needed; Text (wrong_line (significant ex_line1)); Text more_needed].
  split; [exact Hc|]. split; [lia|]. split; [|reflexivity].
  replace (significant ex_code)
    with (significant ex_line1 ++ significant (ex_line2 ++ ex_line3) ++ significant (bs "gk6n mxkf gtmt mklu cnze es85"))
    by (vm_compute; reflexivity).
  apply spells_piece; [discriminate|vm_compute; discriminate|]. cbn [app].
  apply spells_wrong; [vm_compute; reflexivity| |].
  - assert (exists l, base32_decode (significant wrong) = Ok l /\ length l = 15 /\
      pearson_hash (firstn 14 l) (nonfinal_byte 1) <> nth 14 l x00 /\ pearson_hash (firstn 14 l) (final_byte 1) <> nth 14 l x00)
      as (l & Hd & H15 & Hn1 & Hn2).
    { vm_compute. eexists. repeat split; discriminate. }
    exists l, (significant wrong), []. rewrite app_nil_r.
    change (length (significant ex_line1) / 24) with 1.
    split; [reflexivity|]. split; [exact H15|]. split.
    + apply P_Codec.base32_decode_spec, Hd.
    + split; intros (b & Hb & ->); rewrite firstn_app, Hb, app_nth2, Hb, firstn_all2 in Hn1, Hn2 by lia;
        cbn [Nat.sub firstn nth] in Hn1, Hn2; rewrite app_nil_r in Hn1, Hn2; congruence.
  - apply spells_piece; [discriminate|vm_compute; discriminate|].
    apply spells_nothing; [discriminate|]. apply spells_rest. vm_compute. discriminate.
Qed.

(** * C39: the primary password *)

Theorem C39_not_initialized : forall P sp t,
  initialized (t_st t) = false -> ensure_unlocked P sp t = (CErr (Lib StorageNotInitialized), t).
Proof. exact ensure_new. Qed.
Print Assumptions C39_not_initialized.

Theorem C39_asked_once : forall P sp t,
  initialized (t_st t) = true -> unlocked (t_st t) = true -> ensure_unlocked P sp t = (COk tt, t).
Proof. exact ensure_done. Qed.
Print Assumptions C39_asked_once.

(** Wrong entries are complained about, one by one; the first one not refused is used. *)
Theorem C39_asks : forall P sp t bad msgs x es,
  initialized (t_st t) = true -> unlocked (t_st t) = false ->
  entered sp t (map Some bad ++ x :: es) -> Forall2 (rejected P (t_st t)) bad msgs ->
  (forall c m, x = Some c -> ~ rejected P (t_st t) c m) ->
  let '(r, t') := ensure_unlocked P sp t in
  match x with
  | None => r = CPanic /\ t_st t' = t_st t
  | Some c =>
      6 <= length (trim c) /\ t_st t' = snd (exec P (Unlock (trim c)) (t_st t)) /\
      (r = COk tt /\ fst (exec P (Unlock (trim c)) (t_st t)) = ODone /\ t_err t' = t_err t ++ msgs /\ remaining sp t' es /\
       asked (S (length bad)) sp t t' \/
       r = CPanic /\ fst (exec P (Unlock (trim c)) (t_st t)) = OPanic)
  end.
Proof.
  intros P sp t bad msgs x es Hi Hu He Hb Hx. pose proof (ensure_asks P sp t bad msgs x es Hi Hu He Hb Hx) as H.
  destruct (ensure_unlocked P sp t). exact H.
Qed.
Print Assumptions C39_asks.

Theorem C39_cases : forall P sp t, let '(r, t') := ensure_unlocked P sp t in
  (r = CErr (Lib StorageNotInitialized) /\ t' = t /\ initialized (t_st t) = false) \/
  initialized (t_st t) = true /\
  ((r = COk tt /\ t' = t /\ unlocked (t_st t) = true) \/
   unlocked (t_st t) = false /\
   ((r = COk tt /\ exists c es, entered sp t es /\ In (Some c) es /\ 6 <= length (trim c) /\
       exec P (Unlock (trim c)) (t_st t) = (ODone, t_st t')) \/
    ((r = CPanic \/ r = CStuck) /\ t_st t' = t_st t))).
Proof. exact ensure_cases. Qed.
Print Assumptions C39_cases.

(** No command does anything before that. *)
Theorem C39_commands : forall P E path sp c t, ~ refused c ->
  let '(r, t1) := ensure_unlocked P sp t in
  match r with
  | COk _ => initialized (t_st t1) = true /\ unlocked (t_st t1) = true /\ process_simple P E path sp c t = process_simple P E path sp c t1
  | CErr m => process_simple P E path sp c t = (CErr m, t1)
  | CPanic => process_simple P E path sp c t = (CPanic, t1)
  | CStuck => process_simple P E path sp c t = (CStuck, t1)
  end.
Proof. exact command_ensures. Qed.
Print Assumptions C39_commands.

Definition ex_entries : typing := secrets_only [bs "abc"; bs "wrong!"; bs " secret "; bs "more"].
Example C39_example :
  doing toy_release (opened ++ [Lock]) ex_entries (ensure_unlocked toy_release false)
    (fun r t => (r, t_err t, t_tty t, unlocked (t_st t))) =
  (COk tt, [Text (bs "Primary password length should be at least 6 characters."); Lib DecryptionFailure], [Some (bs "more")], true) /\
  final toy_release (opened ++ [Lock]) start (fun s => (initialized s, unlocked s)) = (true, false) /\
  after toy_release (opened ++ [Lock]) (Unlock (trim (bs "wrong!"))) = OErr DecryptionFailure /\
  after toy_release (opened ++ [Lock]) (Unlock (trim (bs " secret "))) = ODone.
Proof. vm_compute. repeat split. Qed.

(** If the passwords are entered through the standard input it does not always end: *)
Theorem C39_ends_refuted :
  ~ (forall P t, prims_ok P -> initialized (t_st t) = true -> exists f, fst (unlock_loop f P true t) <> CStuck).
Proof.
  intros H. set (s := snd (run toy_release (opened ++ [Lock]) start)).
  specialize (H toy_release (typed no_typing s) (toy_ok _ _)).
  assert (final toy_release (opened ++ [Lock]) start initialized = true) as Hi by (vm_compute; reflexivity).
  assert (final toy_release (opened ++ [Lock]) start unlocked = false) as Hu by (vm_compute; reflexivity).
  rewrite final_run in Hi, Hu. destruct (H Hi) as [f Hf]. apply Hf.
  eapply (loop_stuck toy_release true f (typed no_typing s) [[]]); [exact Hu| |apply entered_end; reflexivity].
  constructor; [apply too_short; cbn; lia|constructor].
Qed.
Print Assumptions C39_ends_refuted.

(** That happens exactly if the entries are all refused. *)
Theorem C39_waits : forall P sp t,
  (forall bad msgs, initialized (t_st t) = true -> unlocked (t_st t) = false ->
     entered sp t (map Some bad) -> Forall2 (rejected P (t_st t)) bad msgs ->
     fst (ensure_unlocked P sp t) = CStuck /\ t_st (snd (ensure_unlocked P sp t)) = t_st t) /\
  (fst (ensure_unlocked P sp t) = CStuck -> forall f, fst (unlock_loop f P sp t) = CStuck).
Proof. intros P sp t. split; [apply ensure_waits|apply ensure_stuck]. Qed.
Print Assumptions C39_waits.

(** * C40: set-primary *)

Theorem C40_too_short : forall P path sp c es t,
  entered sp t (Some c :: es) -> length (trim c) < 6 ->
  exists t1, prompted (bs "New primary password: ") sp t t1 /\
    set_primary_cmd P path sp t = (CErr (Text (bs "Primary password length should be at least 6 characters.")), t1).
Proof. exact set_primary_short. Qed.
Print Assumptions C40_too_short.

Theorem C40_entered_twice : forall P path sp c c2 es t,
  entered sp t (Some c :: Some c2 :: es) -> 6 <= length (trim c) -> t_buf t = [] ->
  exists t1 t2, prompted (bs "New primary password: ") sp t t1 /\ prompted (bs "Repeat primary password: ") sp t1 t2 /\
    remaining sp t2 es /\
    (trim c <> trim c2 -> set_primary_cmd P path sp t = (CErr (Text (bs "Primary passwords don't match.")), t2)) /\
    (trim c = trim c2 ->
     finishes P (Reset (trim c)) (bs "New primary password set for " ++ path ++ bs ".") t2 (set_primary_cmd P path sp t)).
Proof. exact set_primary_two. Qed.
Print Assumptions C40_entered_twice.

(** The question comes first. *)
Theorem C40_process : forall P E path sp y t,
  main P E path (mk_args sp (SetPrimary y)) t =
  ends (if asks_first P t y
        then match t_confirms t with
             | [] => (CStuck, begins P t)
             | NO :: l => (COk tt, answered l (begins P t))
             | _ :: l => set_primary_cmd P path sp (answered l (begins P t))
             end
        else set_primary_cmd P path sp (begins P t)).
Proof. exact set_primary_main. Qed.
Print Assumptions C40_process.

Theorem C40_file : forall P E path sp y t,
  let t' := snd (main P E path (mk_args sp (SetPrimary y)) t) in
  s_disk (t_st t') <> s_disk (t_st t) ->
  (asks_first P t y = true -> exists q l, t_confirms t = q :: l /\ q <> NO) /\
  exists c c2 es, entered sp t (Some c :: Some c2 :: es) /\ 6 <= length (trim c) /\ trim c = trim c2 /\
    s_disk (t_st t') = s_disk (snd (run P [Restart; Reset (trim c)] (t_st t))).
Proof. exact set_primary_file. Qed.
Print Assumptions C40_file.

Example C40_example :
  let y := mk_typing [] [Some (bs "longer"); Some (bs "longer ")] [RESPONSE (bs "y")] [] [] in
  running toy_release opened y (mk_args false (SetPrimary false)) (fun x t => (x, t_shown t, t_err t, t_confirms t)) =
    (Success, bs "New primary password set for path." ++ [newline], [], []) /\
  final toy_release opened start (fun s => asks_first toy_release (typed y s) false) = true /\
  running toy_release opened (secrets_only [bs "longer"; bs "shorter"]) (mk_args false (SetPrimary true)) (fun x t => (x, t_err t)) =
    (Failure, [Text (bs "Primary passwords don't match.")]) /\
  running toy_release opened (secrets_only [bs " short "]) (mk_args false (SetPrimary true)) (fun x t => (x, t_err t)) =
    (Failure, [Text (bs "Primary password length should be at least 6 characters.")]).
Proof. vm_compute. repeat split. Qed.

(** A file that cannot be loaded is replaced without any question. *)
Theorem C40_unusable_file : forall P E path sp t c c2 es e,
  prims_ok P -> load P (s_disk (t_st t)) = Err e -> t_buf t = [] ->
  entered sp t (Some c :: Some c2 :: es) -> trim c = trim c2 -> 6 <= length (trim c) -> p_write P (s_flushes (t_st t)) = WriteOk ->
  exists t', main P E path (mk_args sp (SetPrimary false)) t = (Success, t') /\ t_confirms t' = t_confirms t /\
    t_st t' = snd (run P [Restart; Reset (trim c); Lock] (t_st t)) /\
    exists d, load P (s_disk (t_st t')) = Ok d /\ forall slot, d !! slot <> None -> slot = bs "salt" \/ slot = bs "hmac-secret".
Proof. exact set_primary_unasked. Qed.
Print Assumptions C40_unusable_file.

(** For example, one written by a newer version. *)
Definition newer_file : bytes :=
  bs "{""application"":""pfp"",""format"":4,""data"":{""salt"":""x"",""hmac-secret"":""y"",""site:z"":""w""}}".
Definition newer : st := mk_st ∅ None None None (Some newer_file) 0 0 0.
Theorem C40_unasked_refuted :
  ~ (forall P E path sp t, prims_ok P -> s_disk (t_st t) <> None -> t_confirms t = [] ->
     s_disk (t_st (snd (main P E path (mk_args sp (SetPrimary false)) t))) = s_disk (t_st t)).
Proof.
  intros H. set (t := typed (secrets_only [bs "secret"; bs "secret"]) newer).
  assert (exists e, load toy_release (s_disk (t_st t)) = Err e) as [e He] by (vm_compute; eexists; reflexivity).
  destruct (C40_unusable_file toy_release toy_ext [] false t (bs "secret") (bs "secret") [] e (toy_ok _ _) He eq_refl eq_refl eq_refl)
    as (t' & Hm & _ & _ & d & Hd & _); [cbn; lia|reflexivity|].
  specialize (H toy_release toy_ext [] false t (toy_ok _ _)). rewrite Hm in H. cbn [snd] in H.
  rewrite H in Hd by (reflexivity || discriminate). rewrite He in Hd. discriminate Hd.
Qed.
Print Assumptions C40_unasked_refuted.

(** * C41: add, add-stored *)

Theorem C41_no_characters : forall P E path sp x n r len y t,
  ready t -> process_simple P E path sp (Add x n r len true true true true y) t =
    (CErr (Text (bs "You need to allow at least one character set.")), t).
Proof. exact add_nothing. Qed.
Print Assumptions C41_no_characters.

Theorem C41_add : forall P E path sp x n r len a b d e y t,
  ready t -> wanted a b d e <> cs_empty -> y = true \/ seems_new P (t_st t) x n r ->
  finishes P (SetGenerated x n r len (wanted a b d e)) (bs "Password added.") t
    (process_simple P E path sp (Add x n r len a b d e y) t).
Proof. exact add_goes. Qed.
Print Assumptions C41_add.

Theorem C41_add_asks : forall P E path sp x n r len a b d e t q l,
  ready t -> wanted a b d e <> cs_empty -> fst (exec P (Has x n r) (t_st t)) = OBool true -> t_confirms t = q :: l ->
  match q with
  | NO => process_simple P E path sp (Add x n r len a b d e false) t = (COk tt, answered l t)
  | _ => finishes P (SetGenerated x n r len (wanted a b d e)) (bs "Password added.") (answered l t)
           (process_simple P E path sp (Add x n r len a b d e false) t)
  end.
Proof. exact add_asks. Qed.
Print Assumptions C41_add_asks.

Theorem C41_add_stored : forall P E path sp x n r y c es t,
  ready t -> y = true \/ seems_new P (t_st t) x n r -> entered sp t (Some c :: es) ->
  exists t1, prompted (bs "Password to be stored: ") sp t t1 /\ remaining sp t1 es /\
    finishes P (SetStored x n r (trim c)) (bs "Password added.") t1 (process_simple P E path sp (AddStored x n r false y) t).
Proof. exact add_stored_goes. Qed.
Print Assumptions C41_add_stored.

Theorem C41_add_stored_asks : forall P E path sp x n r c es t q l,
  ready t -> fst (exec P (Has x n r) (t_st t)) = OBool true -> t_confirms t = q :: l -> entered sp t (Some c :: es) ->
  match q with
  | NO => process_simple P E path sp (AddStored x n r false false) t = (COk tt, answered l t)
  | _ => exists t1, prompted (bs "Password to be stored: ") sp (answered l t) t1 /\ remaining sp t1 es /\
      finishes P (SetStored x n r (trim c)) (bs "Password added.") t1 (process_simple P E path sp (AddStored x n r false false) t)
  end.
Proof. exact add_stored_asks. Qed.
Print Assumptions C41_add_stored_asks.

(** Without a positive answer nothing changes: neither for the command *)
Theorem C41_unconfirmed : forall P E path sp c x n r t,
  ready t -> (exists len a b d e, c = Add x n r len a b d e false) \/ (exists rc, c = AddStored x n r rc false) ->
  fst (exec P (Has x n r) (t_st t)) = OBool true -> (forall q l, t_confirms t = q :: l -> q = NO) ->
  let t' := snd (process_simple P E path sp c t) in t_st t' = t_st t /\ t_shown t' = t_shown t.
Proof. exact unconfirmed. Qed.
Print Assumptions C41_unconfirmed.

(** nor for the process. *)
Theorem C41_file : forall P E path p sp t bad msgs c es cmd x n r,
  fst (exec P (Unlock p) (snd (exec P Restart (t_st t)))) = ODone -> 6 <= length p ->
  t_buf t = [] -> entered sp t (map Some bad ++ Some c :: es) -> trim c = p -> Forall2 (rejected P (snd (exec P Restart (t_st t)))) bad msgs ->
  (exists len a b d e, cmd = Add x n r len a b d e false) \/ (exists rc, cmd = AddStored x n r rc false) ->
  fst (exec P (Has x n r) (snd (run P [Restart; Unlock p] (t_st t)))) = OBool true -> (forall q l, t_confirms t = q :: l -> q = NO) ->
  s_disk (t_st (snd (main P E path (mk_args sp cmd) t))) = s_disk (t_st t).
Proof. exact unconfirmed_process. Qed.
Print Assumptions C41_file.

(** The length of a password to be generated, as accepted on the command line. *)
Theorem C41_length : forall arg len, length_arg arg = Some len -> (4 <= len <= 24)%N.
Proof. exact length_arg_bounds. Qed.
Print Assumptions C41_length.

Example C41_example :
  let cmd := AddStored (bs "a") (bs "n") [] false false in
  let y q := mk_typing [] [Some (bs "secret"); Some (bs " p2 ")] [q] [] [] in
  let shows x t := (x, t_shown t, t_tty t, fst (exec toy_release (Get (bs "a") (bs "n") []) (snd (exec toy_release (Unlock (bs "secret")) (t_st t))))) in
  running toy_release opened (y NO) (mk_args false cmd) shows = (Success, [], [Some (bs " p2 ")], OText (bs "p1")) /\
  running toy_release opened (y YES) (mk_args false cmd) shows = (Success, bs "Password added." ++ [newline], [], OText (bs "p2")) /\
  after toy_release (opened ++ [Restart; Unlock (bs "secret")]) (Has (bs "a") (bs "n") []) = OBool true /\
  length_arg (bs "+16") = Some 16%N /\ length_arg (bs "3") = None /\ length_arg (bs "25") = None /\
  length_arg (bs "99999999999999999999") = None.
Proof. vm_compute. repeat split. Qed.

(** * C44: show *)

Theorem C44_show : forall P E path sp x n r t, ready t ->
  process_simple P E path sp (Show x n r false) t =
  match fst (exec P (Get x n r) (t_st t)) with
  | OText p => (COk tt, show_text (bs "Password retrieved." ++ p ++ [newline]) t)
  | OErr e => (CErr (Lib e), t)
  | _ => (CPanic, t)
  end.
Proof. exact show_shows. Qed.
Print Assumptions C44_show.

Theorem C44_show_qr : forall P E path sp x n r t, ready t ->
  process_simple P E path sp (Show x n r true) t =
  match fst (exec P (Get x n r) (t_st t)) with
  | OText p =>
      match e_qr E p with
      | Some q => (COk tt, show_text (bs "Password retrieved." ++ qr_text q) t)
      | None => (CErr (Text (bs "Error generating QR code: ")), show_text (bs "Password retrieved.") t)
      end
  | OErr e => (CErr (Lib e), t)
  | _ => (CPanic, t)
  end.
Proof. exact show_qr. Qed.
Print Assumptions C44_show_qr.

(** The QR code can be read off the text. *)
Theorem C44_qr_lossless : forall q q', qr_text q = qr_text q' ->
  qr_size q = qr_size q' /\ forall x y, get_module q x y = get_module q' x y.
Proof. exact qr_text_inj. Qed.
Print Assumptions C44_qr_lossless.

Example C44_example :
  doing toy_release opened no_typing (process_simple toy_release toy_ext [] false show_a) (fun r t => (r, t_shown t)) =
    (COk tt, bs "Password retrieved.p1" ++ [newline]) /\
  doing toy_release opened no_typing (process_simple toy_release toy_ext [] false (Show (bs "a") (bs "n") [] true)) (fun r t => (r, t_shown t)) =
    (COk tt, bs "Password retrieved." ++ [xe2; x96; x80; xe2; x96; x84; x20; newline; x20; x20; xe2; x96; x80; newline]).
Proof. vm_compute. repeat split. Qed.

(** No newline character before it: *)
Theorem C44_own_line_refuted :
  ~ (forall P E path sp x n r t p t', ready t -> fst (exec P (Get x n r) (t_st t)) = OText p ->
       process_simple P E path sp (Show x n r false) t = (COk tt, t') ->
       exists text, t_shown t' = t_shown t ++ text /\ In p (split_on newline text)).
Proof.
  intros H. set (t := typed no_typing (snd (run toy_release opened start))).
  assert (ready t) as Hr by (apply typed_ready; vm_compute; reflexivity).
  assert (fst (exec toy_release (Get (bs "a") (bs "n") []) (t_st t)) = OText (bs "p1")) as Hg.
  { change (t_st t) with (snd (run toy_release opened start)). rewrite <- after_eq. vm_compute. reflexivity. }
  destruct (own_line toy_release toy_ext [] false (bs "a") (bs "n") [] t (bs "p1") Hr Hg) as (text & Hp & Hn);
    [discriminate|apply no_newline_text; reflexivity|].
  destruct (H toy_release toy_ext [] false (bs "a") (bs "n") [] t (bs "p1") _ Hr Hg Hp) as (text' & Ht & Hin).
  change (t_shown (show_text text t)) with text in Ht. change (t_shown t ++ text') with text' in Ht. subst text'. contradiction.
Qed.
Print Assumptions C44_own_line_refuted.

(** * C45: the shell *)

Theorem C45_refuses : forall P E path sp line c t,
  e_parse E line = SCommand c -> refused c -> exists m, shell_step P E path sp line t = (COk true, complained (Text m) t).
Proof. exact shell_refuses. Qed.
Print Assumptions C45_refuses.

(** Other commands do what they do without a shell; errors do not end the session. *)
Theorem C45_command : forall P E path sp line c t,
  e_parse E line = SCommand c -> ~ refused c ->
  shell_step P E path sp line t =
  match process_simple P E path sp c t with
  | (COk _, t') => (COk true, with_out (t_shown t' ++ t_buf t') [] t')
  | (CErr m, t') => (COk true, complained m t')
  | (CPanic, t') => (CPanic, t')
  | (CStuck, t') => (CStuck, t')
  end.
Proof. exact shell_command. Qed.
Print Assumptions C45_command.

Theorem C45_goes_on : forall P E path sp line lines t t1,
  shell_step P E path sp line (with_lines lines t) = (COk true, t1) ->
  shell_loop P E path sp (Line line :: lines) t = shell_loop P E path sp lines t1.
Proof. exact shell_goes_on. Qed.
Print Assumptions C45_goes_on.

Theorem C45_lock : forall P E path sp line t,
  e_parse E line = SLock -> t_buf t = [] ->
  shell_step P E path sp line t =
    (COk true, show_text (bs "Passwords locked." ++ [newline]) (with_st (snd (exec P Lock (t_st t))) t)) /\
  unlocked (snd (exec P Lock (t_st t))) = false.
Proof. intros P E path sp line t H Hb. split; [exact (shell_locks P E path sp line t H Hb)|exact (lock_asks P t)]. Qed.
Print Assumptions C45_lock.

(** A session ends with [exit] or the end of the input only, and never with an error. *)
Theorem C45_ends : forall P E path sp lines t,
  match fst (shell_loop P E path sp lines t) with
  | COk _ => exists before r after, lines = before ++ r :: after /\ ending E r /\ Forall (fun x => ~ ending E x) before
  | CErr _ => False
  | CPanic | CStuck => True
  end.
Proof. intros P E path sp lines t. exact (shell_ends P E path sp lines t). Qed.
Print Assumptions C45_ends.

Example C45_example :
  let y := mk_typing [] [Some (bs "secret"); Some (bs "secret")] [] []
    [Line (bs "show"); Line (bs "set-primary"); Line (bs "lock"); Interrupted; Line (bs "remove"); Line (bs "show"); Line (bs "exit"); Line (bs "show")] in
  running toy_release opened y (mk_args false Shell) (fun x t => (x, t_shown t, t_err t, t_tty t, length (t_lines t))) =
  (Success, SHELL_HELP ++ [newline] ++ bs "Password retrieved.p1" ++ [newline] ++ bs "Passwords locked." ++ [newline] ++ bs "Password removed." ++ [newline],
   [Text (bs "You cannot change primary password from a shell."); Lib KeyMissing], [], 1).
Proof. vm_compute. reflexivity. Qed.

(** * C47: which calls of the library a process makes *)

Theorem C47_calls : forall P E path a t,
  externals_valid E -> command_valid (a_command a) -> typed_valid t ->
  exists l, Forall (fun o => op_valid o /\ (o = Restart \/ o = Lock \/ session_calls E (a_command a) o)) (Restart :: l) /\
    t_st (snd (main P E path a t)) = snd (run P (Restart :: l) (t_st t)) /\ calm_run P (Restart :: l) (t_st t).
Proof. exact main_calls_calm. Qed.
Print Assumptions C47_calls.

Theorem C47_processes : forall P E path, externals_valid E -> forall l s, Forall process_valid l ->
  exists ops, processes P E path l s = snd (run P ops s) /\ Forall op_valid ops /\
    hd_error ops = match l with [] => None | _ => Some Restart end /\
    Forall (fun o => o = Restart \/ o = Lock \/ exists a t, In (a, t) l /\ session_calls E (a_command a) o) ops /\
    calm_run P ops s.
Proof. exact processes_calls. Qed.
Print Assumptions C47_processes.

Example C47_example :
  externals_valid toy_ext /\ command_valid (Add (bs "a") (bs "n") [] 16 false false false true false) /\
  typed_valid (typed ex_entries start).
Proof.
  split; [exact toy_ext_valid|]. split; [repeat split; exists (bs "16"); reflexivity|].
  repeat (apply List.Forall_cons; [reflexivity|]). apply List.Forall_nil.
Qed.

(** * C48: only set-primary changes the salt and the secret in the file *)

Theorem C48_salt_and_secret : forall P E path l s d d',
  prims_ok P -> externals_valid E -> Forall process_valid l ->
  Forall (fun p => forall y, a_command (fst p) <> SetPrimary y) l ->
  load P (s_disk s) = Ok d -> load P (s_disk (processes P E path l s)) = Ok d' ->
  d' !! bs "salt" = d !! bs "salt" /\ d' !! bs "hmac-secret" = d !! bs "hmac-secret".
Proof. exact processes_steady. Qed.
Print Assumptions C48_salt_and_secret.

Example C48_example :
  running toy_release opened (secrets_only [bs "secret"; bs "p2"]) (mk_args false (AddStored (bs "b") (bs "n") [] false false))
    (fun x t => (x, match load toy_release (s_disk (t_st t)) with Ok d => d !! bs "salt" | _ => None end)) =
  (Success, final toy_release opened start (fun s => match load toy_release (s_disk s) with Ok d => d !! bs "salt" | _ => None end)).
Proof. vm_compute. reflexivity. Qed.

(** * C49: spaces around what is typed *)

Theorem C49_trim : forall s, exists a b, s = a ++ trim s ++ b /\ spaces a /\ spaces b /\
  (forall w r, In w whitespace -> trim s <> w ++ r) /\ (forall w r, In w whitespace -> trim s <> r ++ w).
Proof. exact trim_spec. Qed.
Print Assumptions C49_trim.

Theorem C49_still_text : forall s, utf8 s = true -> utf8 (trim s) = true.
Proof. exact trim_utf8. Qed.
Print Assumptions C49_still_text.

(** By code points: exactly the white space of Unicode is removed on both sides, and nothing else. *)
Theorem C49_white_space : forall s, utf8 s = true -> exists cs, Forall scalar cs /\ s = utf8_text cs /\ trim s = utf8_text (unpadded cs).
Proof.
  intros s Hs. destruct (utf8_points s Hs) as (cs & Hcs & ->). exists cs.
  exact (conj Hcs (conj eq_refl (trim_points cs Hcs))).
Qed.
Print Assumptions C49_white_space.

Example C49_example : trim ([xc2; xa0; x09] ++ bs "a b" ++ [x20; xe3; x80; x80; x0d]) = bs "a b" /\ trim [xe2; x80; x83; x20] = [] /\
  utf8_text [0xA0; 9; 0x61; 0x20; 0x62; 0x20; 0x3000; 0xD]%N = [xc2; xa0; x09] ++ bs "a b" ++ [x20; xe3; x80; x80; x0d] /\
  unpadded [0xA0; 9; 0x61; 0x20; 0x62; 0x20; 0x3000; 0xD]%N = [0x61; 0x20; 0x62]%N.
Proof. vm_compute. repeat split; reflexivity. Qed.

(** * C50: messages *)

(** Whatever the details, the message tells which error it was. *)
Theorem C50_messages : forall d d' e e',
  usize_lines e -> usize_lines e' -> format_error d e = format_error d' e' -> e = e'.
Proof. exact format_error_inj. Qed.
Print Assumptions C50_messages.

Example C50_example :
  format_error (bs "No such file") FileReadFailure =
    bs "Failed reading storage file (No such file). Maybe use set-primary subcommand first?" /\
  usize_lines (RecoveryCodeChecksumMismatch 3) /\
  format_error [] (RecoveryCodeChecksumMismatch 3) = bs "Error in recovery code, checksum mismatch in line 3.".
Proof. vm_compute. repeat split. discriminate. Qed.
