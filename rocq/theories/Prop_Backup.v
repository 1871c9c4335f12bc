(** C63: passwords can be restored from the printed list of recovery codes. *)
From stdpp Require Import gmap.
From Verif Require Import M_Base M_Codec M_Base64 M_Utf8 M_Prims M_Types M_Crypto M_Recovery M_Json M_Serde M_Storage M_Passwords
  S_Codec S_Policy S_Recovery S_Vault M_History S_Api S_History P_Base P_Sound M_Cli S_Cli S_Backup P_Backup T_Toy T_History T_Cli.

(** [list -r] prints for every stored password that is not empty and does not end with a NUL character, below its name,
    lines that can be entered one by one at [add-stored -c], in any vault with the same primary password: the password is
    stored then. *)
Theorem C63_backup : forall P sc l s0, sound P sc l s0 ->
  (forall x, In x (sc_sites sc) -> host x = x) ->
  let s1 := snd (run P l s0) in
  unlocked s1 = true ->
  exists pp v wrs, s_primary s1 = Some pp /\ writes_ok P l wrs s0 /\ w_mem (fst (vrun P wrs nothing l)) = Some (pp, v) /\
  (forall E path sp domain name sh vb t t', chains_match P v domain -> ready t -> t_st t = s1 ->
   process_simple P E path sp (List domain name sh true vb) t = (COk tt, t') ->
   forall x i e text, shows_site P v domain x -> shows_password P v name x i e ->
   e_secret e = SFixed text -> text <> [] -> (forall r, text <> r ++ [x00]) ->
   exists before lines after, t_shown t' = before ++ heading sh (pid_name i) i.2 text ++ as_lines lines ++ after /\
     spells [] (significant (concat lines)) (one_by_one lines) (repeat (Text more_needed) (length lines - 1)) /\
     restores P pp (concat lines) text).
Proof. exact backup. Qed.
Print Assumptions C63_backup.

(** It is returned then, whatever happened to that vault before. *)
Theorem C63_restored : forall P pp code text E path sp x n r y answers ms more t t',
  prims_ok P -> restores P pp code text -> utf8 text = true ->
  reachable P (t_st t) -> utf8 x = true -> utf8 n = true -> utf8 r = true ->
  ready t -> s_primary (t_st t) = Some pp -> y = true \/ seems_new P (t_st t) x n r ->
  spells [] (significant code) answers ms -> t_asks t = answers ++ more ->
  process_simple P E path sp (AddStored x n r true y) t = (COk tt, t') ->
  fst (exec P (Get x n r) (t_st t')) = OText text.
Proof. exact restored. Qed.
Print Assumptions C63_restored.

(** Any recovery code that decodes will do. *)
Theorem C63_codes : forall P code pp text, prims_ok P -> decode P code pp = Ok text -> restores P pp code text.
Proof. exact code_restores. Qed.
Print Assumptions C63_codes.

(** Two passwords; the list of recovery codes; entering the five lines of the second one in another vault. *)
Definition ex_vault : list op :=
  [Reset (bs "secret"); SetStored (bs "a") (bs "m") [] (bs "p1"); SetStored (bs "a") (bs "n") (bs "2") (bs "a longer password")].
Definition ex_list : bytes := doing toy_release ex_vault no_typing
  (process_simple toy_release toy_ext [] false (List (bs "*") (bs "*") false true false)) (fun r t => t_shown t).
Definition ex_code : list bytes := firstn 5 (skipn 9 (split_on newline ex_list)).
Definition ex_other : list op := [Reset (bs "other!"); Lock; Reset (bs "secret"); SetStored (bs "b") (bs "n") [] (bs "p2")].

Example C63_example :
  sound toy_release (mentioned ex_vault) ex_vault start /\
  (forall x, In x (sc_sites (mentioned ex_vault)) -> host x = x) /\
  unlocked (snd (run toy_release ex_vault start)) = true /\
  (forall wrs pp v, writes_ok toy_release ex_vault wrs start -> w_mem (fst (vrun toy_release wrs nothing ex_vault)) = Some (pp, v) -> forall domain, chains_match toy_release v domain) /\
  firstn 1 (skipn 7 (split_on newline ex_list)) = [bs "    n (stored, revision: 2)"] /\
  doing toy_release ex_other (mk_typing [] [] [] (one_by_one ex_code) []) (process_simple toy_release toy_ext [] false (AddStored (bs "c") (bs "n") [] true false))
    (fun r t => (r, t_shown t, t_err t, fst (exec toy_release (Get (bs "c") (bs "n") []) (t_st t)))) =
  (COk tt, bs "Password added." ++ [newline], repeat (Text more_needed) 4, OText (bs "a longer password")).
Proof.
  split; [|split; [|split; [|split; [|split]]]].
  - apply check_sound_ok; [apply toy_ok|]. vm_compute. reflexivity.
  - intros x Hx. assert (forallb (fun x => bytes_eqb (host x) x) (sc_sites (mentioned ex_vault)) = true) as H by (vm_compute; reflexivity).
    rewrite forallb_forall in H. apply bytes_eqb_eq, H, Hx.
  - rewrite <- (final_run toy_release ex_vault start unlocked). vm_compute. reflexivity.
  - apply chains_saved; [reflexivity|]. vm_compute. reflexivity.
  - vm_compute. reflexivity.
  - vm_compute. reflexivity.
Qed.
