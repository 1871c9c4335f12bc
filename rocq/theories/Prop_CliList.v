(** C42, C43, C51: listing passwords; processes one after the other. *)
From Coq Require Import Sorted.
From stdpp Require Import gmap.
From Verif Require Import M_Base M_Codec M_Base64 M_Utf8 M_Prims M_Types M_Crypto M_Recovery M_Json M_Serde M_Storage M_Passwords
  S_Codec S_Policy S_Recovery S_Vault M_History S_Api S_History P_Base P_Sound M_Cli S_Cli P_CliBase P_CliCalls P_CliUnlock P_CliCommands P_CliMain
  P_CliList P_CliVault P_CliLives P_CliWorld P_CliProps P_CliNext T_Toy T_History T_Cli.

(** * C42: what listing does *)

(** After any history within the scope of C23: if no site starts with "www." and the aliases that lead to aliases match (as they do
    if all sites match), [list] shows the right passwords, drops nothing but site entries without passwords and aliases, and fails only for the
    reasons given in [list_goes]. *)
Theorem C42_list : forall P sc l s0, sound P sc l s0 ->
  (forall x, In x (sc_sites sc) -> host x = x) ->
  let s1 := snd (run P l s0) in
  unlocked s1 = true ->
  exists pp v wrs, s_primary s1 = Some pp /\ writes_ok P l wrs s0 /\ w_mem (fst (vrun P wrs nothing l)) = Some (pp, v) /\
  (forall E path sp domain name sh rc vb t, chains_match P v domain -> ready t -> t_st t = s1 ->
   list_goes P sc pp v domain name sh rc vb t (process_simple P E path sp (List domain name sh rc vb) t)).
Proof.
  intros P sc l s0 So Hh s1 Hu. destruct (list_vault P sc l s0 So Hh Hu) as (pp & v & wrs & H1 & H2 & H3 & H4).
  exists pp, v, wrs. split; [exact H1|]. split; [exact H2|]. split; [exact H3|]. intros E path sp domain name sh rc vb t.
  exact (H4 sp domain name sh rc vb t).
Qed.
Print Assumptions C42_list.

(** In any state whatsoever, in terms of the calls of the library: *)
Theorem C42_any_state : forall P E path sp domain name sh rc vb t, ready t ->
  match fst (exec P (ListSites domain) (t_st t)) with
  | OSites L => List.NoDup (map fst L) ->
      let '(r, t') := process_simple P E path sp (List domain name sh rc vb) t in
      match r with
      | COk _ => exists groups empties s1,
          Forall (group_ok P (t_st t) L name sh rc) groups /\ StronglySorted before (map gr_site groups) /\
          (forall x, listed L x -> In x (map gr_site groups) \/ no_passwords P (t_st t) name x) /\
          unused P (t_st t) L name empties /\
          same_but_random (t_st t) s1 /\ exec P (RemoveSites empties) s1 = (ODone, t_st t') /\
          t' = show_text (list_text sh rc vb groups) (with_st (t_st t') t)
      | CErr m => exists e, m = Lib e /\
          ((same_but_random (t_st t) (t_st t') /\ list_fault P (t_st t) L name sh rc (OErr e)) \/
           exists empties s1, unused P (t_st t) L name empties /\
             same_but_random (t_st t) s1 /\ exec P (RemoveSites empties) s1 = (OErr e, t_st t'))
      | CPanic =>
          (same_but_random (t_st t) (t_st t') /\ list_fault P (t_st t) L name sh rc OPanic) \/
           exists empties s1, unused P (t_st t) L name empties /\
             same_but_random (t_st t) s1 /\ exec P (RemoveSites empties) s1 = (OPanic, t_st t')
      | CStuck => False
      end
  | OErr e => process_simple P E path sp (List domain name sh rc vb) t = (CErr (Lib e), t)
  | OPanic => process_simple P E path sp (List domain name sh rc vb) t = (CPanic, t)
  | _ => False
  end.
Proof. intros P E path sp domain name sh rc vb t. exact (list_cmd_cases P sp domain name sh rc vb t). Qed.
Print Assumptions C42_any_state.

(** An alias, a site without passwords (it is removed), a site with three passwords. *)
Definition listing : list op :=
  [Reset (bs "secret"); SetStored (bs "b") (bs "n") [] (bs "p1"); Remove (bs "b") (bs "n") []; SetStored (bs "a") (bs "n") (bs "2") (bs "p2");
   SetGenerated (bs "a") (bs "n") (bs "1") 8 all_chars; SetStored (bs "a") (bs "m") [] (bs "p3"); SetNotes (bs "a") (bs "m") [] (bs "note"); SetAlias (bs "c") (bs "a")].
Definition list_all (sh vb : bool) : command := List (bs "*") (bs "*") sh false vb.
Definition lines (l : list bytes) : bytes := flat_map (fun x => x ++ [newline]) l.

Example C42_example :
  sound toy_release (mentioned listing) listing start /\
  (forall x, In x (sc_sites (mentioned listing)) -> host x = x) /\
  unlocked (snd (run toy_release listing start)) = true /\
  (forall wrs pp v, writes_ok toy_release listing wrs start -> w_mem (fst (vrun toy_release wrs nothing listing)) = Some (pp, v) -> forall domain, chains_match toy_release v domain) /\
  doing toy_release listing no_typing (process_simple toy_release toy_ext [] false (list_all true true))
    (fun r t => (r, t_shown t, fst (exec toy_release (ListSites (bs "*")) (t_st t)))) =
  (COk tt, lines [bs "Passwords for a:"; bs "    Aliases: c"; bs "    m (stored)"; bs "        p3"; bs "        Notes: note";
                  bs "    n (generated)"; bs "        MwuKwN>2"; bs "        Length: 8"; bs "        Allowed characters: abc ABC 789 +^;";
                  bs "    n (stored, revision: 2)"; bs "        p2"],
   OSites [(bs "a", None); (bs "c", Some (bs "a"))]).
Proof.
  split; [|split; [|split; [|split]]].
  - apply check_sound_ok; [apply toy_ok|]. vm_compute. reflexivity.
  - intros x Hx. assert (forallb (fun x => bytes_eqb (host x) x) (sc_sites (mentioned listing)) = true) as H by (vm_compute; reflexivity).
    rewrite forallb_forall in H. apply bytes_eqb_eq, H, Hx.
  - rewrite <- (final_run toy_release listing start unlocked). vm_compute. reflexivity.
  - apply chains_saved; [reflexivity|]. vm_compute. reflexivity.
  - vm_compute. reflexivity.
Qed.

(** * C43: what is shown *)

(** All matching passwords, each of them once, with the right values; sites in order, passwords in order of
    name and revision. *)
Theorem C43_output : forall P sc l s0, sound P sc l s0 ->
  (forall x, In x (sc_sites sc) -> host x = x) ->
  let s1 := snd (run P l s0) in
  unlocked s1 = true ->
  exists pp v wrs, s_primary s1 = Some pp /\ writes_ok P l wrs s0 /\ w_mem (fst (vrun P wrs nothing l)) = Some (pp, v) /\
  (forall E path sp domain name sh rc vb t t', chains_match P v domain -> ready t -> t_st t = s1 ->
   process_simple P E path sp (List domain name sh rc vb) t = (COk tt, t') ->
   exists groups, Forall (shows P pp v domain name sh rc) groups /\ StronglySorted before (map gr_site groups) /\
     (forall x i e, shows_site P v domain x -> shows_password P v name x i e -> In x (map gr_site groups)) /\
     t_shown t' = t_shown t ++ list_text sh rc vb groups /\
     ((forall i e, v_pw v !! i = Some e -> printable (pid_name i)) -> Forall (fun g => StronglySorted by_name (gr_items g)) groups)).
Proof. exact list_output. Qed.
Print Assumptions C43_output.

(** When everything is listed: exactly the passwords of the sites that are no aliases, and that are known or have an alias. *)
Theorem C43_everything : forall P sc l s0, sound P sc l s0 ->
  (forall x, In x (sc_sites sc) -> host x = x) ->
  let s1 := snd (run P l s0) in
  unlocked s1 = true ->
  exists pp v wrs, s_primary s1 = Some pp /\ writes_ok P l wrs s0 /\ w_mem (fst (vrun P wrs nothing l)) = Some (pp, v) /\
  (forall E path sp domain name sh rc vb t t', (forall x, p_wild P domain x = true /\ p_wild P name x = true) ->
   ready t -> t_st t = s1 ->
   process_simple P E path sp (List domain name sh rc vb) t = (COk tt, t') ->
   exists groups, t_shown t' = t_shown t ++ list_text sh rc vb groups /\
     forall i e, (exists g it, In g groups /\ In it (gr_items g) /\ gr_site g = pid_site i /\ sh_item it = (i, e)) <->
       v_pw v !! i = Some e /\ in_list v (pid_site i)).
Proof. exact list_everything. Qed.
Print Assumptions C43_everything.

Definition chained : list op :=
  [Reset (bs "secret"); SetAlias (bs "a") (bs "b"); SetStored (bs "c") (bs "m") [] (bs "p1"); SetAlias (bs "b") (bs "c"); SetStored (bs "a") (bs "n") [] (bs "#")].
Example C43_everything_example :
  sound toy_release (mentioned chained) chained start /\
  (forall x, In x (sc_sites (mentioned chained)) -> host x = x) /\
  unlocked (snd (run toy_release chained start)) = true /\
  (forall x, p_wild toy_release (bs "*") x = true) /\
  doing toy_release chained no_typing (process_simple toy_release toy_ext [] false (list_all true true)) (fun r t => (r, t_shown t)) =
  (COk tt, lines [bs "Passwords for c:"; bs "    Aliases: b"; bs "    m (stored)"; bs "        p1"]).
Proof.
  split; [|split; [|split; [|split]]].
  - apply check_sound_ok; [apply toy_ok|]. vm_compute. reflexivity.
  - cbn. intros x Hx. repeat (destruct Hx as [<-|Hx]; [reflexivity|]). destruct Hx.
  - rewrite <- (final_run toy_release chained start unlocked). vm_compute. reflexivity.
  - reflexivity.
  - vm_compute. reflexivity.
Qed.

(** In general the order is not that of names: the tab comes before the space. *)
Theorem C43_order_by_name_refuted :
  ~ (forall P E path sp t t' x n n' e e' L before_ after_,
       ready t -> process_simple P E path sp (List x (bs "*") false false false) t = (COk tt, t') ->
       fst (exec P (ListPasswords x (bs "*")) (t_st t)) = OPasswords L ->
       In (x, n, [], e) L -> In (x, n', [], e') L -> before n n' ->
       t_shown t' = t_shown t ++ before_ ++ item_text false false false (mk_shown (x, n', [], e') [] []) ++ after_ ->
       exists a b, before_ = a ++ item_text false false false (mk_shown (x, n, [], e) [] []) ++ b).
Proof.
  intros H. set (l := [Reset (bs "secret"); SetStored (bs "a") (bs "n") [] (bs "p1"); SetStored (bs "a") (bs "n" ++ [x09]) [] (bs "p2")]).
  set (t := typed no_typing (snd (run toy_release l start))).
  assert (ready t) as Hr by (apply typed_ready; vm_compute; reflexivity).
  set (c := process_simple toy_release toy_ext [] false (List (bs "a") (bs "*") false false false)).
  assert (doing toy_release l no_typing c (fun r t => (r, t_shown t)) =
    (COk tt, bs "Passwords for a:" ++ [newline] ++ bs "    n" ++ [x09] ++ bs " (stored)" ++ [newline] ++ bs "    n (stored)" ++ [newline])) as Hd
    by (vm_compute; reflexivity).
  rewrite doing_eq in Hd. fold t in Hd. destruct (c t) as [r t'] eqn:Ec.
  assert (r = COk tt) as -> by (exact (f_equal fst Hd)). apply (f_equal snd) in Hd. cbn [snd] in Hd.
  assert (exists e e' L, fst (exec toy_release (ListPasswords (bs "a") (bs "*")) (t_st t)) = OPasswords L /\
     In (bs "a", bs "n", [], e) L /\ In (bs "a", bs "n" ++ [x09], [], e') L /\ e_secret e = SFixed (bs "p1") /\ e_secret e' = SFixed (bs "p2"))
    as (e & e' & L & HL & H1 & H2 & He & He').
  { exists (mk_entry (SFixed (bs "p1")) []), (mk_entry (SFixed (bs "p2")) []),
      [(bs "a", bs "n", [], mk_entry (SFixed (bs "p1")) []); (bs "a", bs "n" ++ [x09], [], mk_entry (SFixed (bs "p2")) [])].
    split; [|split; [cbn; auto|split; [cbn; auto|split; reflexivity]]].
    change (t_st t) with (snd (run toy_release l start)). rewrite <- after_eq. vm_compute. reflexivity. }
  destruct (H toy_release toy_ext [] false t t' (bs "a") (bs "n") (bs "n" ++ [x09]) e e' L
     (bs "Passwords for a:" ++ [newline]) (bs "    n (stored)" ++ [newline]) Hr Ec HL H1 H2) as (a & b & Hab).
  - apply before_same. apply before_end.
  - rewrite Hd. unfold item_text. cbn [sh_item fst snd]. rewrite He'. reflexivity.
  - unfold item_text in Hab. cbn [sh_item fst snd] in Hab. rewrite He in Hab.
    assert (In "("%byte (bs "Passwords for a:" ++ [newline])) as Hin.
    { rewrite Hab. apply in_or_app. right. apply in_or_app. left. vm_compute. tauto. }
    vm_compute in Hin. repeat (destruct Hin as [Hin|Hin]; [discriminate Hin|]). exact Hin.
Qed.
Print Assumptions C43_order_by_name_refuted.

(** A site that was made an alias only after another site had become its alias: what is saved under the first alias can be
    retrieved, but is not in the list of everything. *)
Theorem C43_all_shown_refuted :
  ~ (forall P sc l s0, sound P sc l s0 -> (forall n, p_write P n = WriteOk) -> (forall x, In x (sc_sites sc) -> host x = x) ->
       unlocked (snd (run P l s0)) = true ->
       forall E path sp t t' x n r p, ready t -> t_st t = snd (run P l s0) ->
       process_simple P E path sp (List (bs "*") (bs "*") true false false) t = (COk tt, t') ->
       fst (exec P (Get x n r) (t_st t)) = OText p ->
       exists a b, t_shown t' = t_shown t ++ a ++ p ++ b).
Proof.
  intros H. set (l := chained).
  assert (sound toy_release (mentioned l) l start) as So by (apply check_sound_ok; [apply toy_ok|]; vm_compute; reflexivity).
  assert (unlocked (snd (run toy_release l start)) = true) as Hu
    by (rewrite <- (final_run toy_release l start unlocked); vm_compute; reflexivity).
  set (t := typed no_typing (snd (run toy_release l start))).
  assert (ready t) as Hr by (apply typed_ready; vm_compute; reflexivity).
  set (c := process_simple toy_release toy_ext [] false (List (bs "*") (bs "*") true false false)).
  assert (doing toy_release l no_typing c (fun r t => (r, t_shown t)) =
    (COk tt, bs "Passwords for c:" ++ [newline] ++ bs "    m (stored)" ++ [newline] ++ bs "        p1" ++ [newline])) as Hd
    by (vm_compute; reflexivity).
  rewrite doing_eq in Hd. fold t in Hd. destruct (c t) as [r t'] eqn:Ec.
  assert (r = COk tt) as -> by (exact (f_equal fst Hd)). apply (f_equal snd) in Hd. cbn [snd] in Hd.
  assert (fst (exec toy_release (Get (bs "a") (bs "n") []) (t_st t)) = OText (bs "#")) as Ha.
  { change (t_st t) with (snd (run toy_release l start)). rewrite <- after_eq. vm_compute. reflexivity. }
  destruct (H toy_release (mentioned l) l start So (fun _ => eq_refl)) with (t := t) (t' := t') (x := bs "a") (n := bs "n")
    (r := @nil byte) (p := bs "#") (E := toy_ext) (path := @nil byte) (sp := false) as (a & b & Hab);
    try assumption; try reflexivity.
  { cbn. intros x Hx. repeat (destruct Hx as [<-|Hx]; [reflexivity|]). destruct Hx. }
  assert (In "#"%byte (t_shown t')) as Hin.
  { rewrite Hab. apply in_or_app. right. apply in_or_app. right. left. reflexivity. }
  rewrite Hd in Hin. vm_compute in Hin. repeat (destruct Hin as [Hin|Hin]; [discriminate Hin|]). exact Hin.
Qed.
Print Assumptions C43_all_shown_refuted.

(** Nor is it in the list for the very name under which it is retrieved: passwords of another site are shown instead. *)
Theorem C43_site_shown_refuted :
  ~ (forall P sc l s0, sound P sc l s0 -> (forall n, p_write P n = WriteOk) -> (forall x, In x (sc_sites sc) -> host x = x) ->
       unlocked (snd (run P l s0)) = true ->
       forall E path sp t t' x n r p, ready t -> t_st t = snd (run P l s0) ->
       process_simple P E path sp (List x (bs "*") true false false) t = (COk tt, t') ->
       fst (exec P (Get x n r) (t_st t)) = OText p ->
       exists a b, t_shown t' = t_shown t ++ a ++ p ++ b).
Proof.
  intros H. set (l := chained).
  assert (sound toy_release (mentioned l) l start) as So by (apply check_sound_ok; [apply toy_ok|]; vm_compute; reflexivity).
  assert (unlocked (snd (run toy_release l start)) = true) as Hu
    by (rewrite <- (final_run toy_release l start unlocked); vm_compute; reflexivity).
  set (t := typed no_typing (snd (run toy_release l start))).
  assert (ready t) as Hr by (apply typed_ready; vm_compute; reflexivity).
  set (c := process_simple toy_release toy_ext [] false (List (bs "a") (bs "*") true false false)).
  assert (doing toy_release l no_typing c (fun r t => (r, t_shown t)) =
    (COk tt, bs "Passwords for b:" ++ [newline] ++ bs "    m (stored)" ++ [newline] ++ bs "        p1" ++ [newline])) as Hd
    by (vm_compute; reflexivity).
  rewrite doing_eq in Hd. fold t in Hd. destruct (c t) as [r t'] eqn:Ec.
  assert (r = COk tt) as -> by (exact (f_equal fst Hd)). apply (f_equal snd) in Hd. cbn [snd] in Hd.
  assert (fst (exec toy_release (Get (bs "a") (bs "n") []) (t_st t)) = OText (bs "#")) as Ha.
  { change (t_st t) with (snd (run toy_release l start)). rewrite <- after_eq. vm_compute. reflexivity. }
  destruct (H toy_release (mentioned l) l start So (fun _ => eq_refl)) with (t := t) (t' := t') (x := bs "a") (n := bs "n")
    (r := @nil byte) (p := bs "#") (E := toy_ext) (path := @nil byte) (sp := false) as (a & b & Hab);
    try assumption; try reflexivity.
  { cbn. intros x Hx. repeat (destruct Hx as [<-|Hx]; [reflexivity|]). destruct Hx. }
  assert (In "#"%byte (t_shown t')) as Hin.
  { rewrite Hab. apply in_or_app. right. apply in_or_app. right. left. reflexivity. }
  rewrite Hd in Hin. vm_compute in Hin. repeat (destruct Hin as [Hin|Hin]; [discriminate Hin|]). exact Hin.
Qed.
Print Assumptions C43_site_shown_refuted.

(** * C42 without the conditions *)

(** An alias for a site that was never used: listing everything fails. *)
Theorem C42_always_works_refuted :
  ~ (forall P sc l s0, sound P sc l s0 -> (forall n, p_write P n = WriteOk) -> (forall x, In x (sc_sites sc) -> host x = x) ->
       unlocked (snd (run P l s0)) = true ->
       forall E path sp t, ready t -> t_st t = snd (run P l s0) ->
       exists t', process_simple P E path sp (List (bs "*") (bs "*") false false false) t = (COk tt, t')).
Proof.
  intros H. set (l := [Reset (bs "secret"); SetAlias (bs "b") (bs "a")]).
  assert (sound toy_release (mentioned l) l start) as So by (apply check_sound_ok; [apply toy_ok|]; vm_compute; reflexivity).
  assert (unlocked (snd (run toy_release l start)) = true) as Hu
    by (rewrite <- (final_run toy_release l start unlocked); vm_compute; reflexivity).
  destruct (H toy_release (mentioned l) l start So (fun _ => eq_refl)) with (E := toy_ext) (path := @nil byte) (sp := false)
    (t := typed no_typing (snd (run toy_release l start))) as (t' & Ht').
  - cbn. intros x [<-|[<-|[]]]; reflexivity.
  - exact Hu.
  - apply typed_ready. vm_compute. reflexivity.
  - reflexivity.
  - assert (doing toy_release l no_typing (process_simple toy_release toy_ext [] false (List (bs "*") (bs "*") false false false)) (fun r _ => r) =
      CErr (Lib KeyMissing)) as Hd by (vm_compute; reflexivity).
    rewrite doing_eq, Ht' in Hd. discriminate Hd.
Qed.
Print Assumptions C42_always_works_refuted.

(** A site name that still starts with "www.": listing drops its entry although there is a password, and does not show the password. *)
Theorem C42_keeps_sites_in_use_refuted :
  ~ (forall P sc l s0, sound P sc l s0 -> (forall n, p_write P n = WriteOk) -> unlocked (snd (run P l s0)) = true ->
       forall E path sp t t' x n r L, ready t -> t_st t = snd (run P l s0) ->
       process_simple P E path sp (List (bs "*") (bs "*") false false false) t = (COk tt, t') ->
       fst (exec P (Has x n r) (t_st t')) = OBool true ->
       fst (exec P (ListSites (bs "*")) (t_st t')) = OSites L -> In (resolved P (t_st t') x, None) L).
Proof.
  intros H. set (l := [Reset (bs "secret"); SetStored (bs "www.www.a") (bs "n") [] (bs "p1")]).
  assert (sound toy_release (mentioned l) l start) as So by (apply check_sound_ok; [apply toy_ok|]; vm_compute; reflexivity).
  assert (unlocked (snd (run toy_release l start)) = true) as Hu
    by (rewrite <- (final_run toy_release l start unlocked); vm_compute; reflexivity).
  set (t := typed no_typing (snd (run toy_release l start))).
  assert (ready t) as Hr by (apply typed_ready; vm_compute; reflexivity).
  set (c := process_simple toy_release toy_ext [] false (List (bs "*") (bs "*") false false false)).
  assert (doing toy_release l no_typing c (fun r t => (r, t_shown t, fst (exec toy_release (Has (bs "www.www.a") (bs "n") []) (t_st t)),
     fst (exec toy_release (ListSites (bs "*")) (t_st t)))) =
     (COk tt, bs "No matching passwords found." ++ [newline], OBool true, OSites [])) as Hd by (vm_compute; reflexivity).
  rewrite doing_eq in Hd. fold t in Hd. destruct (c t) as [r t'] eqn:Ec.
  assert (r = COk tt) as -> by (exact (f_equal (fun x => fst (fst (fst x))) Hd)).
  exact (H toy_release (mentioned l) l start So (fun _ => eq_refl) Hu toy_ext [] false t t' (bs "www.www.a") (bs "n") [] [] Hr eq_refl Ec
    (f_equal (fun x => snd (fst x)) Hd) (f_equal snd Hd)).
Qed.
Print Assumptions C42_keeps_sites_in_use_refuted.

(** An alias of an alias: listing the former drops the latter. *)
Theorem C42_keeps_aliases_refuted :
  ~ (forall P sc l s0, sound P sc l s0 -> (forall n, p_write P n = WriteOk) -> (forall x, In x (sc_sites sc) -> host x = x) ->
       unlocked (snd (run P l s0)) = true ->
       forall E path sp domain t t' x a, ready t -> t_st t = snd (run P l s0) ->
       process_simple P E path sp (List domain (bs "*") false false false) t = (COk tt, t') ->
       fst (exec P (GetAlias x) (t_st t)) = OText a -> fst (exec P (GetAlias x) (t_st t')) = OText a).
Proof.
  intros H. set (l := [Reset (bs "secret"); SetAlias (bs "x") (bs "a"); SetAlias (bs "a") (bs "b")]).
  assert (sound toy_release (mentioned l) l start) as So by (apply check_sound_ok; [apply toy_ok|]; vm_compute; reflexivity).
  assert (unlocked (snd (run toy_release l start)) = true) as Hu
    by (rewrite <- (final_run toy_release l start unlocked); vm_compute; reflexivity).
  set (t := typed no_typing (snd (run toy_release l start))).
  assert (ready t) as Hr by (apply typed_ready; vm_compute; reflexivity).
  set (c := process_simple toy_release toy_ext [] false (List (bs "x") (bs "*") false false false)).
  assert (doing toy_release l no_typing c (fun r t => (r, fst (exec toy_release (GetAlias (bs "a")) (t_st t)))) =
     (COk tt, OErr NoSuchAlias)) as Hd by (vm_compute; reflexivity).
  rewrite doing_eq in Hd. fold t in Hd. destruct (c t) as [r t'] eqn:Ec.
  assert (r = COk tt) as -> by (exact (f_equal fst Hd)). apply (f_equal snd) in Hd. cbn [snd] in Hd.
  assert (fst (exec toy_release (GetAlias (bs "a")) (t_st t)) = OText (bs "b")) as Ha.
  { change (t_st t) with (snd (run toy_release l start)). rewrite <- after_eq. vm_compute. reflexivity. }
  rewrite (H toy_release (mentioned l) l start So (fun _ => eq_refl)) with (t := t) (t' := t') (x := bs "a") (a := bs "b")
    (E := toy_ext) (path := @nil byte) (sp := false) (domain := bs "x") in Hd; try assumption; try reflexivity; [discriminate Hd|].
  cbn. intros x [<-|[<-|[<-|[<-|[]]]]]; reflexivity.
Qed.
Print Assumptions C42_keeps_aliases_refuted.

(** * C51: processes one after the other *)

(** Whatever was done before, a new process shows what is in the file according to the vault of C23, and nothing at
    all if there is no usable file. *)
Theorem C51_next_process : forall P E path sc l s0, sound P sc l s0 -> let s1 := snd (run P l s0) in
  exists wrs, writes_ok P l wrs s0 /\
  match w_file (fst (vrun P wrs nothing l)) with
  | None => forall sp cmd t, t_st t = s1 -> (forall y, cmd <> SetPrimary y) ->
      exists e, main P E path (mk_args sp cmd) t = (Failure, ended (complained (Lib e) (begins P t)))
  | Some (p, v) => covered sc (Unlock p) -> 6 <= length p ->
      forall sp t bad c es, t_st t = s1 -> t_buf t = [] -> entered sp t (map Some bad ++ Some c :: es) -> trim c = p ->
      Forall (fun b => length (trim b) < 6 \/ (covered sc (Unlock (trim b)) /\ trim b <> p)) bad ->
      exists t1, opened_by P p (map complaint bad) sp es t t1 /\
      (forall x n r, covered sc (Has x n r) ->
        main P E path (mk_args sp (Show x n r false)) t =
        match v_pw v !! (target v x, n, rev_of r) with
        | Some e => match reveal P p (target v x, n, rev_of r) (e_secret e) with
                    | OText text => (Success, ended (show_text (bs "Password retrieved." ++ text ++ [newline]) t1))
                    | OErr err => (Failure, ended (complained (Lib err) t1))
                    | _ => (Aborted, t1)
                    end
        | None => (Failure, ended (complained (Lib KeyMissing) t1))
        end) /\
      (forall x n r, covered sc (Has x n r) ->
        main P E path (mk_args sp (Notes x n r false)) t =
        match v_pw v !! (target v x, n, rev_of r) with
        | Some e => (Success, ended (show_text (notes_text (e_notes e)) t1))
        | None => (Failure, ended (complained (Lib KeyMissing) t1))
        end) /\
      (forall x, covered sc (GetAlias x) ->
        main P E path (mk_args sp (Alias x None false)) t =
        match v_sites v !! host x with
        | Some (Some a) => (Success, ended (show_text (bs "'" ++ x ++ bs "' is an alias for '" ++ a ++ bs "'." ++ [newline]) t1))
        | _ => (Failure, ended (complained (Lib NoSuchAlias) t1))
        end) /\
      ((forall x, In x (sc_sites sc) -> host x = x) -> forall domain name sh rc vb, chains_match P v domain ->
        exists r, list_goes P sc p v domain name sh rc vb t1 r /\
          main P E path (mk_args sp (List domain name sh rc vb)) t = ends r)
  end.
Proof. exact file_process. Qed.
Print Assumptions C51_next_process.

(** What a process does that makes one change. *)
Theorem C51_one_change : forall P E path p sp t bad msgs c es cmd o line,
  fst (exec P (Unlock p) (snd (exec P Restart (t_st t)))) = ODone -> 6 <= length p ->
  t_buf t = [] -> entered sp t (map Some bad ++ Some c :: es) -> trim c = p ->
  Forall2 (rejected P (snd (exec P Restart (t_st t)))) bad msgs -> one_call cmd o line ->
  let '(x, t') := main P E path (mk_args sp cmd) t in
  match fst (exec P o (snd (run P [Restart; Unlock p] (t_st t)))) with
  | ODone => x = Success /\ t_st t' = snd (run P [Restart; Unlock p; o; Lock] (t_st t)) /\
      t_err t' = t_err t ++ msgs /\
      exists prompts, t_shown t' = t_shown t ++ prompts ++ line ++ [newline] /\ (sp = false -> prompts = [])
  | OErr e => x = Failure /\ t_st t' = snd (run P [Restart; Unlock p; o; Lock] (t_st t)) /\
      t_err t' = t_err t ++ msgs ++ [Lib e]
  | _ => x = Aborted
  end.
Proof. exact one_call_process. Qed.
Print Assumptions C51_one_change.

(** A password stored by one process is shown by the next one. *)
Theorem C51_stored_then_shown : forall P E path sc l s0 p spA tA badA msgsA c pw esA x n r xA tA',
  let l2 := l ++ [Restart; Unlock p; SetStored x n r (trim pw); Lock] in
  sound P sc l2 s0 -> t_st tA = snd (run P l s0) -> t_buf tA = [] -> 6 <= length p ->
  fst (exec P (Unlock p) (snd (exec P Restart (t_st tA)))) = ODone ->
  entered spA tA (map Some badA ++ Some c :: Some pw :: esA) -> trim c = p ->
  Forall2 (rejected P (snd (exec P Restart (t_st tA)))) badA msgsA ->
  main P E path (mk_args spA (AddStored x n r false true)) tA = (xA, tA') -> xA = Success ->
  t_st tA' = snd (run P l2 s0) /\
  forall sp t bad c' es, t_st t = t_st tA' -> t_buf t = [] -> entered sp t (map Some bad ++ Some c' :: es) -> trim c' = p ->
  Forall (fun b => length (trim b) < 6 \/ (covered sc (Unlock (trim b)) /\ trim b <> p)) bad ->
  exists t1, opened_by P p (map complaint bad) sp es t t1 /\
    main P E path (mk_args sp (Show x n r false)) t =
    (Success, ended (show_text (bs "Password retrieved." ++ trim pw ++ [newline]) t1)).
Proof. exact stored_then_shown. Qed.
Print Assumptions C51_stored_then_shown.

(** The same with a generated password. *)
Theorem C51_generated_then_shown : forall P E path sc l s0 p spA tA badA msgsA c esA x n r len nl nu nd ns xA tA',
  let cs := wanted nl nu nd ns in
  let l2 := l ++ [Restart; Unlock p; SetGenerated x n r len cs; Lock] in
  sound P sc l2 s0 -> t_st tA = snd (run P l s0) -> t_buf tA = [] -> 6 <= length p ->
  fst (exec P (Unlock p) (snd (exec P Restart (t_st tA)))) = ODone ->
  entered spA tA (map Some badA ++ Some c :: esA) -> trim c = p ->
  Forall2 (rejected P (snd (exec P Restart (t_st tA)))) badA msgsA -> cs <> cs_empty ->
  main P E path (mk_args spA (Add x n r len nl nu nd ns true)) tA = (xA, tA') -> xA = Success ->
  t_st tA' = snd (run P l2 s0) /\
  forall sp t bad c' es, t_st t = t_st tA' -> t_buf t = [] -> entered sp t (map Some bad ++ Some c' :: es) -> trim c' = p ->
  Forall (fun b => length (trim b) < 6 \/ (covered sc (Unlock (trim b)) /\ trim b <> p)) bad ->
  exists t1, opened_by P p (map complaint bad) sp es t t1 /\
    main P E path (mk_args sp (Show x n r false)) t =
    match reveal P p (resolved P (t_st t1) x, n, rev_of r) (SGenerated len cs) with
    | OText text => (Success, ended (show_text (bs "Password retrieved." ++ text ++ [newline]) t1))
    | OErr err => (Failure, ended (complained (Lib err) t1))
    | _ => (Aborted, t1)
    end.
Proof. exact generated_then_shown. Qed.
Print Assumptions C51_generated_then_shown.

(** Three processes: a password is added (after a wrong primary password), an alias is added, the password is shown. *)
Definition ex_story : list op :=
  [Reset (bs "secret"); Restart; Unlock (bs "secret"); SetStored (bs "a") (bs "n") [] (bs "pw"); Lock; Restart; Unlock (bs "secret"); SetAlias (bs "b") (bs "a"); Lock].
Example C51_example :
  let P := toy_release in
  sound P (mentioned ex_story) ex_story start /\
  covered (mentioned ex_story) (Unlock (bs "secret")) /\ covered (mentioned ex_story) (Has (bs "b") (bs "n") []) /\
  entered false (typed (secrets_only [bs "wrong!"; bs "secret "; bs " pw"]) start) (map Some [bs "wrong!"] ++ Some (bs "secret ") :: [Some (bs " pw")]) /\
  running P [Reset (bs "secret")] (secrets_only [bs "wrong!"; bs "secret "; bs " pw"]) (mk_args false (AddStored (bs "a") (bs "n") [] false true))
    (fun x t => (x, t_shown t, t_err t)) = (Success, bs "Password added." ++ [newline], [Lib DecryptionFailure]) /\
  running P (firstn 5 ex_story) (secrets_only [bs "secret"]) (mk_args false (Alias (bs "b") (Some (bs "a")) false)) (fun x t => (x, t_shown t)) =
    (Success, bs "Alias added." ++ [newline]) /\
  running P ex_story (secrets_only [bs "secret"]) (mk_args false (Show (bs "b") (bs "n") [] false)) (fun x t => (x, t_shown t)) =
    (Success, bs "Password retrieved.pw" ++ [newline]).
Proof.
  cbv zeta. split; [apply check_sound_ok; [apply toy_ok|]; vm_compute; reflexivity|].
  split; [repeat split; intros ? H; vm_compute in H |- *; tauto|]. split; [repeat split; intros ? H; vm_compute in H |- *; tauto|].
  split; [reflexivity|]. split; [vm_compute; reflexivity|]. split; vm_compute; reflexivity.
Qed.
