(** C72: a machine with several storage files. *)
From stdpp Require Import gmap.
From Verif Require Import M_Base M_Utf8 M_Prims M_Types M_Recovery M_Storage M_Passwords S_Vault M_History S_Api S_History M_Cli S_Cli M_Args S_Args
  M_Files S_Files P_Files M_Machine S_Machine P_Machine T_Toy T_History T_Cli Prop_Files.

(** Whatever is done on the machine, with whatever files: a storage file that is not taken for a history file is what calls of the
    library by uses of this very file made of it, and everything said about such calls elsewhere applies. *)
Theorem C72_isolated : forall O Ps E cwd root p l m0,
  (forall q, prims_ok (Ps q)) -> externals_valid E -> Forall usage_valid l -> (forall u, In u l -> ~ keeps_history cwd root u p) ->
  read (m_files m0) p = s_disk (m_state m0 p) ->
  let m := invoke_all O Ps E cwd root l m0 in
  exists ops, m_state m p = snd (run (env O Ps m p) ops (m_state m0 p)) /\ read (m_files m) p = s_disk (m_state m p) /\
    calm_run (env O Ps m p) ops (m_state m0 p) /\ Forall (call_for cwd root E p l) ops.
Proof. intros O Ps E cwd root p l m0 HP HE Hv Hh Hr. exact (isolated O Ps E cwd root HP HE p l m0 (m_state m0 p) [] Hv Hh Hr eq_refl I). Qed.
Print Assumptions C72_isolated.

(** The next use of this file does and prints what the models with one file say. *)
Theorem C72_next : forall O Ps E cwd root u m p storage stdin wait c, command_line (u_words u) storage stdin wait c ->
  p = match storage with Some text => resolve cwd text | None => default_storage_path root end ->
  read (m_files m) p = s_disk (m_state m p) ->
  fst (invoke O Ps E cwd root u m) = Some (program (env O Ps m p) E (match storage with Some text => text | None => display p end)
    (mk_inv storage wait (mk_args stdin c)) (with_st (m_state m p) (u_term u))).
Proof. exact one_result. Qed.
Print Assumptions C72_next.

(** Other files: nothing is changed but storage files and history files that are named, directories that exist stay, only directories
    of storage files are created; commands that only show something change nothing; neither do words that are no command line. *)
Theorem C72_untouched : forall O Ps E cwd root l m q,
  (forall p, prims_ok (Ps p)) -> externals_valid E -> Forall usage_valid l ->
  kept cwd root l (m_files m) (m_files (invoke_all O Ps E cwd root l m)) q /\
  (tree (m_files m) -> tree (m_files (invoke_all O Ps E cwd root l m))).
Proof. intros O Ps E cwd root l m q HP HE Hv. split; [apply all_kept; assumption|intros Ht; apply all_tree; assumption]. Qed.
Print Assumptions C72_untouched.
Theorem C72_looking : forall O Ps E cwd root u m, (forall p, prims_ok (Ps p)) -> externals_valid E -> usage_valid u ->
  (forall p c, uses cwd root u p c -> looks c -> m_files (snd (invoke O Ps E cwd root u m)) = m_files m) /\
  ((forall p c, ~ uses cwd root u p c) -> invoke O Ps E cwd root u m = (None, m)).
Proof. intros O Ps E cwd root u m HP HE Hu. split; [intros p c; apply looking; assumption|apply rejected]. Qed.
Print Assumptions C72_looking.

(** Vaults do not interfere: if nothing is in the way of the storage file and the others are elsewhere, then it makes no difference what is
    done with the others or which other files there are: the same is printed, and the same is saved. *)
Theorem C72_noninterference : forall O Ps E cwd root p l l' m m' u,
  (forall q, prims_ok (Ps q)) -> externals_valid E -> no_trouble O -> p <> [] -> same_uses cwd root p l l' ->
  Forall (fun u => usage_valid u /\ elsewhere cwd root p u) l -> Forall (fun u => usage_valid u /\ elsewhere cwd root p u) l' ->
  way_clear p (m_files m) -> way_clear p (m_files m') -> same_at p m m' ->
  read (m_files (invoke_all O Ps E cwd root l m)) p = read (m_files (invoke_all O Ps E cwd root l' m')) p /\
  (usage_valid u -> elsewhere cwd root p u -> (exists c, uses cwd root u p c) ->
   fst (invoke O Ps E cwd root u (invoke_all O Ps E cwd root l m)) = fst (invoke O Ps E cwd root u (invoke_all O Ps E cwd root l' m'))).
Proof. intros O Ps E cwd root p l l' m m' u HP HE HO Hp. exact (no_difference O Ps E cwd root HP HE p HO Hp l l' m m' u). Qed.
Print Assumptions C72_noninterference.

(** From words to what is shown: after any uses of the machine, [show] with the right primary password shows what the vault of C23 contains after the
    calls made for this file; every command but set-primary fails if there is no usable file. *)
Theorem C72_show : forall O Ps E cwd root l m0 p, (forall q, prims_ok (Ps q)) -> externals_valid E ->
  Forall usage_valid l -> (forall u, In u l -> ~ keeps_history cwd root u p) ->
  read (m_files m0) p = s_disk (m_state m0 p) -> fresh (Ps p) (m_state m0 p) ->
  let m := invoke_all O Ps E cwd root l m0 in
  exists ops, Forall (call_for cwd root E p l) ops /\ m_state m p = snd (run (env O Ps m p) ops (m_state m0 p)) /\
  forall sc, (forall x, In x (sc_sites sc) -> utf8 x = true) ->
    (forall n r, In (n, r) (sc_ids sc) -> utf8 n = true /\ utf8 r = true /\ ~ In x00 n) -> Forall (covered sc) ops ->
    assumptions (Ps p) (sc_sites sc) (sc_ids sc) (sc_pws sc) (s_rand (m_state m p)) ->
  exists wrs, writes_ok (env O Ps m p) ops wrs (m_state m0 p) /\
  match w_file (fst (vrun (env O Ps m p) wrs nothing ops)) with
  | None => forall u storage stdin c, command_line (u_words u) storage stdin false c ->
      p = match storage with Some text => resolve cwd text | None => default_storage_path root end -> (forall y, c <> SetPrimary y) ->
      exists t', fst (invoke O Ps E cwd root u m) = Some (Failure, t')
  | Some (pp, v) => covered sc (Unlock pp) -> 6 <= length pp ->
      forall u storage stdin x n r bad typed es, command_line (u_words u) storage stdin false (Show x n r false) ->
      p = match storage with Some text => resolve cwd text | None => default_storage_path root end ->
      t_buf (u_term u) = [] -> entered stdin (u_term u) (map Some bad ++ Some typed :: es) -> trim typed = pp ->
      Forall (fun b => length (trim b) < 6 \/ (covered sc (Unlock (trim b)) /\ trim b <> pp)) bad -> covered sc (Has x n r) ->
      exists t1, opened_by (env O Ps m p) pp (map complaint bad) stdin es (with_st (m_state m p) (u_term u)) t1 /\
        fst (invoke O Ps E cwd root u m) = Some
          match v_pw v !! (target v x, n, rev_of r) with
          | Some e => match reveal (env O Ps m p) pp (target v x, n, rev_of r) (e_secret e) with
                      | OText text => (Success, ended (show_text (bs "Password retrieved." ++ text ++ [newline]) t1))
                      | OErr err => (Failure, ended (complained (Lib err) t1))
                      | _ => (Aborted, t1)
                      end
          | None => (Failure, ended (complained (Lib KeyMissing) t1))
          end
  end.
Proof. intros O Ps E cwd root l m0 p HP HE. exact (shows O Ps E cwd root HP HE l m0 p). Qed.
Print Assumptions C72_show.

(** Which file is used: the path as it is shown names the file from wherever the program is started, relative paths name files below the
    current directory. *)
Theorem C72_paths : forall cwd,
  (forall p, p <> [] -> names p -> resolve cwd (display p) = p) /\
  (forall l, l <> [] -> names l -> resolve cwd (join (bs "/") l) = rev l ++ cwd) /\
  (forall l, l <> [] -> names l -> resolve cwd (bs "/" ++ join (bs "/") l) = rev l).
Proof. intros cwd. split; [apply resolve_display|]. split; [apply resolve_relative|apply resolve_absolute]. Qed.
Print Assumptions C72_paths.

(** * Example *)

Definition ex_cwd : fpath := [bs "user"; bs "home"].
Definition ex_machine : machine := mk_machine home (fun _ => start) (fun _ _ => WriteOk).
Definition use (words : list bytes) (y : typing) (h : option bytes) : usage := mk_usage words (typed y start) h.
Definition file_a : fpath := bs "a" :: ex_cwd.
Definition ex_uses : list usage :=
  [use [bs "-c"; bs "a"; bs "set-primary"] (secrets_only [bs "secret"; bs "secret"]) None;
   use [bs "set-primary"] (secrets_only [bs "another"; bs "another"]) None;
   use [bs "--storage=b/c"; bs "set-primary"] (secrets_only [bs "secret"; bs "secret"]) None;
   use [bs "-c./a"; bs "add-stored"; bs "x"; bs "n"] (secrets_only [bs "secret"; bs "pw"]) None;
   use [bs "nonsense"] no_typing None;
   use [bs "-cb//c"; bs "add-stored"; bs "x"; bs "n"] (secrets_only [bs "secret"; bs "other"]) None;
   use [bs "shell"] (mk_typing [] [Some (bs "another")] [] [] [Line (bs "show"); Eof]) (Some (bs "show"))].
Definition after (l : list usage) : machine := invoke_all calm_os (fun _ => toy_release) toy_ext ex_cwd config l ex_machine.
Definition then_shows (l : list usage) (u : usage) : option (exit * bytes * list message) :=
  match fst (invoke calm_os (fun _ => toy_release) toy_ext ex_cwd config u (after l)) with
  | Some (x, t) => Some (x, t_shown t, t_err t)
  | None => None
  end.
Definition show_words (c : bytes) : usage := use [bs "-c"; c; bs "show"; bs "x"; bs "n"] (secrets_only [bs "secret"]) None.
Example C72_example :
  then_shows ex_uses (show_words (bs "a")) = Some (Success, bs "Password retrieved.pw" ++ [newline], []) /\
  then_shows ex_uses (show_words (bs "/home/user/b/c")) = Some (Success, bs "Password retrieved.other" ++ [newline], []) /\
  then_shows ex_uses (show_words (bs "d")) = Some (Failure, [], [Lib FileReadFailure]) /\
  then_shows ex_uses (use [bs "show"] no_typing None) = None /\
  map (kind_of (m_files (after ex_uses))) [file_a; bs "b" :: ex_cwd; bs "c" :: bs "b" :: ex_cwd; bs "d" :: ex_cwd; default_history_path config; default_storage_path config]
    = [Some false; Some true; Some false; None; Some false; Some false] /\
  resolve ex_cwd (bs "./x//y") = [bs "y"; bs "x"] ++ ex_cwd.
Proof. vm_compute. repeat split. Qed.

Lemma uses_of u q c : uses ex_cwd config u q c ->
  match parse_args (u_words u) with Some i => storage_file ex_cwd config i = q | None => False end.
Proof. intros H. apply uses_parse in H. destruct H as (i & -> & H & _). exact H. Qed.
Lemma keeps_of u h : keeps_history ex_cwd config u h -> u_history u <> None /\ h = history_file ex_cwd config (u_words u).
Proof. intros [H1 H2]. split; [exact H1|]. apply history_unique, H2. Qed.

(** What is done with other files makes no difference to [a]. *)
Example C72_example_apart :
  same_uses ex_cwd config file_a ex_uses [nth 0 ex_uses (use [] no_typing None); nth 3 ex_uses (use [] no_typing None)] /\
  Forall (fun u => usage_valid u /\ elsewhere ex_cwd config file_a u) ex_uses /\
  way_clear file_a (m_files ex_machine) /\ same_at file_a ex_machine ex_machine /\
  (exists c, uses ex_cwd config (show_words (bs "a")) file_a c) /\ elsewhere ex_cwd config file_a (show_words (bs "a")).
Proof.
  assert (forall cs x q, cs ++ q = [x; bs "user"; bs "home"] -> q = [x; bs "user"; bs "home"] \/ q = [bs "user"; bs "home"] \/ q = [bs "home"] \/ q = []) as Hs.
  { intros cs x q H. destruct cs as [|c1 [|c2 [|c3 cs]]]; cbn [app] in H; [auto|injection H as _ ->; auto|injection H as _ _ ->; auto|].
    injection H as _ _ _ H. apply app_eq_nil in H. destruct H as [_ ->]. auto. }
  assert (forall u, (match parse_args (u_words u) with Some i => existsb (fun q => if decide (storage_file ex_cwd config i = q) then true else false)
      [file_a; bs "c" :: bs "b" :: ex_cwd; default_storage_path config] | None => true end = true) ->
      (u_history u = None \/ history_file ex_cwd config (u_words u) = default_history_path config) -> elsewhere ex_cwd config file_a u) as He.
  { intros u Hc Hh. split.
    - intros q c Hu Hq. apply uses_of in Hu. destruct (parse_args (u_words u)) as [i|]; [|destruct Hu]. rewrite Hu in Hc. cbn [existsb] in Hc.
      destruct (decide (q = file_a)); [contradiction|].
      assert (q = bs "c" :: bs "b" :: ex_cwd \/ q = default_storage_path config) as Hq'.
      { destruct (decide (q = bs "c" :: bs "b" :: ex_cwd)); [auto|]. destruct (decide (q = default_storage_path config)); [auto|discriminate Hc]. }
      split; intros [cs [Hcs Hx]].
      + symmetry in Hx. apply Hs in Hx. destruct Hq' as [-> | ->]; destruct Hx as [Hx|[Hx|[Hx|Hx]]]; discriminate Hx.
      + destruct Hq' as [-> | ->]; repeat (destruct cs as [|? cs]; cbn [app] in Hx; [discriminate Hx|injection Hx as ? Hx]); destruct cs; discriminate Hx.
    - intros h Hk. apply keeps_of in Hk. destruct Hk as [H1 ->]. destruct Hh as [Hh|Hh]; [contradiction|]. rewrite Hh. split; [discriminate|].
      intros [cs [_ Hx]]. symmetry in Hx. apply Hs in Hx. destruct Hx as [Hx|[Hx|[Hx|Hx]]]; discriminate Hx. }
  split; [|split; [|split; [|split; [|split]]]].
  - apply su_both. repeat (apply su_left; [intros c Hu; apply uses_of in Hu; vm_compute in Hu; discriminate Hu|]). apply su_both.
    repeat (apply su_left; [intros c Hu; apply uses_of in Hu; vm_compute in Hu; first [discriminate Hu|destruct Hu]|]). apply su_nil.
  - repeat (constructor; [split; [split; [repeat constructor|repeat split; repeat constructor]|apply He; [vm_compute; reflexivity|first [left; reflexivity|right; vm_compute; reflexivity]]]|]). constructor.
  - split; [exact home_tree|]. split; [|discriminate]. intros q t [cs [Hcs Hx]]. symmetry in Hx. apply Hs in Hx.
    destruct Hx as [-> |[-> |[-> | ->]]]; discriminate.
  - split; [reflexivity|]. split; [reflexivity|]. split; [reflexivity|]. intros k Hk. reflexivity.
  - exists (Show (bs "x") (bs "n") (bs "1") false). apply uses_parse. eexists. split; [vm_compute; reflexivity|]. split; reflexivity.
  - apply He; [vm_compute; reflexivity|left; reflexivity].
Qed.
