(** C71: files and directories. *)
From stdpp Require Import gmap.
From Verif Require Import M_Base M_Prims M_Types M_Storage M_Passwords S_Vault M_History S_Api S_History M_Cli S_Cli M_Files S_Files P_Files
  T_Toy T_History T_Cli.

(** How saving ends: creating directories fails if and only if a file is in the way or the system refuses to create one that
    is missing; then opening the file fails if it is a directory or the system refuses; nothing else fails but writing. *)
Theorem C71_outcome : forall O n p text fs, tree fs -> p <> [] ->
  match fst (save O n p text fs) with
  | CreateDirFails => no_directory O n p fs
  | OpenFails => ~ no_directory O n p fs /\ (fs !! p = Some Dir \/ o_open O n = true)
  | WriteOk => ~ no_directory O n p fs /\ fs !! p <> Some Dir /\ o_open O n = false /\ o_write O n = None
  | WriteFailsAfter k => ~ no_directory O n p fs /\ fs !! p <> Some Dir /\ o_open O n = false /\ o_write O n = Some k
  end.
Proof. exact save_outcome. Qed.
Print Assumptions C71_outcome.

(** Calls of the library change no file but the storage file, and create no directories but those it is in. *)
Theorem C71_untouched : forall O P p l s fs, let fs' := snd (calls_on O P p l s fs) in
  only_changes p fs fs' /\ (tree fs -> tree fs').
Proof. intros O P p l s fs. split; [apply calls_only|apply calls_tree]. Qed.
Print Assumptions C71_untouched.

(** The file the other theorems talk about is the one in the file system, and everything they say applies: the calls behave like a
    history in which writing ends as the file system decides. *)
Theorem C71_runs : forall O P p l s fs, prims_ok P -> read fs p = s_disk s ->
  fst (calls_on O P p l s fs) = run (with_writes P (answers O p (s_flushes s) fs)) l s /\
  read (snd (calls_on O P p l s fs)) p = s_disk (snd (fst (calls_on O P p l s fs))).
Proof. intros O P p l s fs HP Hr. split; [apply runs_on, HP|apply calls_read; assumption]. Qed.
Print Assumptions C71_runs.

(** The same for processes, one after the other. Those which only look at something leave the file system as it is. *)
Theorem C71_processes : forall O P E path p l s fs, prims_ok P -> externals_valid E -> Forall process_valid l -> read fs p = s_disk s ->
  let s' := processes (with_writes P (answers O p (s_flushes s) fs)) E path l s in
  let fs' := files_left O p (s_flushes s) fs s' in
  (exists ops rs, calls_on O P p ops s fs = (rs, s', fs') /\ Forall op_valid ops /\
    Forall (fun o => o = Restart \/ o = Lock \/ exists a t, In (a, t) l /\ session_calls E (a_command a) o) ops) /\
  read fs' p = s_disk s' /\ only_changes p fs fs' /\ (tree fs -> tree fs') /\
  (Forall (fun x => looks (a_command (fst x))) l -> fs' = fs).
Proof. intros O P E path p l s fs HP HE Hl Hr. split; [apply processes_on; assumption|apply processes_files; assumption]. Qed.
Print Assumptions C71_processes.

(** If the system refuses nothing, then all saves work, or none ever will and the reason can be seen before. *)
Theorem C71_works : forall O p n fs m, no_trouble O -> tree fs -> p <> [] ->
  (forall q t, above q p -> fs !! q <> Some (File t)) -> fs !! p <> Some Dir -> answers O p n fs m = WriteOk.
Proof. exact answers_fine. Qed.
Print Assumptions C71_works.
Theorem C71_blocked : forall O p n fs m, tree fs -> p <> [] ->
  (forall q t, above q p -> fs !! q = Some (File t) -> answers O p n fs m = CreateDirFails) /\
  (fs !! p = Some Dir -> answers O p n fs m = OpenFails).
Proof. intros O p n fs m Ht Hp. split; [intros q t; apply answers_blocked; assumption|apply answers_directory; assumption]. Qed.
Print Assumptions C71_blocked.

(** Setting the primary password works where nothing exists yet: directories and file are created, and the file can be opened. *)
Theorem C71_first : forall O P p pp s fs, prims_ok P -> no_trouble O -> tree fs -> p <> [] ->
  (forall q t, above q p -> fs !! q <> Some (File t)) -> fs !! p <> Some Dir -> read fs p = s_disk s ->
  exists s' fs', call O P p (Reset pp) s fs = (ODone, s', fs') /\ load P (read fs' p) = Ok (s_data s') /\
    (forall q, above q p -> fs' !! q = Some Dir) /\ forall q, ~ above q p -> q <> p -> fs' !! q = fs !! q.
Proof. exact first_save. Qed.
Print Assumptions C71_first.

(** The history of the shell is another file, unless one asks for the same; once there is a storage file it can be written. *)
Theorem C71_history : forall O n root text fs,
  default_history_path root <> default_storage_path root /\
  (forall h p, p <> h -> read (save_history O n h text fs) p = read fs p) /\
  (forall t, no_trouble O -> tree fs -> fs !! default_storage_path root = Some (File t) -> fs !! default_history_path root <> Some Dir ->
    read (save_history O n (default_history_path root) text fs) (default_history_path root) = Some text).
Proof.
  intros O n root text fs. split; [discriminate|]. split; [|intros t; apply history_default].
  intros h p Hn. unfold read. rewrite history_elsewhere by exact Hn. reflexivity.
Qed.
Print Assumptions C71_history.

(** ** Examples *)

Definition calm_os : os := mk_os (fun _ _ => false) (fun _ => false) (fun _ => None).
(** The second save cannot create directories in the home directory, the fourth finds the disk full. *)
Definition bad_os : os :=
  mk_os (fun n p => (n =? 1) && (length p =? 3)) (fun n => n =? 2) (fun n => if n =? 3 then Some 2 else None).

Definition home : files := <[[bs "user"; bs "home"] := Dir]> (<[[bs "home"] := Dir]> (<[[bs "etc"] := File (bs "x")]> (<[[] := Dir]> ∅))).
Definition config : fpath := [bs "PfP"; bs ".config"; bs "user"; bs "home"].
Lemma home_tree : tree home.
Proof.
  split; [reflexivity|]. intros q p x E Ha. unfold home in E.
  assert (In p [[bs "user"; bs "home"]; [bs "home"]; [bs "etc"]; []]) as Hp.
  { repeat (apply lookup_insert_Some in E; destruct E as [[<- _]|[_ E]]; [cbn; tauto|]). rewrite lookup_empty in E. discriminate E. }
  clear E. assert (forall q : fpath, q `suffix_of` [] -> q = []) as Hnil.
  { intros q' [cs Es]. symmetry in Es. apply app_eq_nil in Es. apply Es. }
  destruct Hp as [<-|[<-|[<-|[<-|[]]]]]; [apply above_cons in Ha..|destruct (above_nil _ Ha)];
    repeat (apply suffix_cons in Ha; destruct Ha as [-> |Ha]; [reflexivity|]); apply Hnil in Ha; subst q; reflexivity.
Qed.
Lemma home_clear q t : above q (default_storage_path config) -> home !! q <> Some (File t).
Proof.
  intros Ha. apply above_cons in Ha. unfold config in Ha.
  repeat (apply suffix_cons in Ha; destruct Ha as [-> |Ha]; [discriminate|]).
  destruct Ha as [cs Es]. symmetry in Es. apply app_eq_nil in Es. destruct Es as [_ ->]. discriminate.
Qed.

(** Setting a primary password and adding a password on a new machine *)
Definition kind_of (fs : files) (p : fpath) : option bool := match fs !! p with None => None | Some Dir => Some true | Some (File _) => Some false end.
Definition at_home (O : os) (l : list op) {A} (k : list out -> files -> A) : A :=
  let '(rs, s, fs) := calls_on O toy_release (default_storage_path config) l start home in k rs fs.
Definition some_calls : list op :=
  [Reset (bs "secret"); SetStored (bs "a") (bs "n") [] (bs "p1"); Restart; Unlock (bs "secret"); Get (bs "a") (bs "n") []].
Example C71_example :
  at_home calm_os some_calls (fun rs fs => rs = [ODone; ODone; ODone; ODone; OText (bs "p1")] /\
    kind_of fs (default_storage_path config) = Some false /\ kind_of fs config = Some true /\
    kind_of fs (tl config) = Some true /\ kind_of fs [bs "etc"] = Some false /\ kind_of fs (default_history_path config) = None) /\
  kind_of home (default_storage_path config) = None /\ kind_of home (tl config) = None /\
  (* an existing directory in place of the file; a file in place of a directory *)
  answers calm_os [bs "user"; bs "home"] 0 home 5 = OpenFails /\ answers calm_os [bs "storage"; bs "etc"] 0 home 5 = CreateDirFails /\
  no_trouble calm_os /\ tree home /\ home !! default_storage_path config <> Some Dir /\ read home (default_storage_path config) = s_disk start.
Proof.
  split; [vm_compute; repeat split|]. split; [reflexivity|]. split; [reflexivity|]. split; [vm_compute; reflexivity|]. split; [vm_compute; reflexivity|].
  split; [intros n; repeat split|]. split; [exact home_tree|]. split; [discriminate|reflexivity].
Qed.

(** Some trouble: the first save works, later ones do not *)
Example C71_trouble :
  map (answers bad_os (default_storage_path config) 0 home) [0; 1; 2; 3; 4] = [WriteOk; WriteOk; OpenFails; WriteFailsAfter 2; WriteOk] /\
  map (answers bad_os (default_storage_path config) 1 home) [1; 2; 3] = [CreateDirFails; OpenFails; WriteFailsAfter 2] /\
  at_home bad_os [Reset (bs "secret"); Reset (bs "secret"); Reset (bs "secret"); Reset (bs "secret")] (fun rs fs =>
    rs = [ODone; ODone; OErr FileWriteFailure; OErr FileWriteFailure] /\
    match read fs (default_storage_path config) with Some t => length t = 2 | None => False end).
Proof. split; [vm_compute; reflexivity|]. split; [vm_compute; reflexivity|]. vm_compute. repeat split. Qed.

(** With the storage file as its history file a shell destroys it. *)
Theorem C71_history_refuted :
  ~ forall O P p h pp s fs r s' fs' text v, prims_ok P -> no_trouble O -> tree fs -> p <> [] -> read fs p = s_disk s ->
      call O P p (Reset pp) s fs = (r, s', fs') -> load P (read fs' p) = Ok v ->
      exists v', load P (read (save_history O 0 h text fs') p) = Ok v'.
Proof.
  intros H. destruct C71_example as (_ & _ & _ & _ & _ & H1 & H2 & H3 & H4).
  assert (default_storage_path config <> []) as Hp by discriminate.
  destruct (C71_first calm_os toy_release (default_storage_path config) (bs "secret") start home (toy_ok _ _) H1 H2 Hp home_clear H3 H4)
    as (s' & fs' & E & El & Ed & _).
  destruct (H calm_os toy_release (default_storage_path config) (default_storage_path config) (bs "secret") start home ODone s' fs' [] _
    (toy_ok _ _) H1 H2 Hp H4 E El) as [v' Hv].
  unfold save_history, write_file, default_storage_path in Hv.
  assert (is_dir fs' config = true) as Ec by (apply is_dir_true; apply Ed; apply above_cons; exists []; reflexivity).
  rewrite Ec in Hv. destruct (is_dir fs' (bs "storage.json" :: config)) eqn:Es.
  - apply is_dir_true in Es. unfold read, default_storage_path in El. rewrite Es in El. discriminate El.
  - cbn [negb orb o_open o_write calm_os snd] in Hv. unfold read in Hv. rewrite lookup_insert in Hv.
    assert (match load toy_release (Some []) with Ok _ => true | _ => false end = false) as Hc by (vm_compute; reflexivity).
    rewrite Hv in Hc. discriminate Hc.
Qed.
Print Assumptions C71_history_refuted.
