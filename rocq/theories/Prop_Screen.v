(** C69: What is printed does not depend on secrets. *)
From stdpp Require Import gmap.
From Verif Require Import M_Base M_Recovery M_Utf8 M_Prims M_Types M_Crypto M_Json M_Serde M_Storage M_Passwords M_Cli M_History.
From Verif Require Import S_Vault S_History S_Cli S_Screen P_Base64 P_Screen T_Toy T_History T_Cli T_Screen.

(** Two files, whatever is in them, that give the same answers to the primary passwords which will be entered and whose
    password records differ only in stored texts (and notes and parameters of generated passwords, unless these may be
    shown): add, add-stored, remove, alias, list, notes and a shell with such commands print the same, to the standard output
    and as error messages, exit in the same way, and read the same input. *)
Theorem C69_process : forall P E path notes a t es disk d d',
  order_of_slots P ->
  load P (s_disk (t_st t)) = Ok d -> load P disk = Ok d' ->
  entered (a_stdin_passwords a) t es -> alike_data P notes (candidate es) d d' ->
  discreet notes (a_command a) -> discreet_lines E notes (t_lines t) ->
  let '(x, u) := main P E path a t in let '(x', u') := main P E path a (with_disk disk t) in
  x = x' /\ same_screen u u'.
Proof. exact same_printed. Qed.
Print Assumptions C69_process.

(** In terms of vaults: both files are as the program writes them, for the same primary password, salt and HMAC secret. *)
Theorem C69_vaults : forall P E path notes a t es disk pp i d v d' v',
  prims_ok P -> order_of_slots P ->
  load P (s_disk (t_st t)) = Ok d -> load P disk = Ok d' ->
  contents P pp i d v -> contents P pp i d' v' -> d !! bs "hmac-secret" = d' !! bs "hmac-secret" ->
  alike_vaults notes v v' -> texts_only v -> texts_only v' ->
  entered (a_stdin_passwords a) t es -> (forall key, accepted_key P d (candidate es) key -> key = key_for P pp i) ->
  discreet notes (a_command a) -> discreet_lines E notes (t_lines t) ->
  let '(x, u) := main P E path a t in let '(x', u') := main P E path a (with_disk disk t) in
  x = x' /\ same_screen u u'.
Proof. exact same_vault_printed. Qed.
Print Assumptions C69_vaults.

(** Two vaults with other stored passwords and other notes. *)
Definition one_vault (p note : bytes) : list op :=
  [Reset (bs "secret"); SetStored (bs "a") (bs "n") [] p; SetNotes (bs "a") (bs "n") [] note; SetGenerated (bs "a") (bs "m") [] 8 (mk_charset true true true true); Lock].
Definition vault_a := one_vault (bs "first") (bs "x").
Definition vault_b := one_vault (bs "another password") (bs "longer notes").
Definition listing (show verbose : bool) : args := mk_args false (List (bs "*") (bs "*") show false verbose).
Definition shown_after (l : list op) (y : typing) (a : args) : exit * bytes * list message :=
  running plain_toy l y a (fun x t => (x, t_shown t, t_err t)).

Example C69_example :
  let y := secrets_only [bs "short"; bs "secret"] in
  let t := typed y (snd (run plain_toy vault_a start)) in
  prims_ok plain_toy /\ order_of_slots plain_toy /\
  (exists d d', load plain_toy (s_disk (t_st t)) = Ok d /\ load plain_toy (s_disk (snd (run plain_toy vault_b start))) = Ok d' /\
    entered false t [Some (bs "short"); Some (bs "secret")] /\
    alike_data plain_toy false (candidate [Some (bs "short"); Some (bs "secret")]) d d') /\
  discreet false (a_command (listing false false)) /\ discreet_lines toy_ext false (t_lines t) /\
  shown_after vault_a y (listing false false) =
    (Success, bs "Passwords for a:" ++ [newline] ++ bs "    m (generated)" ++ [newline] ++ bs "    n (stored)" ++ [newline],
     [Text (bs "Primary password length should be at least 6 characters.")]) /\
  shown_after vault_b y (listing false false) = shown_after vault_a y (listing false false) /\
  (* where notes or passwords are asked for, the output differs *)
  snd (fst (shown_after vault_b y (listing false true))) <> snd (fst (shown_after vault_a y (listing false true))) /\
  snd (fst (shown_after vault_b y (listing true false))) <> snd (fst (shown_after vault_a y (listing true false))).
Proof.
  cbv zeta. split; [exact plain_toy_ok|]. split; [exact plain_toy_order|]. split.
  { destruct (check_files_ok plain_toy false (bs "secret") (candidate [Some (bs "short"); Some (bs "secret")]) vault_a vault_b) as (d & d' & H1 & H2 & H3).
    - vm_compute. reflexivity.
    - intros x [Hl (e & [[= <-]|[[= <-]|[]]] & ->)]; [exfalso; vm_compute in Hl; lia|reflexivity].
    - exists d, d'. split; [exact H1|]. split; [exact H2|]. split; [reflexivity|exact H3]. }
  split; [repeat split; discriminate|]. split; [intros line c []|].
  split; [vm_compute; reflexivity|]. split; [vm_compute; reflexivity|].
  split; vm_compute; discriminate.
Qed.

(** The same two files, as vaults. *)
Definition vault_of (p note : bytes) : vault :=
  mk_vault {[bs "a" := None]}
    (<[(bs "a", bs "n", []) := mk_entry (SFixed p) note]> {[(bs "a", bs "m", []) := mk_entry (SGenerated 8 (mk_charset true true true true)) []]}).
Lemma vaults_alike p note p' note' : alike_vaults false (vault_of p note) (vault_of p' note').
Proof.
  split; [reflexivity| |].
  - intros i. cbn [v_pw vault_of]. destruct (decide (i = (bs "a", bs "n", []))) as [->|H]; [rewrite !lookup_insert; split; discriminate|].
    rewrite !lookup_insert_ne by congruence. reflexivity.
  - intros i e e'. cbn [v_pw vault_of]. destruct (decide (i = (bs "a", bs "n", []))) as [->|H].
    + rewrite !lookup_insert. intros [= <-] [= <-]. split; [discriminate|exact I].
    + rewrite !lookup_insert_ne by congruence. intros H1 H2. apply lookup_singleton_Some in H1, H2. destruct H1 as [_ <-], H2 as [_ <-].
      split; [discriminate|cbn; discriminate].
Qed.
Lemma vault_texts p note : utf8 p = true -> utf8 note = true -> texts_only (vault_of p note).
Proof.
  intros Hp Hn x n r e. cbn [v_pw vault_of]. destruct (decide ((x, n, r) = (bs "a", bs "n", []))) as [E|H].
  - rewrite E, lookup_insert. injection E as -> -> ->. intros [= <-]. repeat split; assumption.
  - rewrite lookup_insert_ne by congruence. intros E. apply lookup_singleton_Some in E. destruct E as [E <-]. injection E as <- <- <-.
    repeat split.
Qed.
Example C69_vaults_example :
  exists d d', load plain_toy (s_disk (snd (run plain_toy vault_a start))) = Ok d /\ load plain_toy (s_disk (snd (run plain_toy vault_b start))) = Ok d' /\
  contents plain_toy (bs "secret") 0 d (vault_of (bs "first") (bs "x")) /\
  contents plain_toy (bs "secret") 0 d' (vault_of (bs "another password") (bs "longer notes")) /\
  alike_vaults false (vault_of (bs "first") (bs "x")) (vault_of (bs "another password") (bs "longer notes")) /\
  texts_only (vault_of (bs "first") (bs "x")) /\ texts_only (vault_of (bs "another password") (bs "longer notes")) /\
  d !! bs "hmac-secret" = d' !! bs "hmac-secret" /\
  (forall key, accepted_key plain_toy d (candidate [Some (bs "secret")]) key -> key = key_for plain_toy (bs "secret") 0).
Proof.
  destruct (check_saved_ok plain_toy (bs "secret") 0 vault_a (vault_of (bs "first") (bs "x"))) as (d & H1 & C1); [vm_compute; reflexivity|].
  destruct (check_saved_ok plain_toy (bs "secret") 0 vault_b (vault_of (bs "another password") (bs "longer notes"))) as (d' & H2 & C2); [vm_compute; reflexivity|].
  exists d, d'. split; [exact H1|]. split; [exact H2|]. split; [exact C1|]. split; [exact C2|]. split; [apply vaults_alike|].
  split; [apply vault_texts; reflexivity|]. split; [apply vault_texts; reflexivity|]. split.
  - rewrite <- (saved_value_eq _ (bs "hmac-secret") _ _ H1), <- (saved_value_eq _ (bs "hmac-secret") _ _ H2). vm_compute. reflexivity.
  - intros key [(pp & salt & [_ (e & [[= <-]|[]] & ->)] & Hs & Hk) _].
    unfold get_salt in Hs. change SALT_KEY with (bs "salt") in Hs. rewrite (co_salt _ _ _ _ _ C1) in Hs. cbn [ok_or bind] in Hs.
    rewrite P_Base64.b64_roundtrip in Hs. injection Hs as <-. unfold get_encryption_key, derive_key in Hk. injection Hk as <-. reflexivity.
Qed.
