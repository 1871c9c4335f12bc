(** C64: processes that find any file. *)
From stdpp Require Import gmap.
From Verif Require Import M_Base M_Base64 M_Utf8 M_Prims M_Types M_Crypto M_Recovery M_Json M_Serde M_Storage M_Passwords
  S_Json S_Serde S_Base64 S_Utf8 S_Vault M_History S_Api P_Base P_Base64 P_Serde P_Json M_Cli S_Cli S_Foreign P_Foreign T_Toy T_History T_Cli.

(** A storage is there if the file can be used and has the two entries. *)
Theorem C64_initialized : forall P s, let s1 := snd (exec P Restart s) in
  fst (exec P Initialized s1) = OBool true <->
  (exists v, file_value P (s_disk s) (bs "salt") v) /\ exists v, file_value P (s_disk s) (bs "hmac-secret") v.
Proof. exact initialized_iff. Qed.
Print Assumptions C64_initialized.

(** The primary passwords accepted are those that open the secret in the file; the instance has the key and the secret then. *)
Theorem C64_unlock : forall P s pp, prims_ok P -> let s1 := snd (exec P Restart s) in
  (fst (exec P (Unlock pp) s1) = ODone <-> exists key secret, opens_file P (s_disk s) pp key secret) /\
  (forall key secret, opens_file P (s_disk s) pp key secret -> let s2 := snd (exec P (Unlock pp) s1) in
     s_key s2 = Some key /\ s_hmac s2 = Some secret /\ s_primary s2 = Some pp /\ s_disk s2 = s_disk s) /\
  (fst (exec P (Unlock pp) s1) <> ODone -> snd (exec P (Unlock pp) s1) = s1).
Proof. intros P s pp HP. split; [exact (unlock_iff P HP s pp)|]. split; [exact (unlock_gives P HP s pp)|exact (unlock_fails P s pp)]. Qed.
Print Assumptions C64_unlock.

(** If nothing opens the file then no command but set-primary and the shell ever succeeds, and the file stays as it is. Files that cannot be used and
    files without one of the two entries are reported. Otherwise the process never ends in an orderly manner. *)
Theorem C64_unopened : forall P E path sp c t, prims_ok P -> ~ refused c ->
  (forall pp key secret, 6 <= length pp -> ~ opens_file P (s_disk (t_st t)) pp key secret) ->
  let '(x, t') := main P E path (mk_args sp c) t in s_disk (t_st t') = s_disk (t_st t) /\
  (((forall l, ~ file_entries P (s_disk (t_st t)) l) /\ exists e, load P (s_disk (t_st t)) = Err e /\ (x, t') = ends (CErr (Lib e), begins P t)) \/
   ((exists l, file_entries P (s_disk (t_st t)) l) /\
    (~ (exists v, file_value P (s_disk (t_st t)) (bs "salt") v) \/ ~ (exists v, file_value P (s_disk (t_st t)) (bs "hmac-secret") v)) /\
    (x, t') = ends (CErr (Lib StorageNotInitialized), begins P t)) \/
   ((exists v, file_value P (s_disk (t_st t)) (bs "salt") v) /\ (exists v, file_value P (s_disk (t_st t)) (bs "hmac-secret") v) /\
    (x = Aborted \/ x = Waiting))).
Proof. intros P E path sp c t HP. exact (command_unopened P HP E path sp c t). Qed.
Print Assumptions C64_unopened.

(** Files: one without a secret, one with an invalid salt, one with an invalid secret. *)
Definition file_with (entries : bytes) : bytes := bs "{""application"":""pfp"",""format"":3,""data"":{" ++ entries ++ bs "}}".
Definition no_secret : bytes := file_with (bs """salt"":""Y2Jh"",""site:x"":""y""").
Definition bad_salt : bytes := file_with (bs """salt"":""?"",""hmac-secret"":""x""").
Definition bad_secret : bytes := file_with (bs """salt"":""Y2Jh"",""hmac-secret"":""AAAA_AAAA""").
Definition with_file (text : bytes) : st := mk_st ∅ None None None (Some text) 0 0 0.
Definition trying (text : bytes) (l : list bytes) : exit * list message :=
  let '(x, t) := main toy_release toy_ext (bs "path") (mk_args false (Show (bs "a") (bs "n") [] false)) (typed (secrets_only l) (with_file text)) in (x, t_err t).

Lemma no_salt text : match load toy_release (Some text) with Ok d => bytes_eqb (default [] (d !! bs "salt")) (bs "?") | _ => true end = true ->
  forall pp key secret, ~ opens_file toy_release (Some text) pp key secret.
Proof.
  intros H pp key secret (v & salt & a & b & n & c & t & h & Hv & Hb & _). apply file_value_iff in Hv. destruct Hv as (d & Hl & Hd).
  rewrite Hl, Hd in H. cbn in H. apply bytes_eqb_eq in H. subst v. apply b64_decode_spec in Hb. vm_compute in Hb. discriminate Hb.
Qed.

Example C64_example :
  trying no_secret [bs "secret"] = (Failure, [Lib StorageNotInitialized]) /\
  trying bad_salt [bs "secret"; bs "password"] = (Waiting, [Lib InvalidBase64; Lib InvalidBase64]) /\
  (forall pp key secret, ~ opens_file toy_release (Some bad_salt) pp key secret) /\
  trying bad_secret [bs "secret"] = (Aborted, []) /\
  trying (bs "{}") [bs "secret"] = (Failure, [Lib InvalidJson]) /\
  trying (final toy_release [Reset (bs "secret"); SetStored (bs "a") (bs "n") [] (bs "p1")] start (fun s => default [] (s_disk s))) [bs "wrong!"; bs "secret"] =
    (Success, [Lib DecryptionFailure]).
Proof.
  split; [vm_compute; reflexivity|]. split; [vm_compute; reflexivity|]. split; [|split; [vm_compute; reflexivity|split; vm_compute; reflexivity]].
  apply no_salt. vm_compute. reflexivity.
Qed.
