(** C53: when calls panic and processes abort. *)
From stdpp Require Import gmap.
From Verif Require Import M_Base M_Base64 M_Utf8 M_Prims M_Types M_Crypto M_Json M_Serde M_Storage M_Passwords S_Vault M_History S_Api P_Base P_Calls
  M_Cli S_Cli S_Abort P_Abort P_AbortCli T_Toy T_History T_Cli T_Abort.

(** A call of the library that panics has one of the reasons in [reason]. *)
Theorem C53_reasons : forall P s o, prims_ok P -> reachable P s -> fst (exec P o s) = OPanic -> reason P s o.
Proof. intros P s o HP Hs. exact (panic_reason P HP o s (reachable_good P s HP Hs)). Qed.
Print Assumptions C53_reasons.

(** A history of calls does not panic, and does not spoil the data either, if nothing is wrong with the data, the arguments
    and the build. *)
Theorem C53_calls : forall P key l s, prims_ok P -> p_overflow_checks P = false -> unharmed P key s -> careful_run P l s ->
  ~ In OPanic (fst (run P l s)) /\ unharmed P key (snd (run P l s)).
Proof. intros P key l s HP Ho. exact (careful_calm P key l HP Ho s). Qed.
Print Assumptions C53_calls.

(** Nothing is wrong with a new file. *)
Theorem C53_new_file : forall P pp s, prims_ok P -> fst (exec P (Reset pp) s) = ODone ->
  let s' := snd (exec P (Reset pp) s) in
  exists key, s_key s' = Some key /\
   ((forall pp' salt k h, get_salt (s_data s') = Ok salt -> get_encryption_key P pp' salt = Ok k ->
       get_hmac_secret P (s_data s') k = Ok h -> k = key) ->
    unharmed P key s').
Proof. exact reset_harmless. Qed.
Print Assumptions C53_new_file.

(** No process aborts if nothing is wrong with the file, with what is typed and with the build; and nothing is wrong with the
    file afterwards. *)
Theorem C53_process : forall P E path key a t, prims_ok P -> p_overflow_checks P = false -> externals_valid E ->
  plain_process (a, t) -> length key = 32 -> (forall d, load P (s_disk (t_st t)) = Ok d -> harmless P key d) ->
  fst (main P E path a t) <> Aborted /\ (forall d, load P (s_disk (t_st (snd (main P E path a t)))) = Ok d -> harmless P key d).
Proof.
  intros P E path key a t HP Ho HE (H1 & H2 & H3) Hl Hd. exact (main_safe P HP key Ho E path a t HE H1 H2 Hl Hd H3).
Qed.
Print Assumptions C53_process.

Theorem C53_processes : forall P E path key l s, prims_ok P -> p_overflow_checks P = false -> externals_valid E ->
  length key = 32 -> Forall plain_process l -> (forall d, load P (s_disk s) = Ok d -> harmless P key d) ->
  ~ In Aborted (exits P E path l s).
Proof. intros P E path key l s HP Ho HE Hl. exact (processes_safe P E path key l HP Ho HE Hl s). Qed.
Print Assumptions C53_processes.

(** Setting the primary password does not abort whatever the file contains. *)
Theorem C53_set_primary : forall P E path sp y t, prims_ok P -> readable t ->
  fst (main P E path (mk_args sp (SetPrimary y)) t) <> Aborted.
Proof. exact set_primary_safe. Qed.
Print Assumptions C53_set_primary.

Definition filled : list op :=
  [Reset (bs "secret"); SetStored (bs "a") (bs "n") [] (bs "one"); SetGenerated (bs "b") (bs "n") [] 8 all_chars; SetAlias (bs "c") (bs "a")].
Definition list_everything : command := List (bs "*") (bs "*") true true true.
Example C53_example :
  let P := toy_keyed in
  prims_ok P /\ p_overflow_checks P = false /\ externals_valid toy_ext /\ length (keyed (bs "secret")) = 32 /\
  plain_process (mk_args false list_everything, typed (secrets_only [bs "secret"]) (snd (run P filled start))) /\
  (forall d, load P (s_disk (snd (run P filled start))) = Ok d -> harmless P (keyed (bs "secret")) d) /\
  final P filled start (fun s => is_ok (load P (s_disk s))) = true /\
  running P filled (secrets_only [bs "secret"]) (mk_args false list_everything) (fun x _ => x) = Success.
Proof.
  cbv zeta. split; [exact toy_keyed_ok|]. split; [reflexivity|]. split; [exact toy_ext_valid|]. split; [apply keyed_length|].
  split; [|split; [|split; vm_compute; reflexivity]].
  - split; [split; reflexivity|]. split; [discriminate|]. split; [reflexivity|]. constructor; [exists (bs "secret"); split; reflexivity|constructor].
  - apply file_harmless_ok. vm_compute. reflexivity.
Qed.

(** * What is not true *)

(** A file with a nonce of the wrong size: listing aborts. It does so as well for somebody who knows the primary password and
    wants to see other passwords. *)
Definition spoiled_file : bytes := Eval vm_compute in final toy_keyed filled start (fun s => file_with s (bs "site:x") (bs "AAAA_AAAA")).
Theorem C53_any_file_refuted : ~ (forall P E path a t, prims_ok P -> p_overflow_checks P = false -> externals_valid E ->
  plain_process (a, t) -> fst (main P E path a t) <> Aborted).
Proof.
  intros H. apply (H toy_keyed toy_ext (bs "path") (mk_args false (List (bs "a") (bs "*") false false false))
    (typed (secrets_only [bs "secret"]) (mk_st ∅ None None None (Some spoiled_file) 0 0 0)) toy_keyed_ok eq_refl toy_ext_valid).
  - split; [split; reflexivity|]. split; [discriminate|]. split; [reflexivity|]. constructor; [exists (bs "secret"); split; reflexivity|constructor].
  - vm_compute. reflexivity.
Qed.
Print Assumptions C53_any_file_refuted.

(** The library stores entries of generated passwords that cannot be generated; showing them aborts. *)
Theorem C53_any_call_refuted : ~ (forall P l s0, prims_ok P -> p_overflow_checks P = false -> fresh P s0 -> Forall op_valid l ->
  (forall o, In o l -> lists o = false) -> ~ In OPanic (fst (run P l s0))).
Proof.
  intros H. apply (H toy_release [Reset (bs "secret"); SetGenerated (bs "a") (bs "n") [] 0 all_chars; Get (bs "a") (bs "n") []] start
    (toy_ok _ _) eq_refl (start_fresh _)).
  - repeat constructor; vm_compute; congruence.
  - intros o [<-|[<-|[<-|[]]]]; reflexivity.
  - assert (outs toy_release [Reset (bs "secret"); SetGenerated (bs "a") (bs "n") [] 0 all_chars; Get (bs "a") (bs "n") []] start = [ODone; ODone; OPanic]) as E
      by (vm_compute; reflexivity).
    rewrite outs_run in E. rewrite E. cbn. auto.
Qed.
Print Assumptions C53_any_call_refuted.

(** A primary password that is not text, on the standard input: *)
Theorem C53_any_input_refuted : ~ (forall P E path key a t, prims_ok P -> p_overflow_checks P = false -> externals_valid E ->
  command_valid (a_command a) -> typed_valid t -> length key = 32 -> (forall d, load P (s_disk (t_st t)) = Ok d -> harmless P key d) ->
  fst (main P E path a t) <> Aborted).
Proof.
  intros H. assert (running toy_keyed filled (mk_typing [xff] [] [] [] []) (mk_args true (Show (bs "a") (bs "n") [] false)) (fun x _ => x) = Aborted) as E
    by (vm_compute; reflexivity).
  rewrite running_eq in E.
  apply (H toy_keyed toy_ext (bs "path") (keyed (bs "secret")) (mk_args true (Show (bs "a") (bs "n") [] false))
    (typed (mk_typing [xff] [] [] [] []) (snd (run toy_keyed filled start))) toy_keyed_ok eq_refl toy_ext_valid).
  - repeat split.
  - constructor.
  - apply keyed_length.
  - apply file_harmless_ok. vm_compute. reflexivity.
  - destruct (main _ _ _ _ _) as [x t]. exact E.
Qed.
Print Assumptions C53_any_input_refuted.
