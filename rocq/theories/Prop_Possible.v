(** C81: Which vaults can come about. *)
From stdpp Require Import gmap.
From Verif Require Import M_Base M_Recovery M_Utf8 M_Prims M_Types M_Storage M_Passwords M_History.
From Verif Require Import S_Vault S_Api S_History S_Rewrite S_Possible P_Base P_Possible T_Toy T_History.

(** Calls lead to a vault exactly if no site in it is an alias of itself, no revision is written as 1, and texts and lengths are what
    they can be in Rust. Nothing else is ensured. *)
Theorem C81_exactly : forall P v, possible v <-> exists l pp, Forall op_valid l /\ w_mem (world_after P l) = Some (pp, v).
Proof. exact exactly_possible. Qed.
Print Assumptions C81_exactly.

(** Also with writes that fail, in memory and in the file. *)
Theorem C81_always : forall P wrs l pp v, Forall op_valid l ->
  w_mem (fst (vrun P wrs nothing l)) = Some (pp, v) \/ w_file (fst (vrun P wrs nothing l)) = Some (pp, v) -> possible v.
Proof. intros P wrs l pp v Hl [H|H]; [exact (proj1 (always_possible P wrs l Hl) pp v H)|exact (proj2 (always_possible P wrs l Hl) pp v H)]. Qed.
Print Assumptions C81_always.

(** So the library, whatever was called before and whatever writes failed, never reports a site as alias of itself or a revision 1. *)
Theorem C81_results : forall P sc l s0, sound P sc l s0 -> Forall2 plausible l (fst (run P l s0)).
Proof. exact results_plausible. Qed.
Print Assumptions C81_results.

(** The calls that lead to a vault: all of them succeed, and after them the library behaves like this vault. *)
Theorem C81_built : forall P pp v m sc s0, possible v -> (forall n, p_write P n = WriteOk) -> sound P sc (build pp v ++ m) s0 ->
  fst (run P (build pp v ++ m) s0) = repeat ODone (length (build pp v)) ++ fst (run P m (snd (run P (build pp v) s0))) /\
  Forall2 (agrees P) (fst (run P m (snd (run P (build pp v) s0)))) (snd (vrun P (repeat Saved (length m)) (mk_world (Some (pp, v)) true (Some (pp, v))) m)).
Proof. exact built_behaves. Qed.
Print Assumptions C81_built.

(** These calls are valid, and mention no names with NUL characters unless the vault has some. *)
Theorem C81_valid : forall pp v, possible v ->
  Forall op_valid (build pp v) /\ ((forall s n r e, v_pw v !! (s, n, r) = Some e -> ~ In x00 n) -> names_ok (build pp v)).
Proof. intros pp v H. split; [exact (build_valid pp v H)|exact (build_names pp v)]. Qed.
Print Assumptions C81_valid.

(** ** Examples *)

(** Two sites that are aliases of each other; a password of a site that is not listed. *)
Definition odd : vault := mk_vault
  (<[bs "a" := Some (bs "b")]> (<[bs "b" := Some (bs "a")]> (<[bs "c" := None]> ∅)))
  (<[(bs "a", bs "n", bs "2") := mk_entry (SGenerated 8 all_chars) (bs "note")]> (<[(bs "d", bs "m", []) := mk_entry (SFixed (bs "p")) []]> ∅)).
Definition later : list op := [Get (bs "b") (bs "n") (bs "2"); Get (bs "a") (bs "n") (bs "2"); Get (bs "d") (bs "m") []; ListSites (bs "*"); GetNotes (bs "b") (bs "n") (bs "2")].
Lemma odd_possible : possible odd.
Proof.
  unfold odd. constructor; cbn [v_sites v_pw].
  - intros x y H. repeat (apply lookup_insert_Some in H; destruct H as [[<- H]|[_ H]]; [try discriminate H; injection H as <-; discriminate|]). rewrite lookup_empty in H. discriminate H.
  - intros x a H. repeat (apply lookup_insert_Some in H; destruct H as [[<- <-]|[_ H]]; [split; [reflexivity|(reflexivity || exact I)]|]).
    rewrite lookup_empty in H. discriminate H.
  - intros s n r e H. repeat (apply lookup_insert_Some in H; destruct H as [[E _]|[_ H]]; [injection E as <- <- <-; repeat split; discriminate|]).
    rewrite lookup_empty in H. discriminate H.
  - intros i e H. repeat (apply lookup_insert_Some in H; destruct H as [[_ <-]|[_ H]]; [split; [reflexivity|cbn; (reflexivity || discriminate)]|]).
    rewrite lookup_empty in H. discriminate H.
Qed.
Example C81_example :
  possible odd /\ circular odd /\ orphaned odd /\
  sound toy_release (mentioned (build (bs "secret") odd ++ later)) (build (bs "secret") odd ++ later) start /\
  length (build (bs "secret") odd) = 14 /\
  match fst (run toy_release (build (bs "secret") odd ++ later) start) with
  | [_; _; _; _; _; _; _; _; _; _; _; _; _; ODone; OText _; OErr KeyMissing; OText t; OSites l; OText u] => t = bs "p" /\ u = bs "note" /\ length l = 3
  | _ => False
  end.
Proof.
  split; [exact odd_possible|]. split; [exists (bs "a"), (bs "b"); vm_compute; auto|]. split; [exists (bs "d", bs "m", []); vm_compute; eauto|].
  split; [apply check_sound_ok; [apply toy_ok|vm_compute; reflexivity]|]. split; [vm_compute; reflexivity|]. vm_compute. auto.
Qed.

(** Sites are not aliases of each other: refuted, with three calls. *)
Definition circle : list op := [Reset (bs "secret"); SetAlias (bs "c") (bs "a"); SetAlias (bs "a") (bs "b"); SetAlias (bs "b") (bs "c")].
Theorem C81_no_circle_refuted :
  ~ forall P l s x y, prims_ok P -> fresh P s -> fst (exec P (GetAlias x) (snd (run P l s))) = OText y -> fst (exec P (GetAlias y) (snd (run P l s))) <> OText x.
Proof.
  intros H. specialize (H toy_release circle start (bs "a") (bs "b") (toy_ok _ _) (start_fresh _)). rewrite <- !after_eq in H.
  apply H; vm_compute; reflexivity.
Qed.
Print Assumptions C81_no_circle_refuted.

(** The sites of all passwords are listed: refuted for callers of remove_sites other than the command line program (C42). *)
Definition forgotten : list op := [Reset (bs "secret"); SetStored (bs "a") (bs "n") [] (bs "p"); RemoveSites [bs "a"]].
Theorem C81_all_listed_refuted :
  ~ forall P l s x n r t, prims_ok P -> fresh P s -> fst (exec P (Get x n r) (snd (run P l s))) = OText t ->
      exists q, fst (exec P (ListSites (bs "*")) (snd (run P l s))) = OSites q /\ q <> [].
Proof.
  intros H. specialize (H toy_release forgotten start (bs "a") (bs "n") [] (bs "p") (toy_ok _ _) (start_fresh _)). rewrite <- !after_eq in H.
  destruct H as (q & E & Hq); [vm_compute; reflexivity|]. vm_compute in E. injection E as <-. exact (Hq eq_refl).
Qed.
Print Assumptions C81_all_listed_refuted.
