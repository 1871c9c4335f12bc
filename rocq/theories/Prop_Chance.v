(** C75: how likely it is that a nonce is used twice. *)
From stdpp Require Import gmap.
From Verif Require Import M_Base M_Base64 M_Prims M_Types M_Storage M_Passwords M_History S_Vault S_Api S_Chance P_Base P_Chance T_Toy T_History.

(** The sequences of random values that are equally likely: *)
Theorem C75_tapes : forall n, exists L, List.NoDup L /\ (forall T, In T L <-> tape_ok n T) /\ N.of_nat (length L) = (2 ^ (256 * N.of_nat n))%N.
Proof. exact all_tapes. Qed.
Print Assumptions C75_tapes.

(** No call draws more than three random values. *)
Theorem C75_draws : forall P l s, s_rand (snd (run P l s)) <= s_rand s + 3 * length l.
Proof. exact run_within. Qed.
Print Assumptions C75_draws.

(** Among all sequences of random values for [l] calls, at most a fraction of n(n-1)/2^97 with n = 3 * length l leads to a nonce used twice. *)
Theorem C75_few_repeats : forall P l s B, prims_ok P -> fresh P s -> s_rand s = 0 -> List.NoDup B ->
  (forall T, In T B -> tape_ok (3 * length l) T /\ repeats (with_tape P T) l s) ->
  let n := N.of_nat (3 * length l) in
  (N.of_nat (length B) * 2 ^ 97 <= n * (n - 1) * 2 ^ (256 * n))%N.
Proof. exact few_repeats. Qed.
Print Assumptions C75_few_repeats.

(** For a million calls: less than one in 10^16. *)
Theorem C75_million : forall P l s B, prims_ok P -> fresh P s -> s_rand s = 0 -> List.NoDup B ->
  (forall T, In T B -> tape_ok (3 * length l) T /\ repeats (with_tape P T) l s) -> (N.of_nat (length l) <= 1000000)%N ->
  (N.of_nat (length B) * 10 ^ 16 <= 2 ^ (256 * N.of_nat (3 * length l)))%N.
Proof. exact million. Qed.
Print Assumptions C75_million.

(** * It is not impossible *)

Definition calls : list op := [Reset (bs "secret"); SetStored (bs "a") (bs "n") [] (bs "p1")].
Definition zeros : tape := repeat (repeat x00 32) 6.
Definition slot_of (l : list op) (k : bytes) : option bytes := final (with_tape toy_release zeros) l start (fun s => s_data s !! k).
Definition the_secret : bytes := repeat x00 32.
Definition slot_a : bytes := get_site_key toy_release (bs "a") the_secret.
Definition sealed_part (v : bytes) : bytes := match b64_decode (skipn 17 v) with Some c => c | None => [] end.
Definition value_at (k : bytes) : bytes := match slot_of calls k with Some v => v | None => [] end.

Lemma zeros_repeat : repeats (with_tape toy_release zeros) calls start.
Proof.
  exists 1, 1. set (P := with_tape toy_release zeros). set (s1 := snd (run P calls start)).
  assert (exists o, nth_error (trace P calls start) 1 = Some (o, s1)) as [o Ho].
  { unfold s1, calls. cbn [trace nth_error run]. destruct (exec P (Reset (bs "secret")) start) as [o1 s2]. cbn [snd].
    destruct (exec P (SetStored (bs "a") (bs "n") [] (bs "p1")) s2) as [o2 s3]. exists o2. reflexivity. }
  exists o, s1, o, s1. split; [exact Ho|]. split; [exact Ho|]. left.
  assert (forall k, slot_of calls k = s_data s1 !! k) as Hs by (intros k; exact (final_run P calls start (fun s => s_data s !! k))).
  exists (bs "hmac-secret"), (value_at (bs "hmac-secret")), slot_a, (value_at slot_a), (repeat x00 12).
  split; [rewrite <- Hs; vm_compute; reflexivity|]. split; [rewrite <- Hs; vm_compute; reflexivity|].
  split; [discriminate|]. split; [vm_compute; discriminate|].
  split; [exists (sealed_part (value_at (bs "hmac-secret"))); vm_compute; reflexivity|].
  split; [exists (sealed_part (value_at slot_a)); vm_compute; reflexivity|].
  intros [E _]. vm_compute in E. discriminate E.
Qed.

Theorem C75_never_refuted : ~ (forall P l s, prims_ok P -> fresh P s -> s_rand s = 0 -> ~ repeats P l s).
Proof.
  intros H. refine (H (with_tape toy_release zeros) calls start _ (start_fresh _) eq_refl zeros_repeat).
  apply with_tape_ok, toy_ok.
Qed.
Print Assumptions C75_never_refuted.

(** The hypotheses of the theorems hold for this sequence. *)
Example C75_example :
  prims_ok toy_release /\ fresh toy_release start /\ s_rand start = 0 /\ List.NoDup [zeros] /\
  (forall T, In T [zeros] -> tape_ok (3 * length calls) T /\ repeats (with_tape toy_release T) calls start).
Proof.
  split; [apply toy_ok|]. split; [apply start_fresh|]. split; [reflexivity|]. split; [constructor; [intros []|constructor]|].
  intros T [<-|[]]. split; [|apply zeros_repeat]. split; [reflexivity|]. repeat constructor.
Qed.
