(** C78: Which values in the storage file a call replaces. *)
From stdpp Require Import gmap.
From Verif Require Import M_Base M_Recovery M_Utf8 M_Prims M_Types M_Crypto M_Json M_Serde M_Storage M_Passwords M_History.
From Verif Require Import S_Vault S_Api S_History S_Watch S_Rewrite P_Base P_Watch P_Rewrite T_Toy T_History Prop_Luck Prop_Watch.

(** Between two calls of [reset], every entry of the vault has one key in the file. Comparing the file at two times, the salt
    and the secret are the same, and the value of an entry is the same exactly if no call in between was one that encrypts
    this entry: setting a password (and its site, if the site was unknown), setting notes of an existing password, setting an
    alias. Nonces must not repeat (C36 says how likely that is). *)
Theorem C78_values : forall P sc l0 l1 s0 pp v0, (forall n, p_write P n = WriteOk) -> sound P sc (l0 ++ l1) s0 -> Forall (fun o => is_reset o = false) l1 ->
  (forall a b, a < s_rand (snd (run P (l0 ++ l1) s0)) -> b < s_rand (snd (run P (l0 ++ l1) s0)) -> p_random P a 12 = p_random P b 12 -> a = b) ->
  w_file (world_after P l0) = Some (pp, v0) ->
  exists key : slot -> bytes,
    (forall k, exists v d, w_file (world_after P (l0 ++ firstn k l1)) = Some (pp, v) /\ load P (s_disk (snd (run P (l0 ++ firstn k l1) s0))) = Ok d /\
       (forall y, present v y -> is_Some (d !! key y)) /\
       (forall K, is_Some (d !! K) -> K = bs "salt" \/ K = bs "hmac-secret" \/ exists y, present v y /\ K = key y)) /\
    (forall k k' v v' y y', w_file (world_after P (l0 ++ firstn k l1)) = Some (pp, v) -> w_file (world_after P (l0 ++ firstn k' l1)) = Some (pp, v') ->
       present v y -> present v' y' -> key y = key y' -> y = y') /\
    (forall k1 k2 d1 d2, k1 <= k2 -> load P (s_disk (snd (run P (l0 ++ firstn k1 l1) s0))) = Ok d1 -> load P (s_disk (snd (run P (l0 ++ firstn k2 l1) s0))) = Ok d2 ->
       d1 !! bs "salt" = d2 !! bs "salt" /\ d1 !! bs "hmac-secret" = d2 !! bs "hmac-secret" /\
       forall y v c1 c2, w_file (world_after P (l0 ++ firstn k1 l1)) = Some (pp, v) -> present v y -> d1 !! key y = Some c1 -> d2 !! key y = Some c2 ->
         (c1 = c2 <-> forall k o, k1 <= k < k2 -> l1 !! k = Some o -> ~ replaces (world_after P (l0 ++ firstn k l1)) o y)).
Proof. exact values_change. Qed.
Print Assumptions C78_values.

(** Two histories as in C77: not only are the keys and the lengths of the values the same at all times, but the values that
    change from one time to another are the same ones too. So which values are replaced does not show more than C77 allows. *)
Theorem C78_watched : forall P P' sc sc' f l0 l1 l0' l1' s0 s0', fair f ->
  (forall n, p_write P n = WriteOk) -> (forall n, p_write P' n = WriteOk) ->
  sound P sc (l0 ++ l1) s0 -> sound P' sc' (l0' ++ l1') s0' ->
  Forall2 (corresponds f) l0 l0' -> Forall2 (corresponds f) l1 l1' -> Forall (fun o => is_reset o = false) l1 ->
  (forall a b, a < s_rand (snd (run P (l0 ++ l1) s0)) -> b < s_rand (snd (run P (l0 ++ l1) s0)) -> p_random P a 12 = p_random P b 12 -> a = b) ->
  (forall a b, a < s_rand (snd (run P' (l0' ++ l1') s0')) -> b < s_rand (snd (run P' (l0' ++ l1') s0')) -> p_random P' a 12 = p_random P' b 12 -> a = b) ->
  let look k := load P (s_disk (snd (run P (l0 ++ firstn k l1) s0))) in
  let look' k := load P' (s_disk (snd (run P' (l0' ++ firstn k l1') s0'))) in
  exists b, pairing b /\ (forall k, look_alike b (look k) (look' k)) /\ forall k1 k2, same_equalities b (look k1) (look k2) (look' k1) (look' k2).
Proof. exact rewritten_alike. Qed.
Print Assumptions C78_watched.

Definition all_distinct (P : prims) (n : nat) : bool :=
  forallb (fun a => forallb (fun b => implb (bytes_eqb (p_random P a 12) (p_random P b 12)) (a =? b)) (seq 0 n)) (seq 0 n).
Lemma all_distinct_ok P n : all_distinct P n = true -> forall a b, a < n -> b < n -> p_random P a 12 = p_random P b 12 -> a = b.
Proof.
  intros H a b Ha Hb E. unfold all_distinct in H. rewrite forallb_forall in H. specialize (H a). rewrite forallb_forall in H.
  assert (In a (seq 0 n)) as Ia by (apply in_seq; split; [apply Nat.le_0_l|exact Ha]). assert (In b (seq 0 n)) as Ib by (apply in_seq; split; [apply Nat.le_0_l|exact Hb]).
  specialize (H Ia b Ib). rewrite E, bytes_eqb_refl in H. cbn [implb] in H. apply Nat.eqb_eq, H.
Qed.

(** The entries with the same value in two files. *)
Definition kept (P : prims) (a b : option bytes) : nat :=
  match load P a, load P b with
  | Ok d, Ok e => length (List.filter (fun k => match d !! k, e !! k with Some x, Some y => bytes_eqb x y | _, _ => false end) (p_order P 0 d))
  | _, _ => 0
  end.
Definition kept_after (P : prims) (l0 l1 : list op) (k1 k2 : nat) : nat :=
  final P (l0 ++ firstn k1 l1) start (fun s => final P (l0 ++ firstn k2 l1) start (fun s' => kept P (s_disk s) (s_disk s'))).

(** The two histories of C77. The call that sets notes replaces one of six values; the second password, the first time that
    the site exists, adds one value and replaces none. *)
Example C78_example :
  let l0 := [Reset (bs "secret")] in let l0' := [Reset (bs "!secret")] in
  fair other_names /\ sound toy_release (mentioned (l0 ++ seen)) (l0 ++ seen) start /\ sound other (mentioned (l0' ++ seen')) (l0' ++ seen') start /\
  all_distinct toy_release (final toy_release (l0 ++ seen) start s_rand) = true /\ all_distinct other (final other (l0' ++ seen') start s_rand) = true /\
  kept_after toy_release l0 seen 6 7 = 5 /\ kept_after other l0' seen' 6 7 = 5 /\
  kept_after toy_release l0 seen 1 2 = 4 /\ kept_after other l0' seen' 1 2 = 4 /\
  match w_mem (world_after toy_release (l0 ++ firstn 6 seen)) with
  | Some (_, v) => rewrites v (SetNotes (bs "chat.example") (bs "ann") [] (bs "note")) (inr (bs "bank.example", bs "ann", []))
  | None => False
  end /\
  match w_mem (world_after toy_release (l0 ++ firstn 1 seen)) with
  | Some (_, v) => ~ rewrites v (SetGenerated (bs "bank.example") (bs "joe") (bs "2") 16 (mk_charset true true false false)) (inl (bs "bank.example"))
  | None => False
  end.
Proof.
  cbv zeta. split; [apply other_names_fair|]. split; [apply check_sound_ok; [apply toy_ok|vm_compute; reflexivity]|].
  split; [apply check_sound_ok; [apply other_ok|vm_compute; reflexivity]|].
  do 2 (split; [vm_compute; reflexivity|]). do 2 (split; [vm_compute; reflexivity|]). do 2 (split; [vm_compute; reflexivity|]). split.
  - vm_compute. eauto.
  - vm_compute. intros [Hr|[_ Hr]]; discriminate Hr.
Qed.
