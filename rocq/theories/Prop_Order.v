(** C79: It does not show how a vault came about. *)
From stdpp Require Import gmap.
From Verif Require Import M_Base M_Recovery M_Utf8 M_Prims M_Types M_Crypto M_Json M_Serde M_Storage M_Passwords M_History.
From Verif Require Import S_Vault S_Api S_History S_Watch S_Rewrite S_Order P_Base P_Order P_Permute T_Toy T_History.

(** Two histories that end with the same entries, whatever calls led there, with whatever primary passwords and random values:
    the entries of the two files can be paired, with keys and values of the same length. What was removed or overwritten, and
    how often, leaves no trace in the file but for the random nonces. *)
Theorem C79_file : forall P P' sc sc' l l' s0 s0', (forall n, p_write P n = WriteOk) -> (forall n, p_write P' n = WriteOk) ->
  sound P sc l s0 -> sound P' sc' l' s0' -> same_contents (w_file (world_after P l)) (w_file (world_after P' l')) ->
  exists b, pairing b /\ look_alike b (load P (s_disk (snd (run P l s0)))) (load P' (s_disk (snd (run P' l' s0')))).
Proof. exact history_hidden. Qed.
Print Assumptions C79_file.

(** Later calls have the same results. *)
Theorem C79_later : forall P sc sc' l l' m s0 s0', (forall n, p_write P n = WriteOk) -> sound P sc (l ++ m) s0 -> sound P sc' (l' ++ m) s0' ->
  same_state (world_after P l) (world_after P l') ->
  Forall2 (same_answer P) (fst (run P m (snd (run P l s0)))) (fst (run P m (snd (run P l' s0')))).
Proof. exact later_same. Qed.
Print Assumptions C79_later.

(** Two calls that have nothing to do with each other can be exchanged: each has the same result, so have all later calls, and
    the entries are the same in the end. *)
Theorem C79_order : forall P sc sc' l a b m s0 pp v, (forall n, p_write P n = WriteOk) ->
  sound P sc (l ++ a :: b :: m) s0 -> sound P sc' (l ++ b :: a :: m) s0 ->
  w_open (world_after P l) = true -> w_mem (world_after P l) = Some (pp, v) -> independent v a b ->
  exists ra rb ra' rb' rs rs',
    fst (run P (a :: b :: m) (snd (run P l s0))) = ra :: rb :: rs /\ fst (run P (b :: a :: m) (snd (run P l s0))) = rb' :: ra' :: rs' /\
    same_answer P ra ra' /\ same_answer P rb rb' /\ Forall2 (same_answer P) rs rs' /\
    same_state (world_after P (l ++ a :: b :: m)) (world_after P (l ++ b :: a :: m)).
Proof. exact order_hidden. Qed.
Print Assumptions C79_order.

(** So can any number of calls of which no two have anything to do with each other be made in any order. *)
Theorem C79_any_order : forall P sc sc' l a b m s0 pp v, (forall n, p_write P n = WriteOk) ->
  sound P sc (l ++ a ++ m) s0 -> sound P sc' (l ++ b ++ m) s0 ->
  w_open (world_after P l) = true -> w_mem (world_after P l) = Some (pp, v) -> unrelated v a -> Permutation a b ->
  let q := fst (run P (a ++ m) (snd (run P l s0))) in let q' := fst (run P (b ++ m) (snd (run P l s0))) in
  (forall o r, In (o, r) (combine a (firstn (length a) q)) -> exists r', In (o, r') (combine b (firstn (length b) q')) /\ same_answer P r r') /\
  Forall2 (same_answer P) (skipn (length a) q) (skipn (length b) q') /\
  same_state (world_after P (l ++ a ++ m)) (world_after P (l ++ b ++ m)).
Proof. exact any_order. Qed.
Print Assumptions C79_any_order.

(** Changes taken back or overwritten: a password that is set and removed again, one that is set twice, an alias that is set
    and removed again. *)
Theorem C79_undone : forall P l pp v s n r t a, w_open (world_after P l) = true -> w_mem (world_after P l) = Some (pp, v) ->
  same_saved (w_file (world_after P l)) (w_mem (world_after P l)) ->
  let i := (target v s, n, rev_of r) in
  (is_Some (v_sites v !! target v s) -> v_pw v !! i = None -> same_state (world_after P (l ++ [SetStored s n r t; Remove s n r])) (world_after P l)) /\
  (forall t', same_state (world_after P (l ++ [SetStored s n r t; SetStored s n r t'])) (world_after P (l ++ [SetStored s n r t']))) /\
  (v_sites v !! host s = None -> has_passwords v (host s) = false -> host s <> target v a ->
     same_state (world_after P (l ++ [SetAlias s a; RemoveAlias s])) (world_after P l)).
Proof. exact taken_back. Qed.
Print Assumptions C79_undone.

Definition so_far : list op := [Reset (bs "secret"); SetStored (bs "bank.example") (bs "ann") [] (bs "abc")].
Definition one : op := SetGenerated (bs "mail.example") (bs "joe") (bs "2") 16 (mk_charset true true true false).
Definition two : op := SetAlias (bs "www.chat.example") (bs "bank.example").
Definition then_ : list op := [ListSites (bs "*"); Get (bs "chat.example") (bs "ann") []; Remove (bs "mail.example") (bs "joe") (bs "2"); SetNotes (bs "bank.example") (bs "ann") [] (bs "x")].

(** A new password and an alias in either order. *)
Example C79_example :
  sound toy_release (mentioned (so_far ++ one :: two :: then_)) (so_far ++ one :: two :: then_) start /\
  sound toy_release (mentioned (so_far ++ two :: one :: then_)) (so_far ++ two :: one :: then_) start /\
  w_open (world_after toy_release so_far) = true /\
  match w_mem (world_after toy_release so_far) with Some (_, v) => independent v one two | None => False end /\
  match fst (run toy_release (so_far ++ one :: two :: then_) start) with
  | [_; _; ODone; ODone; OSites l; OText t; ODone; ODone] => length l = 3 /\ t = bs "abc"
  | _ => False
  end /\
  final toy_release (so_far ++ one :: two :: then_) start (fun s => s_disk s) <> final toy_release (so_far ++ two :: one :: then_) start (fun s => s_disk s).
Proof.
  split; [apply check_sound_ok; [apply toy_ok|vm_compute; reflexivity]|]. split; [apply check_sound_ok; [apply toy_ok|vm_compute; reflexivity]|].
  split; [vm_compute; reflexivity|]. split.
  - vm_compute. split; [exact I|]. split; [exact I|]. split; split.
    + intros x [].
    + intros i ->. split; [tauto|]. intros (s & t & E & H). injection E as <- _. vm_compute in H. discriminate H.
    + intros x ->. split; [discriminate|]. split; [tauto|discriminate].
    + intros i [].
  - split; [vm_compute; split; reflexivity|]. vm_compute. discriminate.
Qed.

(** A new password, an alias and a note; one of the calls fails in any order. *)
Definition three : op := SetNotes (bs "bank.example") (bs "ann") [] (bs "note").
Definition four : op := Remove (bs "bank.example") (bs "joe") [].
Ltac side := split; [exact I|]; split; [exact I|]; split; split; intros x F; try contradiction F; subst x; repeat split; try (intros F; discriminate F); try tauto;
  intros (s & t & E & H); (discriminate E || (injection E as <- _; vm_compute in H; discriminate H)).
Example C79_any_order_example :
  sound toy_release (mentioned (so_far ++ [one; two; three; four] ++ then_)) (so_far ++ [one; two; three; four] ++ then_) start /\
  sound toy_release (mentioned (so_far ++ [four; three; one; two] ++ then_)) (so_far ++ [four; three; one; two] ++ then_) start /\
  match w_mem (world_after toy_release so_far) with Some (_, v) => unrelated v [one; two; three; four] | None => False end /\
  Permutation [one; two; three; four] [four; three; one; two] /\
  match fst (run toy_release (so_far ++ [one; two; three; four] ++ then_) start) with
  | [_; _; ODone; ODone; ODone; OErr KeyMissing; OSites _; OText _; ODone; ODone] => True
  | _ => False
  end.
Proof.
  split; [apply check_sound_ok; [apply toy_ok|vm_compute; reflexivity]|]. split; [apply check_sound_ok; [apply toy_ok|vm_compute; reflexivity]|]. split; [|split].
  - assert (match w_mem (world_after toy_release so_far) with
      | Some (_, v) => target v (bs "bank.example") = bs "bank.example" /\ target v (bs "mail.example") = bs "mail.example" | None => False end) as H
      by (vm_compute; split; reflexivity).
    destruct (w_mem (world_after toy_release so_far)) as [[pp v]|]; [|exact H]. destruct H as [H1 H2].
    assert (host (bs "bank.example") = bs "bank.example" /\ host (bs "mail.example") = bs "mail.example" /\ host (bs "www.chat.example") = bs "chat.example") as (E1 & E2 & E3)
      by (vm_compute; repeat split; reflexivity).
    split; [repeat (constructor; [exact I|]); constructor|].
    repeat (constructor; [repeat (constructor; [unfold independent, apart; cbn [writing follows redirects adds edits one two three four]; rewrite ?H1, ?H2, ?E1, ?E2, ?E3; side|]); constructor|]). constructor.
  - transitivity [four; one; two; three]; [symmetry; apply (Permutation_cons_append [one; two; three] four)|].
    constructor. symmetry. apply (Permutation_cons_append [one; two] three).
  - vm_compute. exact I.
Qed.

(** A password that was set and removed again cannot be found in the file. *)
Definition set_and_removed : list op := so_far ++ [SetStored (bs "bank.example") (bs "joe") [] (bs "xyz"); Remove (bs "bank.example") (bs "joe") []].
Example C79_file_example :
  sound toy_release (mentioned set_and_removed) set_and_removed start /\ sound toy_release (mentioned so_far) so_far start /\
  match w_mem (world_after toy_release so_far) with
  | Some (_, v) => is_Some (v_sites v !! target v (bs "bank.example")) /\ v_pw v !! (target v (bs "bank.example"), bs "joe", rev_of []) = None
  | None => False
  end /\
  same_saved (w_file (world_after toy_release so_far)) (w_mem (world_after toy_release so_far)) /\
  final toy_release set_and_removed start s_rand <> final toy_release so_far start s_rand.
Proof.
  split; [apply check_sound_ok; [apply toy_ok|vm_compute; reflexivity]|]. split; [apply check_sound_ok; [apply toy_ok|vm_compute; reflexivity]|].
  split; [vm_compute; eauto|]. split; [split; [vm_compute; reflexivity|vm_compute; split; intros; reflexivity]|]. vm_compute. discriminate.
Qed.
Example C79_file_follows : exists b, pairing b /\
  look_alike b (load toy_release (s_disk (snd (run toy_release set_and_removed start)))) (load toy_release (s_disk (snd (run toy_release so_far start)))).
Proof.
  destruct C79_file_example as (H1 & H2 & H3 & H4 & _). destruct (w_mem (world_after toy_release so_far)) as [[pp v]|] eqn:E; [|destruct H3].
  destruct H3 as [Ha Hb].
  assert (Ho : w_open (world_after toy_release so_far) = true) by (vm_compute; reflexivity). rewrite <- E in H4.
  destruct (C79_undone toy_release so_far pp v (bs "bank.example") (bs "joe") [] (bs "xyz") [] Ho E H4) as [H _].
  apply (C79_file toy_release toy_release _ _ set_and_removed so_far start start (fun _ => eq_refl) (fun _ => eq_refl) H1 H2).
  exact (proj2 (proj2 (proj2 (H Ha Hb)))).
Qed.
