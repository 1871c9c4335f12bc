(** C52: somebody else changes the file. *)
From stdpp Require Import gmap.
From Verif Require Import M_Base M_Utf8 M_Prims M_Types M_Storage M_Passwords S_Vault M_History S_Api S_History S_Tamper
  P_Base P_Calls P_Tamper T_Toy T_History T_Tamper.

(** C52. Whatever happens to the file at any time, as long as nobody can forge ciphertexts: the secrets and
    notes shown belong to entries that were made with this key by calls ... *)
Theorem C52_only_genuine_passwords : forall P l s0 key h pp x n r t,
  prims_ok P -> locked s0 -> Forall happening_valid l -> unforged P l s0 ->
  let s := later P l s0 in unlocked_with s key h pp ->
  (fst (exec P (Get x n r) s) = OText t ->
     exists i e, genuine P l s0 key i e /\ reveal P pp i (e_secret e) = OText t) /\
  (fst (exec P (GetNotes x n r) s) = OText t ->
     exists i e, genuine P l s0 key i e /\ t = e_notes e).
Proof.
  intros P l s0 key h pp x n r t HP H0 Hv Hu s Hs.
  exact (conj (tamper_get P l s0 HP (or_introl H0) Hv Hu key h pp Hs x n r t)
              (tamper_notes P l s0 HP (or_introl H0) Hv Hu key h pp Hs x n r t)).
Qed.
Print Assumptions C52_only_genuine_passwords.

(** ... listed entries are such entries, with the site, name and revision they were made for ... *)
Theorem C52_only_genuine_listed : forall P l s0 key h pp x pattern ps,
  prims_ok P -> locked s0 -> Forall happening_valid l -> unforged P l s0 ->
  let s := later P l s0 in unlocked_with s key h pp ->
  fst (exec P (ListPasswords x pattern) s) = OPasswords ps ->
  forall i e, In (i, e) ps -> genuine P l s0 key i e.
Proof.
  intros P l s0 key h pp x pattern ps HP H0 Hv Hu s Hs.
  exact (tamper_list P l s0 HP (or_introl H0) Hv Hu key h pp Hs x pattern ps).
Qed.
Print Assumptions C52_only_genuine_listed.

(** ... and so are sites and aliases. *)
Theorem C52_only_genuine_sites : forall P l s0 key h pp,
  prims_ok P -> locked s0 -> Forall happening_valid l -> unforged P l s0 ->
  let s := later P l s0 in unlocked_with s key h pp ->
  (forall pattern ss x a, fst (exec P (ListSites pattern) s) = OSites ss -> In (x, a) ss ->
     once P l s0 key (sets_site P x a)) /\
  (forall x t, fst (exec P (GetAlias x) s) = OText t -> exists y, once P l s0 key (sets_site P y (Some t))).
Proof.
  intros P l s0 key h pp HP H0 Hv Hu s Hs.
  exact (conj (fun pattern ss x a E => tamper_sites P l s0 HP (or_introl H0) Hv Hu key h pp Hs pattern ss E x a)
              (tamper_alias P l s0 HP (or_introl H0) Hv Hu key h pp Hs)).
Qed.
Print Assumptions C52_only_genuine_sites.

Lemma story_parts l : check_story l = true -> Forall happening_valid l /\ unforged toy_release l start.
Proof.
  unfold check_story. rewrite andb_true_iff. intros [H1 H2].
  exact (conj (check_happenings_ok l H2) (check_unforged_ok toy_release l start H1)).
Qed.
(** Two passwords are exchanged in the file: the hypotheses hold, and the values come from entries. *)
Example C52_example :
  let s := later toy_release exchange_story start in
  locked start /\ Forall happening_valid exchange_story /\ unforged toy_release exchange_story start /\
  (exists key h, unlocked_with s key h (bs "secret")) /\
  fst (exec toy_release (Get (bs "a") (bs "n") []) s) = OText (bs "two") /\
  fst (exec toy_release (ListPasswords (bs "a") (bs "*")) s) =
    OPasswords [((bs "b", bs "n", []), mk_entry (SFixed (bs "two")) [])].
Proof.
  intros s. split; [repeat split|]. destruct (story_parts _ exchange_ok) as [H1 H2].
  split; [exact H1|]. split; [exact H2|]. unfold s.
  split; [|split].
  - apply check_open_ok. vm_compute. reflexivity.
  - rewrite <- (finally_eq toy_release exchange_story start (fun s => fst (exec toy_release (Get (bs "a") (bs "n") []) s))).
    vm_compute. reflexivity.
  - rewrite <- (finally_eq toy_release exchange_story start (fun s => fst (exec toy_release (ListPasswords (bs "a") (bs "*")) s))).
    vm_compute. reflexivity.
Qed.

Lemma pid_site_eq (x n r x' n' r' : bytes) : (x, n, r) = (x', n', r') -> x = x'.
Proof. intros H. injection H as H _ _. exact H. Qed.
Lemma exchange_calls l1 o l2 : exchange_story = l1 ++ Call o :: l2 ->
  (forall P i x s, ~ sets_entry P i x s o) \/ o = SetStored (bs "a") (bs "n") [] (bs "one") \/
  (o = SetStored (bs "b") (bs "n") [] (bs "two") /\ l1 = map Call (firstn 2 entries)).
Proof.
  intros El. unfold exchange_story, entries in El. cbn [map app reopened] in El.
  destruct l1 as [|e1 l1]; [injection El as <- _; left; intros P i x s H; exact H|injection El as <- El].
  destruct l1 as [|e2 l1]; [injection El as <- _; right; left; reflexivity|injection El as <- El].
  destruct l1 as [|e3 l1]; [injection El as <- _; right; right; split; reflexivity|injection El as <- El].
  destruct l1 as [|e4 l1]; [discriminate El|injection El as <- El].
  destruct l1 as [|e5 l1]; [injection El as <- _; left; intros P i x s H; exact H|injection El as <- El].
  destruct l1 as [|e6 l1]; [injection El as <- _; left; intros P i x s H; exact H|injection El as <- El].
  destruct l1; discriminate El.
Qed.
Lemma exchange_site : resolved toy_release (later toy_release (map Call (firstn 2 entries)) start) (bs "b") = bs "b".
Proof.
  rewrite <- (finally_eq toy_release (map Call (firstn 2 entries)) start (fun s => resolved toy_release s (bs "b"))).
  vm_compute. reflexivity.
Qed.

(** The value shown need not be that of the entry asked for: entries are not bound to their slots. *)
Theorem C52_entry_asked_for_refuted : ~ (forall P l s0 key h pp x n r t,
  prims_ok P -> locked s0 -> Forall happening_valid l -> unforged P l s0 ->
  let s := later P l s0 in unlocked_with s key h pp -> fst (exec P (Get x n r) s) = OText t ->
  exists e, genuine P l s0 key (resolved P s x, n, rev_of r) e /\ reveal P pp (resolved P s x, n, rev_of r) (e_secret e) = OText t).
Proof.
  intros H. destruct C52_example as (H0 & H1 & H2 & (key & h & Hs) & Hg & _).
  destruct (H toy_release exchange_story start key h (bs "secret") (bs "a") (bs "n") [] (bs "two") (toy_ok _ _) H0 H1 H2 Hs Hg)
    as (e & [(l1 & o & l2 & El & _ & _ & Ho) _] & Er).
  assert (resolved toy_release (later toy_release exchange_story start) (bs "a") = bs "a") as Ea.
  { rewrite <- (finally_eq toy_release exchange_story start (fun s => resolved toy_release s (bs "a"))). vm_compute. reflexivity. }
  rewrite Ea in Ho. destruct (exchange_calls _ _ _ El) as [Hn|[->|[-> ->]]].
  - exact (Hn _ _ _ _ Ho).
  - destruct Ho as [_ Ho]. rewrite Ho in Er. discriminate Er.
  - destruct Ho as [Ho _]. pose proof (pid_site_eq _ _ _ _ _ _ Ho) as Hx. rewrite exchange_site in Hx. discriminate Hx.
Qed.
Print Assumptions C52_entry_asked_for_refuted.

(** An old file brings removed passwords back. *)
Theorem C52_removed_stays_removed_refuted : ~ (forall P l1 l2 s0 key h pp x n r t,
  prims_ok P -> locked s0 -> Forall happening_valid (l1 ++ l2) -> unforged P (l1 ++ l2) s0 ->
  fst (exec P (Remove x n r) (later P l1 s0)) = ODone ->
  l2 = [Call (Remove x n r); Rewritten t; Call Restart; Call (Unlock pp)] ->
  unlocked_with (later P (l1 ++ l2) s0) key h pp ->
  fst (exec P (Has x n r) (later P (l1 ++ l2) s0)) = OBool false).
Proof.
  intros H. destruct (story_parts _ rollback_ok) as [Hv Hu].
  assert (finally toy_release rollback_story start (check_open (bs "secret")) = true) as Ho by (vm_compute; reflexivity).
  destruct (check_open_ok _ _ _ _ Ho) as (key & h & Hs).
  specialize (H toy_release (map Call entries) [Call (Remove (bs "a") (bs "n") []); Rewritten (Some old_file); Call Restart; Call (Unlock (bs "secret"))] start
    key h (bs "secret")
    (bs "a") (bs "n") [] (Some old_file) (toy_ok _ _)).
  change (map Call entries ++ [Call (Remove (bs "a") (bs "n") []); Rewritten (Some old_file); Call Restart; Call (Unlock (bs "secret"))])
    with rollback_story in H.
  assert (locked start) as H0 by (repeat split). specialize (H H0 Hv Hu).
  assert (fst (exec toy_release (Has (bs "a") (bs "n") []) (later toy_release rollback_story start)) = OBool true) as Ht.
  { rewrite <- (finally_eq toy_release rollback_story start (fun s => fst (exec toy_release (Has (bs "a") (bs "n") []) s))).
    vm_compute. reflexivity. }
  rewrite Ht in H. discriminate H.
  - rewrite <- (finally_eq toy_release (map Call entries) start (fun s => fst (exec toy_release (Remove (bs "a") (bs "n") []) s))).
    vm_compute. reflexivity.
  - reflexivity.
  - exact Hs.
Qed.
Print Assumptions C52_removed_stays_removed_refuted.

(** Setting notes can change another entry: they go to the entry found in the slot. *)
Theorem C52_notes_where_asked_refuted : ~ (forall P l s0 key h pp x n r t y m,
  prims_ok P -> locked s0 -> Forall happening_valid l -> unforged P l s0 ->
  let s := later P l s0 in unlocked_with s key h pp ->
  fst (exec P (SetNotes x n r t) s) = ODone -> resolved P s x <> resolved P s y ->
  fst (exec P (GetNotes y m r) (snd (exec P (SetNotes x n r t) s))) = fst (exec P (GetNotes y m r) s)).
Proof.
  intros H. destruct (story_parts _ copy_ok) as [Hv Hu].
  assert (finally toy_release copy_story start (check_open (bs "secret")) = true) as Ho by (vm_compute; reflexivity).
  destruct (check_open_ok _ _ _ _ Ho) as (key & h & Hs).
  assert (locked start) as H0 by (repeat split).
  specialize (H toy_release copy_story start
    key h (bs "secret")
    (bs "a") (bs "n") [] (bs "hi") (bs "b") (bs "n") (toy_ok _ _) H0 Hv Hu). cbv zeta in H.
  assert (fst (exec toy_release (GetNotes (bs "b") (bs "n") []) (later toy_release copy_story start)) = OText []) as E1.
  { rewrite <- (finally_eq toy_release copy_story start (fun s => fst (exec toy_release (GetNotes (bs "b") (bs "n") []) s))).
    vm_compute. reflexivity. }
  assert (fst (exec toy_release (GetNotes (bs "b") (bs "n") []) (snd (exec toy_release (SetNotes (bs "a") (bs "n") [] (bs "hi")) (later toy_release copy_story start)))) = OText (bs "hi")) as E2.
  { rewrite <- (finally_eq toy_release copy_story start
      (fun s => fst (exec toy_release (GetNotes (bs "b") (bs "n") []) (snd (exec toy_release (SetNotes (bs "a") (bs "n") [] (bs "hi")) s))))).
    vm_compute. reflexivity. }
  rewrite E1, E2 in H. discriminate H.
  - exact Hs.
  - rewrite <- (finally_eq toy_release copy_story start (fun s => fst (exec toy_release (SetNotes (bs "a") (bs "n") [] (bs "hi")) s))).
    vm_compute. reflexivity.
  - rewrite <- (finally_eq toy_release copy_story start (fun s => resolved toy_release s (bs "a"))).
    rewrite <- (finally_eq toy_release copy_story start (fun s => resolved toy_release s (bs "b"))). vm_compute. discriminate.
Qed.
Print Assumptions C52_notes_where_asked_refuted.
