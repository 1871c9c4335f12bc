(** C77: What somebody sees who watches the storage file. *)
From stdpp Require Import gmap.
From Verif Require Import M_Base M_Recovery M_Utf8 M_Prims M_Types M_Crypto M_Json M_Serde M_Storage M_Passwords M_History.
From Verif Require Import S_Vault S_Api S_History S_Watch P_Base P_Watch T_Toy T_History Prop_Luck.

(** Two histories that differ in the names of the sites, the names and revisions of passwords, the passwords and notes, the
    primary passwords, the random values and everything that is only read: whoever looks at the two files after each call
    sees entries that can be paired once and for all, with keys and values of the same length and the same entries belonging
    to the same site. The histories must agree in which entries are the same ones and how long their JSON is; what is
    compared with one pairing is the time between two calls of [reset]. *)
Theorem C77_watched : forall P P' sc sc' f l0 l1 l0' l1' s0 s0', fair f ->
  (forall n, p_write P n = WriteOk) -> (forall n, p_write P' n = WriteOk) ->
  sound P sc (l0 ++ l1) s0 -> sound P' sc' (l0' ++ l1') s0' ->
  Forall2 (corresponds f) l0 l0' -> Forall2 (corresponds f) l1 l1' -> Forall (fun o => is_reset o = false) l1 ->
  exists b, pairing b /\ forall k,
    look_alike b (load P (s_disk (snd (run P (l0 ++ firstn k l1) s0)))) (load P' (s_disk (snd (run P' (l0' ++ firstn k l1') s0')))).
Proof. exact watched_alike. Qed.
Print Assumptions C77_watched.

(** What the keys do show: how many sites there are, and how many passwords each of them has. *)
Theorem C77_counts : forall P sc l s0 pp v, (forall n, p_write P n = WriteOk) -> sound P sc l s0 ->
  w_file (fst (vrun P (repeat Saved (length l)) nothing l)) = Some (pp, v) ->
  exists d (ks : bytes -> bytes) (kp : pid -> bytes), load P (s_disk (snd (run P l s0))) = Ok d /\
    (forall x, is_Some (v_sites v !! x) -> is_Some (d !! ks x) /\ length (ks x) = 49) /\
    (forall y, is_Some (v_pw v !! y) -> is_Some (d !! kp y) /\ length (kp y) = 94) /\
    (forall k, is_Some (d !! k) -> length k = 49 -> exists x, is_Some (v_sites v !! x) /\ k = ks x) /\
    (forall k, is_Some (d !! k) -> length k = 94 -> exists y, is_Some (v_pw v !! y) /\ k = kp y) /\
    (forall x x', is_Some (v_sites v !! x) -> is_Some (v_sites v !! x') -> ks x = ks x' -> x = x') /\
    (forall y y', is_Some (v_pw v !! y) -> is_Some (v_pw v !! y') -> kp y = kp y' -> y = y') /\
    (forall y y', is_Some (v_pw v !! y) -> is_Some (v_pw v !! y') -> (firstn 49 (kp y) = firstn 49 (kp y') <-> y.1.1 = y'.1.1)) /\
    (forall x y, is_Some (v_sites v !! x) -> is_Some (v_pw v !! y) -> (firstn 49 (kp y) = ks x <-> y.1.1 = x)).
Proof. exact keys_show. Qed.
Print Assumptions C77_counts.

(** Two texts exchanged. *)
Definition swap (a b x : bytes) : bytes := if bytes_eqb x a then b else if bytes_eqb x b then a else x.
Lemma swap_twice a b x : swap a b (swap a b x) = x.
Proof.
  unfold swap. destruct (bytes_eqb x a) eqn:E1.
  - apply bytes_eqb_eq in E1. subst x. destruct (bytes_eqb b a) eqn:E2; [apply bytes_eqb_eq in E2; congruence|rewrite bytes_eqb_refl; reflexivity].
  - destruct (bytes_eqb x b) eqn:E2; [apply bytes_eqb_eq in E2; subst x; rewrite bytes_eqb_refl; reflexivity|]. rewrite E1, E2. reflexivity.
Qed.
Lemma swap_size a b x : same_size a b -> same_size x (swap a b x).
Proof.
  intros H. unfold swap. destruct (bytes_eqb x a) eqn:E1; [apply bytes_eqb_eq in E1; subst x; exact H|].
  destruct (bytes_eqb x b) eqn:E2; [apply bytes_eqb_eq in E2; subst x; symmetry; exact H|reflexivity].
Qed.
Definition other_names : renaming :=
  mk_renaming (swap (bs "bank.example") (bs "chat.example")) (fun i => (swap (bs "ann") (bs "joe") i.1, i.2)) (fun p => "!"%byte :: p).
Lemma swap_inj a b x y : swap a b x = swap a b y -> x = y.
Proof. intros E. rewrite <- (swap_twice a b x), E. apply swap_twice. Qed.
Lemma other_names_fair : fair other_names.
Proof.
  split.
  - intros x y E. eapply swap_inj. exact E.
  - intros [n r] [n' r'] E. injection E as E Er. apply swap_inj in E. rewrite E, Er. reflexivity.
  - intros p q E. injection E as E. exact E.
  - intros x. apply swap_size. reflexivity.
  - intros n r. split; [apply swap_size|]; reflexivity.
Qed.

Definition seen : list op :=
  [SetStored (bs "bank.example") (bs "ann") (bs "1") (bs "abcdef"); SetGenerated (bs "bank.example") (bs "joe") (bs "2") 16 (mk_charset true true false false);
   ListSites (bs "*"); Lock; Unlock (bs "secret"); SetAlias (bs "chat.example") (bs "bank.example"); SetNotes (bs "chat.example") (bs "ann") [] (bs "note"); Remove (bs "bank.example") (bs "joe") (bs "2")].
Definition seen' : list op :=
  [SetStored (bs "www.chat.example") (bs "joe") [] (bs "123456"); SetGenerated (bs "chat.example") (bs "ann") (bs "2") 20 (mk_charset false true true false);
   Get (bs "chat.example") (bs "joe") []; Lock; Unlock (bs "!secret"); SetAlias (bs "bank.example") (bs "chat.example"); SetNotes (bs "bank.example") (bs "joe") [] (bs "text"); Remove (bs "chat.example") (bs "ann") (bs "2")].

(** Other sites, names, passwords, notes and another primary password: the last file has the same five entries. *)
Example C77_example :
  let l0 := [Reset (bs "secret")] in let l0' := [Reset (bs "!secret")] in
  fair other_names /\ sound toy_release (mentioned (l0 ++ seen)) (l0 ++ seen) start /\ sound other (mentioned (l0' ++ seen')) (l0' ++ seen') start /\
  Forall2 (corresponds other_names) l0 l0' /\ Forall2 (corresponds other_names) seen seen' /\ Forall (fun o => is_reset o = false) seen /\
  let entries P d := match load P d with Ok m => length (p_order P 0 m) | _ => 0 end in
  final toy_release (l0 ++ seen) start (fun s => entries toy_release (s_disk s)) = 5 /\
  final toy_release (l0 ++ firstn 2 seen) start (fun s => entries toy_release (s_disk s)) = 5 /\
  final other (l0' ++ seen') start (fun s => entries other (s_disk s)) = 5 /\
  final toy_release (l0 ++ seen) start (fun s => s_disk s) <> final other (l0' ++ seen') start (fun s => s_disk s).
Proof.
  cbv zeta. split; [apply other_names_fair|]. split; [apply check_sound_ok; [apply toy_ok|vm_compute; reflexivity]|].
  split; [apply check_sound_ok; [apply other_ok|vm_compute; reflexivity]|].
  split; [constructor; [apply (co_reset other_names (bs "secret"))|constructor]|].
  split.
  { apply Forall2_cons; [apply co_stored; reflexivity|]. apply Forall2_cons; [apply co_generated; reflexivity|].
    apply Forall2_cons; [apply co_read; reflexivity|]. apply Forall2_cons; [apply co_lock|].
    apply Forall2_cons; [apply (co_unlock other_names (bs "secret"))|]. apply Forall2_cons; [apply co_set_alias; reflexivity|].
    apply Forall2_cons; [apply co_notes; reflexivity|]. apply Forall2_cons; [apply co_remove; reflexivity|]. apply Forall2_nil. }
  split; [repeat constructor|].
  split; [vm_compute; reflexivity|]. split; [vm_compute; reflexivity|]. split; [vm_compute; reflexivity|]. vm_compute. discriminate.
Qed.

Example C77_counts_example :
  let l := Reset (bs "secret") :: firstn 2 seen in
  sound toy_release (mentioned l) l start /\
  match w_file (fst (vrun toy_release (repeat Saved (length l)) nothing l)) with
  | Some (pp, v) => pp = bs "secret" /\ is_Some (v_sites v !! bs "bank.example") /\
      is_Some (v_pw v !! (bs "bank.example", bs "ann", [])) /\ is_Some (v_pw v !! (bs "bank.example", bs "joe", bs "2"))
  | None => False
  end.
Proof.
  cbv zeta. split; [apply check_sound_ok; [apply toy_ok|vm_compute; reflexivity]|]. vm_compute. eauto 10.
Qed.
